(** Facts for queries: compiling a text gives a query or ValueError, and every
    function a compiled query is made of keeps a property closed under
    combination. *)
From Verif Require Import SpecQuery UtilFacts UtilFacts2 AxisFacts3 HierFacts QueryFacts5 QueryFacts9 QueryFacts12.

Definition fine {A} (P : A -> Prop) (r : res A) : Prop := match r with Ok x => P x | Err e => e = ValueError end.
Lemma fine_bind {A B} (P : A -> Prop) (Q : B -> Prop) r (f : A -> res B) : fine P r -> (forall x, r = Ok x -> P x -> fine Q (f x)) -> fine Q (bind r f).
Proof. destruct r as [x|e]; cbn [fine bind]; intros H K; [apply K; [reflexivity|exact H]|exact H]. Qed.
Lemma fine_map {A B} (P : B -> Prop) (f : A -> res B) l e : (forall x, In x l -> fine P (f x)) -> (e = None \/ e = Some ValueError) -> fine (Forall P) (map_list f l e).
Proof.
  intros H He. induction l as [|x l IH]; cbn [map_list].
  - destruct He as [->| ->]; cbn [fine]; [constructor|reflexivity].
  - eapply fine_bind; [exact (H x (or_introl eq_refl))|]. intros y _ Py. eapply fine_bind; [apply IH; intros z Hz; apply H; right; exact Hz|]. intros ys _ Pys. cbn [fine]. constructor; auto.
Qed.
Lemma fine_any {A} (P : A -> Prop) r : fine P r -> fine (fun _ => True) r.
Proof. destruct r; cbn; auto. Qed.
Lemma descape_fine s : fine (fun _ => True) (descape s).
Proof. unfold descape. destruct (descape_loop s [] false) eqn:E; cbn [fine]; [exact Logic.I|exact (descape_err _ _ _ _ E)]. Qed.
Lemma usplit_err u ys err : u_wf u -> (err = None \/ err = Some ValueError) -> forall cur, snd (usplit_loop u cur ys err) = None \/ snd (usplit_loop u cur ys err) = Some ValueError.
Proof.
  intros Hu He. induction ys as [|y ys IH]; intros cur; cbn [usplit_loop].
  - destruct He as [->| ->]; [|right; reflexivity]. destruct (u_slice_total u (Some cur) None Hu) as (v & ->). left. reflexivity.
  - destruct (u_slice_total u (Some cur) (Some y) Hu) as (v & ->). specialize (IH (y + 1)). destruct (usplit_loop u (y + 1) ys err). exact IH.
Qed.
Lemma find_err u chars e a b : u_wf u -> chars <> [] -> snd (find_unescaped u chars [e] a b) = None \/ snd (find_unescaped u chars [e] a b) = Some ValueError.
Proof.
  intros Hu Hc. rewrite (find_unescaped_scan u chars e a b Hu Hc). cbn [snd]. destruct (snd (scan _ _ _ _ _)); auto.
Qed.
Lemma pieces_err v : snd (pieces v) = None \/ snd (pieces v) = Some ValueError.
Proof.
  unfold pieces. cbn [snd]. unfold split_unescaped. pose proof (find_err (UStr v) (lit ",") 92 None None Logic.I ltac:(discriminate)) as H.
  change (lit "\") with [92]. destruct (find_unescaped (UStr v) (lit ",") [92] None None) as [ys er]. cbn [snd] in H. apply (usplit_err (UStr v)); [exact Logic.I|exact H].
Qed.
Lemma descaped_fine v : fine (fun _ => True) (descaped v).
Proof. unfold descaped, g_map. eapply fine_any. apply fine_map; [intros x _; apply descape_fine|apply pieces_err]. Qed.
Lemma index_range_fine E c : fine (fun _ => True) (index_range E c).
Proof.
  unfold index_range. destruct (py_split c (lit "-") (-1)) as [|a [|b [|d l]]]; try reflexivity.
  - destruct (py_int E a); cbn; auto.
  - destruct (py_int E a); [|reflexivity]. destruct (py_all_class _ b); [destruct (py_int E b); cbn; auto|]. destruct b; [exact Logic.I|]. destruct (py_all_class _ _); cbn; auto.
Qed.

(** -- the parenthesis loop -- *)
Lemma Forall_firstn' {A} (P : A -> Prop) n l : Forall P l -> Forall P (firstn n l).
Proof. intros H. revert n. induction H; intros [|n]; cbn; constructor; auto. Qed.
Lemma Forall_skipn' {A} (P : A -> Prop) n l : Forall P l -> Forall P (skipn n l).
Proof. intros H. revert n. induction H; intros [|n]; cbn; auto. Qed.
Lemma last_with_inv c ops : forall i acc k, last_with c ops i acc = Some k ->
  (acc = Some k /\ none_has c ops) \/ exists a o b, ops = a ++ o :: b /\ has c o = true /\ none_has c b /\ k = (i + length a)%nat.
Proof.
  induction ops as [|x ops IH]; intros i acc k; cbn [last_with]; [intros ->; left; split; [reflexivity|constructor]|].
  intros H. apply IH in H. destruct H as [[H N]|(a & o & b & -> & Ho & Nb & ->)].
  - destruct (has c x) eqn:Ex.
    + injection H as <-. right. exists [], x, ops. cbn [app length]. repeat split; auto; lia.
    + left. split; [exact H|]. constructor; assumption.
  - right. exists (x :: a), o, b. cbn [app length]. repeat split; auto; lia.
Qed.
Lemma last_with_none_inv c ops : forall i acc, last_with c ops i acc = None -> none_has c ops.
Proof.
  induction ops as [|x ops IH]; intros i acc; cbn [last_with]; [constructor|]. intros H. pose proof (IH _ _ H) as N. constructor; [|exact N]. destruct (has c x); [|reflexivity].
  rewrite (last_with_none c ops N) in H. discriminate.
Qed.
Lemma first_with_inv c ops : forall i k, first_with c ops i = Some k -> exists a o b, ops = a ++ o :: b /\ has c o = true /\ none_has c a /\ k = (i + length a)%nat.
Proof.
  induction ops as [|x ops IH]; intros i k; cbn [first_with]; [discriminate|]. destruct (has c x) eqn:Ex.
  - intros [= <-]. exists [], x, ops. cbn [app length]. split; [reflexivity|]. split; [exact Ex|]. split; [constructor|lia].
  - intros H. destruct (IH _ _ H) as (a & o & b & -> & Ho & N & ->). exists (x :: a), o, b. cbn [app length]. split; [reflexivity|]. split; [exact Ho|]. split; [constructor; assumption|lia].
Qed.
Lemma last_split (c : Z) s : In c s -> exists a b, s = a ++ c :: b /\ ~ In c b.
Proof.
  induction s as [|x s IH]; [intros []|]. intros H. destruct (in_dec Z.eq_dec c s) as [I1|N].
  - destruct (IH I1) as (a & b & -> & Nb). exists (x :: a), b. split; [reflexivity|exact Nb].
  - destruct H as [->|I1]; [|contradiction]. exists [], s. auto.
Qed.
Lemma first_split (c : Z) s : In c s -> exists a b, s = a ++ c :: b /\ ~ In c a.
Proof.
  induction s as [|x s IH]; [intros []|]. intros H. destruct (Z.eq_dec x c) as [->|N].
  - exists [], s. split; [reflexivity|intros []].
  - destruct H as [->|I1]; [contradiction|]. destruct (IH I1) as (a & b & -> & Na). exists (x :: a), b. split; [reflexivity|]. intros [X|X]; contradiction.
Qed.
Lemma total_app c a b : total_count c (a ++ b) = (total_count c a + total_count c b)%nat.
Proof. unfold total_count. rewrite concat_app, filter_app, app_length. reflexivity. Qed.
Lemma total_cons c o b : total_count c (o :: b) = (count_char c o + total_count c b)%nat.
Proof. unfold total_count, count_char. cbn [concat]. rewrite filter_app, app_length. reflexivity. Qed.
Lemma count_app c a b : count_char c (a ++ b) = (count_char c a + count_char c b)%nat.
Proof. unfold count_char. rewrite filter_app, app_length. reflexivity. Qed.
Lemma count_none c s : ~ In c s -> count_char c s = 0%nat.
Proof.
  intros N. unfold count_char. induction s as [|x s IH]; [reflexivity|]. cbn [filter]. destruct (Z.eqb_spec c x) as [->|_]; [exfalso; apply N; left; reflexivity|]. apply IH. intros X. apply N. right. exact X.
Qed.
Lemma total_none c ops : none_has c ops -> total_count c ops = 0%nat.
Proof. intros N. apply none_has_concat in N. exact (count_none c _ N). Qed.

Section keep.
Context (P : ecf -> Prop).
Context (HP : forall fs ops, Forall P fs -> fs <> [] -> length ops = S (length fs) -> P (combined_func fs ops)).

Lemma paren_fine sub : (forall fs ops, Forall P fs -> none_has c_open ops -> fine P (sub fs ops)) ->
  forall n fs ops, (total_count c_open ops < n)%nat -> Forall P fs -> fs <> [] -> length ops = S (length fs) ->
  fine (fun x => Forall P (fst x) /\ fst x <> [] /\ length (snd x) = S (length (fst x))) (paren_loop sub n fs ops).
Proof.
  intros Hsub. induction n as [|n IH]; intros fs ops Hn Pf Nf Lo; [lia|]. cbn [paren_loop].
  destruct (last_with c_open ops 0 None) as [i|] eqn:Ei; [|cbn [fine fst snd]; auto].
  apply last_with_inv in Ei. destruct Ei as [[Ei _]|(a & o & b & -> & Ho & Nb & ->)]; [discriminate|].
  apply has_In in Ho. destruct (last_split c_open o Ho) as (pre & tmp & -> & Nt). cbn [Nat.add]. rewrite nth_mid, (rpartition_char c_open pre tmp Nt). cbn beta iota.
  destruct (has c_close tmp) eqn:Etc; [reflexivity|]. rewrite skipn_mid.
  destruct (first_with c_close b (S (length a))) as [j|] eqn:Ej; [|reflexivity].
  apply first_with_inv in Ej. destruct Ej as (b1 & o2 & b2 & -> & Ho2 & Nb1 & ->). apply has_In in Ho2. destruct (first_split c_close o2 Ho2) as (inner & post & -> & Ni).
  assert (Nb' := Nb). apply Forall_app in Nb'. destruct Nb' as [Nb1o Nb2]. inversion Nb2 as [|? ? No2 Nb2' Eq0]; subst. apply has_not in No2.
  assert (Npost : ~ In c_open post) by (intros X; apply No2; rewrite in_app_iff; right; right; exact X).
  assert (Ninner : ~ In c_open inner) by (intros X; apply No2; rewrite in_app_iff; left; exact X).
  rewrite !app_length in Lo. cbn [length] in Lo. rewrite app_length in Lo. cbn [length] in Lo.
  rewrite total_app, total_cons, count_app, total_app, total_cons, (total_none _ _ Nb1o), (count_none _ _ No2), (total_none _ _ Nb2') in Hn. 
  assert (C1 : count_char c_open (c_open :: tmp) = 1%nat) by (change (c_open :: tmp) with ([c_open] ++ tmp); rewrite count_app, (count_none _ _ Nt); reflexivity).
  rewrite C1 in Hn.
  assert (E0 : nth (S (length a) + length b1) (a ++ (pre ++ c_open :: tmp) :: b1 ++ (inner ++ c_close :: post) :: b2) [] = inner ++ c_close :: post).
  { replace (S (length a) + length b1)%nat with (length (a ++ (pre ++ c_open :: tmp) :: b1)) by (rewrite app_length; cbn; lia).
    replace (a ++ (pre ++ c_open :: tmp) :: b1 ++ (inner ++ c_close :: post) :: b2) with ((a ++ (pre ++ c_open :: tmp) :: b1) ++ (inner ++ c_close :: post) :: b2) by (rewrite <- app_assoc; reflexivity). apply nth_mid. }
  rewrite E0, (partition_char c_close inner post Ni). cbn beta iota.
  replace (S (length a) + length b1 - length a)%nat with (S (length b1)) by lia.
  destruct (S (length b1) =? 1)%nat eqn:E1.
  - apply Nat.eqb_eq in E1. destruct b1 as [|? ?]; [|cbn in E1; lia]. cbn [app length] in *. rewrite Nat.add_0_r.
    assert (ES : set_nth (length a) tmp (set_nth (S (length a)) post (a ++ (pre ++ c_open :: tmp) :: (inner ++ c_close :: post) :: b2)) = a ++ tmp :: post :: b2).
    { unfold set_nth at 2. replace (a ++ (pre ++ c_open :: tmp) :: (inner ++ c_close :: post) :: b2) with ((a ++ [pre ++ c_open :: tmp]) ++ (inner ++ c_close :: post) :: b2) by (rewrite <- app_assoc; reflexivity).
      replace (S (length a)) with (length (a ++ [pre ++ c_open :: tmp])) by (rewrite app_length; cbn; lia). rewrite firstn_mid, skipn_mid, <- app_assoc. cbn [app].
      unfold set_nth. rewrite firstn_mid, skipn_mid. reflexivity. }
    rewrite ES. apply IH; auto.
    + rewrite total_app, !total_cons, (count_none _ _ Nt), (count_none _ _ Npost), (total_none _ _ Nb2'). lia.
    + rewrite app_length. cbn [length]. lia.
  - apply Nat.eqb_neq in E1. eapply fine_bind.
    + apply Hsub.
      * apply Forall_firstn', Forall_skipn'. exact Pf.
      * constructor; [apply has_not; exact Nt|]. apply Forall_app. split; [|constructor; [apply has_not; exact Ninner|constructor]].
        replace (S (length b1) - 1)%nat with (length b1) by lia. rewrite firstn_mid. exact Nb1o.
    + intros f _ Pf'. apply IH.
      * rewrite firstn_mid. replace (a ++ (pre ++ c_open :: tmp) :: b1 ++ (inner ++ c_close :: post) :: b2) with ((a ++ (pre ++ c_open :: tmp) :: b1) ++ (inner ++ c_close :: post) :: b2) by (rewrite <- app_assoc; reflexivity).
        replace (S (S (length a) + length b1)) with (S (length (a ++ (pre ++ c_open :: tmp) :: b1))) by (rewrite app_length; cbn; lia). rewrite skipn_mid.
        rewrite total_app, !total_cons, (count_none _ _ Npost), (total_none _ _ Nb2'). lia.
      * apply Forall_app. split; [apply Forall_firstn'; exact Pf|]. constructor; [exact Pf'|apply Forall_skipn'; exact Pf].
      * destruct (firstn (length a) fs); discriminate.
      * rewrite !app_length. cbn [length]. rewrite !firstn_length, !skipn_length, !app_length. cbn [length]. rewrite app_length. cbn [length]. lia.
Qed.

Lemma combined_flat_fine m fs ops : Forall P fs -> none_has c_open ops -> fine P (ecf_combined (S m) fs ops).
Proof.
  intros Pf N. cbn [ecf_combined]. destruct (Nat.eqb_spec (length fs) 0) as [|Lf]; [reflexivity|]. destruct (Nat.eqb_spec (length ops) (length fs + 1)) as [Lo|]; [|reflexivity]. cbn [negb].
  destruct (negb _); [reflexivity|]. destruct (negb _); [reflexivity|]. cbn [paren_loop]. rewrite (last_with_none c_open ops N). cbn [bind fine fst snd].
  apply HP; [exact Pf|intros ->; apply Lf; reflexivity|lia].
Qed.
Lemma combined_fine fs ops : Forall P fs -> fine P (combined fs ops).
Proof.
  intros Pf. unfold combined. remember 1%nat as m eqn:Em. cbn [ecf_combined]. destruct (Nat.eqb_spec (length fs) 0) as [|Lf]; [reflexivity|]. destruct (Nat.eqb_spec (length ops) (length fs + 1)) as [Lo|]; [|reflexivity]. cbn [negb].
  destruct (negb _); [reflexivity|]. destruct (negb _); [reflexivity|]. subst m. eapply fine_bind.
  - apply (paren_fine (ecf_combined 1)); [intros fs' ops' Pf' N'; apply combined_flat_fine; assumption|lia|exact Pf|intros ->; apply Lf; reflexivity|lia].
  - intros [fs' ops'] _ (P1 & P2 & P3). cbn [fst snd] in *. cbn [fine]. apply HP; assumption.
Qed.
Lemma groups_fine o c s : forall bs depth pre cur, fine (fun _ => True) (groups o c s bs depth pre cur).
Proof.
  induction s as [|x s IH]; intros bs depth pre cur; cbn [groups]; [destruct depth; cbn; auto|]. destruct depth as [|d].
  - destruct (_ && _); apply IH.
  - destruct (_ && _); [apply IH|]. destruct (_ && _); [|apply IH]. destruct d; [|apply IH]. eapply fine_bind; [apply IH|]. intros y _ _. exact Logic.I.
Qed.
Lemma group_ops_fine E gs post : forall first, fine (fun _ => True) (group_ops E first gs post).
Proof.
  induction gs as [|[op g] gs IH]; intros first; cbn [group_ops]; [exact Logic.I|]. destruct (_ && _); [reflexivity|]. eapply fine_bind; [apply IH|]. intros; exact Logic.I.
Qed.
Context (E : pyenv).
Context (HF : forall n k v, fine P (filter_func E n k v)) (HT : P tautology).
Lemma ecf_filter_fine s : fine P (ecf_filter E s).
Proof.
  unfold ecf_filter. destruct (negb _); [reflexivity|]. eapply fine_bind; [apply groups_fine|]. intros y _ _. eapply fine_bind; [apply group_ops_fine|]. intros ops _ _.
  eapply fine_bind; [apply fine_map; [|left; reflexivity]|].
  - intros g _. unfold one_filter. destruct (parse_filter E (snd g)) as [[[n k] v]|]; [|reflexivity]. apply HF.
  - intros fs _ Pf. apply combined_fine. exact Pf.
Qed.
Definition fit_phrase (p : phrase) : Prop := P (ph_filter p) /\ P (ph_sub p).
Context (HS : forall q, Forall fit_phrase q -> P (sub_func q)).
Lemma ecf_subquery_fine parse s bs : (forall t, (length t < length s)%nat -> fine (Forall fit_phrase) (parse t)) -> fine P (ecf_subquery E parse s bs).
Proof.
  intros H. unfold ecf_subquery. destruct (find_curl s _) as [k|] eqn:Ek; [|reflexivity]. pose proof (find_curl_bound _ _ _ Ek) as Lk. destruct (negb _); [reflexivity|].
  eapply fine_bind; [apply groups_fine|]. intros y Ey _. eapply fine_bind; [apply group_ops_fine|]. intros ops _ _.
  eapply fine_bind; [apply fine_map; [|left; reflexivity]|intros fs _ Pf; apply combined_fine; exact Pf].
  intros z Hz. apply groups_lengths in Ey. rewrite Forall_forall in Ey. apply Ey in Hz as [H1 H2]. rewrite rev_length, firstn_length, skipn_length in H1.
  eapply fine_bind; [apply H|intros q _ Hq; cbn [fine]; apply HS; exact Hq]. rewrite removelast_len. destruct (snd z); cbn [tl length] in *; lia.
Qed.
Lemma parse_phrase_fine parse p : (forall t, (length t < length p)%nat -> fine (Forall fit_phrase) (parse t)) -> fine fit_phrase (parse_phrase E parse p).
Proof.
  intros H. unfold parse_phrase. destruct (parse_axis p) as [[ax n]|]; [|reflexivity].
  assert (HN : fine (fun _ => True) (g_next (find_unescaped (UStr p) [123] (lit "\") (Some (Z.of_nat n)) None))).
  { pose proof (find_err (UStr p) [123] 92 (Some (Z.of_nat n)) None Logic.I ltac:(discriminate)) as HE. change (lit "\") with [92].
    destruct (find_unescaped (UStr p) [123] [92] (Some (Z.of_nat n)) None) as [[|y ys] er]; cbn [g_next snd] in *; [|exact Logic.I]. destruct HE as [-> | ->]; cbn; auto. }
  assert (HF' : forall s, fine P (match py_strip (py_isspace E) s None with [] => Ok tautology | f => ecf_filter E f end)).
  { intros s. destruct (py_strip _ s None); [exact HT|apply ecf_filter_fine]. }
  eapply fine_bind; [exact HN|]. intros [z|] _ _.
  - eapply fine_bind; [apply ecf_subquery_fine|].
    + intros t Ht. apply H. eapply Nat.lt_le_trans; [exact Ht|]. eapply Nat.le_trans; [apply strip_len|]. rewrite skipn_length. lia.
    + intros sq _ Hsq. eapply fine_bind; [apply HF'|]. intros f _ Hf. cbn [fine]. split; assumption.
  - eapply fine_bind; [apply HF'|]. intros f _ Hf. cbn [fine]. split; [exact Hf|exact HT].
Qed.
Lemma split_phrases_fine s : forall esc d cur, fine (fun _ => True) (split_phrases s esc d cur).
Proof.
  induction s as [|c s IH]; intros esc d cur; cbn [split_phrases]; [destruct esc; cbn; auto|].
  destruct esc; [apply IH|]. destruct (c =? 92); [apply IH|]. destruct (c =? 123); [apply IH|]. destruct (c =? 125); [apply IH|]. destruct (_ && _); [|apply IH].
  eapply fine_bind; [apply IH|]. intros; exact Logic.I.
Qed.
Lemma parse_fine n : forall s, (length s < n)%nat -> fine (Forall fit_phrase) (parse_query_fuel E n s).
Proof.
  induction n as [|n IH]; intros s L; [lia|]. cbn [parse_query_fuel]. destruct (_ || _); [reflexivity|]. eapply fine_bind; [apply split_phrases_fine|]. intros l El _.
  apply fine_map; [|left; reflexivity]. intros p Hp. apply split_lengths in El. rewrite Forall_forall in El. apply El in Hp. cbn [length] in Hp. apply parse_phrase_fine. intros t Ht. apply IH. lia.
Qed.
Lemma parse_query_fine s : fine (Forall fit_phrase) (parse_query E s).
Proof. apply parse_fine. lia. Qed.
End keep.

Lemma filter_func_fine (P : ecf -> Prop) E n k v : (forall f, filter_func E n k v = Ok f -> P f) -> fine P (filter_func E n k v).
Proof.
  intros H. destruct (filter_func E n k v) as [f|e] eqn:Ef; [exact (H f eq_refl)|]. cbn [fine]. unfold filter_func in Ef. destruct (filter_key k) as [[]|]; try discriminate.
  - pose proof (fine_map (fun _ => True) (index_range E) (py_split v (lit ",") (-1)) None (fun x _ => index_range_fine E x) (or_introl eq_refl)) as F. destruct (map_list _ _ _); cbn in *; congruence.
  - pose proof (descaped_fine v) as F. destruct (descaped v); cbn in *; congruence.
  - pose proof (descaped_fine v) as F. destruct (descaped v); cbn in *; congruence.
  - congruence.
Qed.
Theorem compile_or_refuse E s : (exists q, parse_query E s = Ok q) \/ parse_query E s = Err ValueError.
Proof.
  pose proof (parse_query_fine (fun _ => True) (fun _ _ _ _ _ => Logic.I) E (fun n k v => filter_func_fine (fun _ => True) E n k v (fun _ _ => Logic.I)) Logic.I (fun _ _ => Logic.I) s) as F.
  destruct (parse_query E s) as [q|e]; cbn [fine] in F; [left; eauto|right; congruence].
Qed.
