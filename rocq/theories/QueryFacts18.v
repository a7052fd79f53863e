(** Facts for running a compiled query: which errors, which nodes. *)
From Verif Require Import SpecRun SpecQuery UtilFacts UtilFacts2 ItoStrFacts HeapFacts3 AxisFacts AxisFacts2 AxisFacts3 QueryFacts12 QueryFacts17.

Lemma may_value r : may_raise r ValueError.
Proof. left. left. reflexivity. Qed.
Lemma may_type r : may_raise r TypeError.
Proof. left. right. left. reflexivity. Qed.
Lemma may_unbound r : may_raise r UnboundLocalError.
Proof. left. right. right. left. reflexivity. Qed.

Section axes.
Context (h : heap) (H : hwf h) (Ha : acyclic h) (r0 : nat).
Definition inn (j : nat) : Prop := (j < length h)%nat /\ root_of h r0 j.
Lemma inn_anc i j : inn i -> anc h j i -> inn j.
Proof.
  intros [Hi Ri] A. pose proof (proj1 (anc_bound h j i H A)) as Hj. split; [exact Hj|]. destruct (get_root_spec h j H Ha Hj) as (r' & _ & Rj).
  replace r0 with r'; [exact Rj|]. apply (root_unique h i); [|exact Ri]. split; [exact (proj1 Rj)|]. right. destruct Rj as [_ [->|X]]; [exact A|exact (anc_trans _ _ _ _ X A)].
Qed.
Lemma inn_desc i j : inn i -> anc h i j -> inn j.
Proof.
  intros [Hi Ri] A. pose proof (proj2 (anc_bound h i j H A)) as Hj. split; [exact Hj|]. split; [exact (proj1 Ri)|]. right. destruct Ri as [_ [->|X]]; [exact A|exact (anc_trans _ _ _ _ X A)].
Qed.
Lemma inn_kids i : inn i -> Forall inn (n_kids (nd h i)).
Proof. intros Hi. apply Forall_forall. intros c Hc. apply (inn_desc i c Hi). apply anc_parent. apply (kids_par h i c H Hc). Qed.
Lemma inn_walk i rv : inn i -> exists l, walk h i rv = (l, None) /\ Forall inn l.
Proof.
  intros Hi. destruct (walk_gen h i H Ha (proj1 Hi)) as (l & W1 & W2 & _ & S1 & _).
  assert (F : Forall inn l) by (apply Forall_forall; intros j Hj; apply (inn_desc i j Hi), S1, Hj).
  destruct rv; [exists (rev l)|exists l]; split; auto. apply Forall_rev. exact F.
Qed.
Lemma Forall_filter' {A} (P : A -> Prop) f l : Forall P l -> Forall P (filter f l).
Proof. intros F. rewrite Forall_forall in *. intros x Hx. apply filter_In in Hx. apply F, Hx. Qed.
Lemma Forall_take {A} (P : A -> Prop) f l : Forall P l -> Forall P (take_while_l f l).
Proof. induction 1; cbn [take_while_l]; [constructor|]. destruct (f x); constructor; auto. Qed.
Lemma Forall_drop {A} (P : A -> Prop) f l : Forall P l -> Forall P (drop_while_l f l).
Proof. induction 1; cbn [drop_while_l]; [constructor|]. destruct (f x); [assumption|constructor; auto]. Qed.
Lemma Forall_tl {A} (P : A -> Prop) l : Forall P l -> Forall P (tl l).
Proof. destruct 1; cbn; [constructor|assumption]. Qed.
Lemma Forall_nth' {A} (P : A -> Prop) l k d : Forall P l -> (k < length l)%nat -> P (nth k l d).
Proof. intros F L. rewrite Forall_forall in F. apply F, nth_In, L. Qed.
Lemma axis_of_inn k rv i : inn i -> exists l, axis_of h k rv i = (l, None) /\ Forall inn l.
Proof.
  intros Hi. destruct (anc_list_spec h i H Ha (proj1 Hi)) as (ancs & EA & SA & _ & RA).
  assert (FA : Forall inn ancs) by (apply Forall_forall; intros j Hj; apply (inn_anc i j Hi), SA, Hj).
  assert (IR : inn (last ancs i)) by (destruct RA as [_ [->|X]]; [exact Hi|exact (inn_anc i _ Hi X)]).
  assert (SIB : forall f : list nat -> nat -> list nat, (forall ks idx, Forall inn ks -> (idx < length ks)%nat -> Forall inn (f ks idx)) ->
    exists l, match n_par (nd h i) with
    | None => ([], None)
    | Some p => let ks := n_kids (nd h p) in
                match seq_index h i 0 ks with Ok idx => (f ks idx, None) | Err e => graise e end
    end = (l, None) /\ Forall inn l).
  { intros f Hf. destruct (n_par (nd h i)) as [p|] eqn:Ep; [|exists []; split; [reflexivity|constructor]]. destruct (kids_split h i p H Ep) as (l & r & Ek).
    cbv zeta. rewrite (seq_index_at h p l i r H Ek 0). eexists. split; [reflexivity|]. apply Hf.
    - apply inn_kids. apply (inn_anc i p Hi). apply anc_parent. exact Ep.
    - rewrite Ek, app_length. cbn. lia. }
  unfold axis_of. destruct k.
  - rewrite EA. cbn [bind gen_of_res]. eexists. split; [reflexivity|]. apply Forall_rev in FA. destruct FA; constructor; auto.
  - rewrite EA. cbn [bind gen_of_res]. eexists. split; [reflexivity|]. destruct rv; [apply Forall_rev|]; exact FA.
  - destruct (n_par (nd h i)) as [p|] eqn:Ep; (eexists; split; [reflexivity|]); [constructor; [apply (inn_anc i p Hi), anc_parent, Ep|constructor]|constructor].
  - eexists. split; [reflexivity|]. constructor; [exact Hi|constructor].
  - eexists. split; [reflexivity|]. constructor; [exact Hi|constructor].
  - eexists. split; [reflexivity|]. destruct rv; [apply Forall_rev|]; apply inn_kids, Hi.
  - apply inn_walk, Hi.
  - destruct (inn_walk i rv Hi) as (l & -> & F). unfold gmap. cbn [fst snd]. eexists. split; [reflexivity|]. apply Forall_filter', F.
  - rewrite EA. destruct (inn_walk (last ancs i) (negb rv) IR) as (l & -> & F). unfold gmap. cbn [fst snd]. eexists. split; [reflexivity|]. apply Forall_filter'.
    destruct rv; [apply Forall_take|apply Forall_tl, Forall_drop]; exact F.
  - apply (SIB (fun ks idx => if rv then firstn idx ks else rev (firstn idx ks))). intros ks idx F L. destruct rv; [|apply Forall_rev]; apply Forall_firstn', F.
  - apply (SIB (fun ks idx => if (0 <? idx)%nat then [nth (idx - 1) ks 0%nat] else [])). intros ks idx F L. destruct (Nat.ltb_spec 0 idx); [constructor; [apply Forall_nth'; auto; lia|constructor]|constructor].
  - apply (SIB (fun ks idx => if (idx <? length ks - 1)%nat then [nth (idx + 1) ks 0%nat] else [])). intros ks idx F L. destruct (Nat.ltb_spec idx (length ks - 1)); [constructor; [apply Forall_nth'; auto; lia|constructor]|constructor].
  - apply (SIB (fun ks idx => if rv then rev (skipn (idx + 1) ks) else skipn (idx + 1) ks)). intros ks idx F L. destruct rv; [apply Forall_rev|]; apply Forall_skipn', F.
  - rewrite EA. destruct (inn_walk (last ancs i) rv IR) as (l & -> & F). unfold gmap. cbn [fst snd]. eexists. split; [reflexivity|].
    destruct rv; [apply Forall_take|apply Forall_drop]; exact F.
Qed.
Lemma number_inn l : Forall inn l -> Forall (fun ec => inn (snd ec)) (number l).
Proof. intros F. rewrite <- (map_snd_number l) in F. rewrite Forall_map in F. exact F. Qed.
Lemma to_ecs_inn a l o : Forall inn l -> (forall s, o = Some s -> inn s) -> exists ys, to_ecs a (l, None) o = (ys, None) /\ Forall (fun ec => inn (snd ec)) ys.
Proof.
  intros F Ho. unfold to_ecs. eexists. split; [reflexivity|]. apply number_inn.
  assert (F1 : Forall inn (match ax_self a, ax_rev a, o with
            | OsAlways, false, Some s => match l with [] => [] | first :: rest => s :: (if (first =? s)%nat then rest else first :: rest) end
            | _, _, _ => l end)).
  { destruct (ax_self a); [exact F|exact F|]. destruct (ax_rev a); [exact F|]. destruct o as [s|]; [|exact F]. destruct F as [|x l Hx F]; [constructor|].
    constructor; [apply Ho; reflexivity|]. destruct (x =? s)%nat; [exact F|constructor; assumption]. }
  remember (match ax_self a, ax_rev a, o with
            | OsAlways, false, Some s => match l with [] => [] | first :: rest => s :: (if (first =? s)%nat then rest else first :: rest) end
            | _, _, _ => l end) as ys eqn:Ey. clear Ey. destruct ys as [|y ys].
  - destruct (ax_self a); [constructor| |]; (destruct o as [s|]; [constructor; [apply (Ho s eq_refl)|constructor]|constructor]).
  - destruct (ax_self a); [exact F1|exact F1|]. destruct (ax_rev a); [|exact F1]. destruct o as [s|]; [|exact F1]. apply Forall_app. split; [exact F1|]. constructor; [apply (Ho s eq_refl)|constructor].
Qed.
Lemma to_ecs_raise a l e o : Forall inn l -> (forall s, o = Some s -> inn s) -> exists ys, to_ecs a (l, Some e) o = (ys, Some e) /\ Forall (fun ec => inn (snd ec)) ys.
Proof.
  intros F Ho. unfold to_ecs. eexists. split; [reflexivity|]. apply number_inn.
  destruct (ax_self a); [exact F|exact F|]. destruct (ax_rev a); [exact F|]. destruct o as [s|]; [|exact F]. destruct F as [|x l Hx F]; [constructor|].
  constructor; [apply Ho; reflexivity|]. destruct (x =? s)%nat; [exact F|constructor; assumption].
Qed.
Lemma gflat_inn a l e : Forall inn l -> exists ys, gflat l (fun i => to_ecs a (axis_of h (ax_key a) (ax_rev a) i) (Some i)) e = (ys, e) /\ Forall (fun ec => inn (snd ec)) ys.
Proof.
  induction 1 as [|x l Hx F (ys & E & IH)]; cbn [gflat]; [exists []; auto|]. destruct (axis_of_inn (ax_key a) (ax_rev a) x Hx) as (zs & -> & Fz).
  destruct (to_ecs_inn a zs (Some x) Fz) as (ws & -> & Fw); [intros s [= <-]; exact Hx|]. rewrite E. eexists. split; [reflexivity|]. apply Forall_app. auto.
Qed.
Lemma dedup_inn l : Forall inn l -> forall seen, Forall inn (dedup h seen l).
Proof. induction 1; intros seen; cbn [dedup]; [constructor|]. destruct (existsb _ _); [apply IHForall|constructor; auto]. Qed.
Lemma axis_find_inn a l e : Forall inn l -> exists ys e', axis_find h a (l, e) = (ys, e') /\ Forall (fun ec => inn (snd ec)) ys /\ (e' = None \/ e' = e \/ e' = Some UnboundLocalError).
Proof.
  intros F. assert (G : exists ys e', gbind (l, e) (fun i => to_ecs a (axis_of h (ax_key a) (ax_rev a) i) (Some i)) = (ys, e') /\ Forall (fun ec => inn (snd ec)) ys /\ (e' = None \/ e' = e \/ e' = Some UnboundLocalError)).
  { destruct (gflat_inn a l e F) as (ys & E & Fy). exists ys, e. split; [exact E|]. auto. }
  assert (K : ax_key a = AxPrec \/ ax_key a = AxFoll -> exists ys e', match find (fun i => match n_par (nd h i) with None => true | Some _ => false end) (fst (l, e)) with
    | Some i => to_ecs a ([], None) (Some i)
    | None => match snd (l, e) with
              | Some e => graise e
              | None => match rev (fst (l, e)) with
                        | [] => graise UnboundLocalError
                        | i :: _ => to_ecs a (axis_of h (ax_key a) (ax_rev a) i) (Some i)
                        end
              end
    end = (ys, e') /\ Forall (fun ec => inn (snd ec)) ys /\ (e' = None \/ e' = e \/ e' = Some UnboundLocalError)).
  { intros _. cbn [fst snd]. destruct (find _ l) as [i|] eqn:Ef.
    - apply find_some in Ef. destruct Ef as [Hi _]. rewrite Forall_forall in F. destruct (to_ecs_inn a [] (Some i) ltac:(constructor)) as (ys & -> & Fy); [intros s [= <-]; apply F, Hi|]. eexists _, _. split; [reflexivity|]. auto.
    - destruct e as [e|]; [eexists _, _; split; [reflexivity|]; split; [constructor|auto]|]. apply Forall_rev in F. destruct F as [|x l' Hx F].
      + eexists _, _. split; [reflexivity|]. split; [constructor|auto].
      + destruct (axis_of_inn (ax_key a) (ax_rev a) x Hx) as (zs & -> & Fz). destruct (to_ecs_inn a zs (Some x) Fz) as (ws & -> & Fw); [intros s [= <-]; exact Hx|]. eexists _, _. split; [reflexivity|]. auto. }
  unfold axis_find. destruct (ax_key a) eqn:Ek; try exact G; try (apply K; auto; fail).
  - destruct e as [e|].
    + destruct (to_ecs_raise a l e None F) as (ys & -> & Fy); [discriminate|]. eexists _, _. split; [reflexivity|]. auto.
    + destruct (to_ecs_inn a l None F) as (ys & -> & Fy); [discriminate|]. eexists _, _. split; [reflexivity|]. auto.
  - destruct e as [e|]; [eexists _, _; split; [reflexivity|]; split; [constructor|auto]|].
    destruct (to_ecs_inn a (if ax_rev a then rev (dedup h [] l) else dedup h [] l) None) as (ys & E & Fy); [|discriminate|].
    + destruct (ax_rev a); [apply Forall_rev|]; apply dedup_inn, F.
    + cbv zeta. rewrite E. eexists _, _. split; [reflexivity|]. auto.
Qed.
End axes.

(** -- the functions of a compiled query -- *)
Definition harmless_ecf (f : ecf) : Prop := forall h r ec e, hwf h -> acyclic h -> (snd ec < length h)%nat -> f h r ec = Err e -> may_raise r e.

Lemma highest_bound ops i f : highest ops = Some (i, f) -> (i < length ops)%nat.
Proof.
  unfold highest. assert (B : forall c k, first_with c ops 0 = Some k -> (k < length ops)%nat).
  { intros c k E. apply first_with_inv in E. destruct E as (a & o & b & -> & _ & _ & ->). rewrite app_length. cbn. lia. }
  destruct (first_with c_and ops 0) eqn:E1; [intros [= <- _]; eapply B; exact E1|]. destruct (first_with c_xor ops 0) eqn:E2; [intros [= <- _]; eapply B; exact E2|].
  destruct (first_with c_or ops 0) eqn:E3; [intros [= <- _]; eapply B; exact E3|discriminate].
Qed.
Lemma reduce_err n : forall vals ops e, vals <> [] -> (length vals <= n)%nat -> length vals = S (length ops) -> reduce n vals ops = Err e -> e = TypeError.
Proof.
  induction n as [|n IH]; intros vals ops e Nv Ln Lo; [destruct vals; [contradiction|cbn in Ln; lia]|].
  destruct vals as [|v [|w vals]]; [contradiction|discriminate|]. remember (v :: w :: vals) as vs eqn:Evs. 
  assert (ER : reduce (S n) vs ops = match highest ops with None => Err TypeError | Some (i, f) => let v := f (nth i vs false) (nth (S i) vs false) in
      reduce n (firstn i vs ++ v :: skipn (i + 2) vs) (firstn i ops ++ skipn (S i) ops) end) by (subst vs; reflexivity).
  rewrite ER. destruct (highest ops) as [[i f]|] eqn:Eh; [|congruence]. apply highest_bound in Eh. cbv zeta.
  assert (L1 : length (firstn i vs ++ f (nth i vs false) (nth (S i) vs false) :: skipn (i + 2) vs) = (length vs - 1)%nat).
  { rewrite app_length. cbn [length]. rewrite firstn_length, skipn_length. lia. }
  apply IH.
  - destruct (firstn i vs); discriminate.
  - rewrite L1. lia.
  - rewrite L1, app_length, firstn_length, skipn_length. lia.
Qed.
Lemma eval_all_len ops : forall fs h r ec vals, (length fs <= length ops)%nat -> eval_all ops fs h r ec = Ok vals -> length vals = length fs.
Proof.
  induction ops as [|op ops IH]; intros [|f fs] h r ec vals L; cbn [length] in L; cbn [eval_all]; try (intros [= <-]; reflexivity); try lia.
  destruct (eval_one op f h r ec) as [b|e]; cbn [bind]; [|discriminate]. destruct (eval_all ops fs h r ec) as [bs|e] eqn:E; cbn [bind]; [|discriminate]. intros [= <-]. cbn [length]. f_equal. eapply IH; [|exact E]. lia.
Qed.
Lemma eval_all_err ops : forall fs h r ec e, Forall harmless_ecf fs -> hwf h -> acyclic h -> (snd ec < length h)%nat -> eval_all ops fs h r ec = Err e -> may_raise r e.
Proof.
  induction ops as [|op ops IH]; intros [|f fs] h r ec e F H Ha Hi; cbn [eval_all]; try discriminate. inversion F as [|? ? Hf F']; subst.
  unfold eval_one, not_if. destruct (f h r ec) as [b|e'] eqn:Ef; cbn [bind]; [|intros [= ->]; exact (Hf h r ec e H Ha Hi Ef)].
  destruct (eval_all ops fs h r ec) as [bs|e'] eqn:E; cbn [bind]; [discriminate|]. intros [= ->]. exact (IH fs h r ec e F' H Ha Hi E).
Qed.
Lemma tl_len {A} (l : list A) : length (tl l) = (length l - 1)%nat.
Proof. destruct l; cbn; lia. Qed.
Lemma combined_harmless fs ops : Forall harmless_ecf fs -> fs <> [] -> length ops = S (length fs) -> harmless_ecf (combined_func fs ops).
Proof.
  intros F Nf Lo h r ec e H Ha Hi. unfold combined_func. destruct (eval_all ops fs h r ec) as [vals|e'] eqn:E; cbn [bind].
  - apply eval_all_len in E; [|lia]. intros R. apply reduce_err in R; [subst e; apply may_type| |lia|].
    + intros ->. cbn in E. destruct fs; [contradiction|discriminate].
    + rewrite QueryFacts9.removelast_len, tl_len. destruct fs; [contradiction|cbn [length] in *; lia].
  - intros [= ->]. exact (eval_all_err ops fs h r ec e F H Ha Hi E).
Qed.

Lemma any_list_err {A} (f : A -> res bool) l er e (Q : exn -> Prop) : (forall x e, f x = Err e -> Q e) -> (forall e, er = Some e -> Q e) -> any_list f l er = Err e -> Q e.
Proof.
  intros Hf Hr. induction l as [|x l IH]; cbn [any_list]; [destruct er; [intros [= <-]; auto|discriminate]|].
  destruct (f x) as [[]|e'] eqn:E; cbn [bind]; [discriminate|exact IH|intros [= <-]; eauto].
Qed.
Lemma all_list_err {A} (f : A -> res bool) l er e (Q : exn -> Prop) : (forall x e, In x l -> f x = Err e -> Q e) -> (forall e, er = Some e -> Q e) -> all_list f l er = Err e -> Q e.
Proof.
  intros Hf Hr. induction l as [|x l IH]; cbn [all_list]; [destruct er; [intros [= <-]; auto|discriminate]|].
  destruct (f x) as [[]|e'] eqn:E; cbn [bind]; [apply IH; intros y e0 Hy; apply Hf; right; exact Hy|discriminate|intros [= <-]; eapply Hf; [left; reflexivity|exact E]].
Qed.
Lemma any_or_none_err n (f : pystr -> res bool) v e : (forall x e, f x = Err e -> e = ValueError) -> any_or_none n f (pieces v) = Err e -> e = ValueError.
Proof.
  intros Hf. assert (Hr : forall e, snd (pieces v) = Some e -> e = ValueError) by (intros e0 E0; destruct (pieces_err v) as [X|X]; rewrite X in E0; congruence).
  unfold any_or_none, g_all, g_any. destruct n.
  - apply (all_list_err _ _ _ _ (fun e => e = ValueError)); [|exact Hr]. intros x e0 _. unfold not_if. destruct (f x) eqn:Ef; cbn [bind]; [discriminate|intros [= <-]; eapply Hf; exact Ef].
  - apply (any_list_err _ _ _ _ (fun e => e = ValueError)); [exact Hf|exact Hr].
Qed.
Lemma map_pieces_err (f : pystr -> res pystr) v e : (forall x e, f x = Err e -> e = ValueError) -> g_map f (pieces v) = Err e -> e = ValueError.
Proof.
  intros Hf E. unfold g_map in E. pose proof (fine_map (fun _ => True) f (fst (pieces v)) (snd (pieces v))) as F. rewrite E in F. cbn [fine] in F. apply F; [|apply pieces_err].
  intros x _. destruct (f x) eqn:Ef; cbn [fine]; [exact Logic.I|eapply Hf; exact Ef].
Qed.
Lemma descape_val s e : descape s = Err e -> e = ValueError.
Proof. intros E. pose proof (descape_fine s) as F. rewrite E in F. exact F. Qed.
Lemma affix_val f p a b e : fwf f -> (str_endswith f p a b = Err e -> e = ValueError) /\ (str_startswith f p a b = Err e -> e = ValueError).
Proof. intros Hf. unfold str_endswith, str_startswith. destruct (affix_reject f a b); [split; discriminate|]. rewrite window_ok by exact Hf. cbn [bind]. split; discriminate. Qed.
Lemma filter_harmless E n k v f : filter_func E n k v = Ok f -> harmless_ecf f.
Proof.
  unfold filter_func. assert (V : forall r e, e = ValueError -> may_raise r e) by (intros r e ->; apply may_value).
  destruct (filter_key k) as [[]|]; try discriminate.
  - intros [= <-] h r ec e H Ha Hi. destruct (descaped v) eqn:D; cbn [bind]; [discriminate|]. intros [= <-]. apply V. eapply map_pieces_err; [exact descape_val|exact D].
  - intros [= <-] h r ec e H Ha Hi. destruct (descaped v) eqn:D; cbn [bind]; [discriminate|]. intros [= <-]. apply V. eapply map_pieces_err; [exact descape_val|exact D].
  - intros [= <-] h r ec e H Ha Hi. destruct (g_map _ _) eqn:D; cbn [bind]; [discriminate|]. intros [= <-]. apply V. revert D; apply map_pieces_err.
    intros x e9. destruct (descape x) eqn:Ex; cbn [bind]; [discriminate|intros [= <-]; eapply descape_val; exact Ex].
  - intros [= <-] h r ec e H Ha Hi. intros X. apply V. revert X; apply any_or_none_err. intros x e0. destruct (descape x) eqn:Ex; cbn [bind]; [discriminate|intros [= <-]; eapply descape_val; exact Ex].
  - intros [= <-] h r ec e H Ha Hi. intros X. apply V. revert X; apply any_or_none_err. intros x e0. destruct (descape x) eqn:Ex; cbn [bind]; [discriminate|intros [= <-]; eapply descape_val; exact Ex].
  - intros [= <-] h r ec e H Ha Hi. intros X. apply V. revert X; apply any_or_none_err. intros x e0. destruct (descape x) eqn:Ex; cbn [bind]; [apply affix_val, (hwf_span h H)|intros [= <-]; eapply descape_val; exact Ex].
  - intros [= <-] h r ec e H Ha Hi. intros X. apply V. revert X; apply any_or_none_err. intros x e0. destruct (descape x) eqn:Ex; cbn [bind]; [apply affix_val, (hwf_span h H)|intros [= <-]; eapply descape_val; exact Ex].
  - destruct (map_list _ _ _); cbn [bind]; [|discriminate]. intros [= <-] h r ec e H Ha Hi. discriminate.
  - destruct (descaped v) as [keys|]; cbn [bind]; [|discriminate]. intros [= <-] h r ec e H Ha Hi. destruct (rv_preds r) as [d|] eqn:Ed; cbn [validate bind]; [|intros [= <-]; apply may_value].
    unfold g_all. cbn [fst snd]. apply (all_list_err _ _ _ _ (may_raise r)); [|discriminate]. intros p e0 Hp. unfold not_if. destruct (p ec) as [|e1] eqn:Ep; cbn [bind]; [discriminate|]. intros [= <-].
    unfold selected in Hp. apply in_map_iff in Hp. destruct Hp as ([k0 p0] & E0 & Hp). cbn [snd] in E0. subst p0. apply filter_In in Hp. right. right. exists d, k0, p, ec. repeat split; [exact Ed|exact (proj1 Hp)|exact Ep].
  - destruct (descaped v) as [keys|]; cbn [bind]; [|discriminate]. intros [= <-] h r ec e H Ha Hi. destruct (rv_value r (snd ec)) as [x|e0] eqn:Ev; cbn [bind].
    + destruct (rv_values r); cbn [validate bind]; [discriminate|]. intros [= <-]. apply may_value.
    + intros [= <-]. right. left. exists (snd ec). exact Ev.
Qed.

(** -- phrases and queries -- *)
Lemma filter_list_run (h : heap) (r : renv) (T : nat -> Prop) (f : nat * nat -> res bool) l er :
  Forall (fun ec => T (snd ec)) l -> (forall ec e, T (snd ec) -> f ec = Err e -> may_raise r e) -> (forall e, er = Some e -> may_raise r e) ->
  Forall (fun ec => T (snd ec)) (fst (filter_list f l er)) /\ (forall e, snd (filter_list f l er) = Some e -> may_raise r e).
Proof.
  intros F Hf He. induction F as [|x l Hx F [IH1 IH2]]; cbn [filter_list]; [split; [constructor|exact He]|].
  destruct (f x) as [[]|e0] eqn:E.
  - destruct (filter_list f l er) as [zs e1]. cbn [gyield fst snd] in *. split; [constructor; assumption|exact IH2].
  - split; assumption.
  - cbn [graise fst snd]. split; [constructor|]. intros e [= <-]. eapply Hf; [exact Hx|exact E].
Qed.
Lemma query_run q h r r0 : hwf h -> acyclic h -> Forall (fit_phrase harmless_ecf) q ->
  forall g, Forall (inn h r0) (fst g) -> (forall e, snd g = Some e -> may_raise r e) ->
  Forall (inn h r0) (fst (run_from q h r g)) /\ (forall e, snd (run_from q h r g) = Some e -> may_raise r e).
Proof.
  intros H Ha Fq. induction Fq as [|p q [P1 P2] Fq IH]; intros g Fg Eg; cbn [run_from fold_left]; [split; assumption|].
  apply IH.
  - destruct g as [l e]. cbn [fst snd] in *. destruct (axis_find_inn h H Ha r0 (ph_axis p) l e Fg) as (ys & e' & E & Fy & He).
    unfold phrase_find, g_filter. rewrite E. cbn [fst snd]. rewrite Forall_map.
    apply (filter_list_run h r (inn h r0) _ _ _ Fy).
    + intros ec e0 T. unfold phrase_test. destruct (ph_filter p h r ec) as [[]|e1] eqn:E1; cbn [bind]; [|discriminate|].
      * intros X. exact (P2 h r ec e0 H Ha (proj1 T) X).
      * intros [= <-]. exact (P1 h r ec e1 H Ha (proj1 T) E1).
    + intros e0 ->. destruct He as [He|[He|He]]; [discriminate|apply Eg; congruence|injection He as ->; apply may_unbound].
  - destruct g as [l e]. cbn [fst snd] in *. destruct (axis_find_inn h H Ha r0 (ph_axis p) l e Fg) as (ys & e' & E & Fy & He).
    unfold phrase_find, g_filter. rewrite E. cbn [fst snd].
    apply (filter_list_run h r (inn h r0) _ _ _ Fy).
    + intros ec e0 T. unfold phrase_test. destruct (ph_filter p h r ec) as [[]|e1] eqn:E1; cbn [bind]; [|discriminate|].
      * intros X. exact (P2 h r ec e0 H Ha (proj1 T) X).
      * intros [= <-]. exact (P1 h r ec e1 H Ha (proj1 T) E1).
    + intros e0 ->. destruct He as [He|[He|He]]; [discriminate|apply Eg; congruence|injection He as ->; apply may_unbound].
Qed.
Lemma find_all_run q h r i : hwf h -> acyclic h -> (i < length h)%nat -> Forall (fit_phrase harmless_ecf) q ->
  Forall (same_tree h i) (fst (query_find_all q h r i)) /\ (forall e, snd (query_find_all q h r i) = Some e -> may_raise r e).
Proof.
  intros H Ha Hi Fq. destruct (get_root_spec h i H Ha Hi) as (r0 & _ & R0).
  destruct (query_run q h r r0 H Ha Fq ([i], None)) as [G1 G2]; [constructor; [split; [exact Hi|exact R0]|constructor]|discriminate|].
  change (run_from q h r ([i], None)) with (query_find_all q h r i) in *. split; [|exact G2]. eapply Forall_impl; [|exact G1]. intros j [Hj Rj]. split; [exact Hj|]. exists r0. auto.
Qed.
Lemma sub_harmless q : Forall (fit_phrase harmless_ecf) q -> harmless_ecf (sub_func q).
Proof.
  intros Fq h r ec e H Ha Hi. unfold sub_func, query_find. destruct (find_all_run q h r (snd ec) H Ha Hi Fq) as [_ G].
  destruct (query_find_all q h r (snd ec)) as [[|x l] [e0|]]; cbn [g_next bind snd] in *; try discriminate. intros [= <-]. apply G. reflexivity.
Qed.
Theorem compiled_run E s q h r i : parse_query E s = Ok q -> hwf h -> acyclic h -> (i < length h)%nat ->
  Forall (same_tree h i) (fst (query_find_all q h r i)) /\ (forall e, snd (query_find_all q h r i) = Some e -> may_raise r e).
Proof.
  intros Eq H Ha Hi. apply find_all_run; auto.
  pose proof (parse_query_fine harmless_ecf combined_harmless E (fun n k v => filter_func_fine harmless_ecf E n k v (filter_harmless E n k v)) ltac:(intros ? ? ? ? ? ? ? X; discriminate X) sub_harmless s) as F.
  rewrite Eq in F. exact F.
Qed.
