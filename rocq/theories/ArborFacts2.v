(** Proofs: routing of connectors (C53), Nuco (C56), postorators (C57, C58). *)
From Verif Require Export ArborFacts.

Lemma drain_act {A} (m : heap -> out A) k h : drain (act m k) h = match m h with (h1, Ok a) => drain (k a) h1 | (h1, Err e) => (h1, ([], Some e)) end.
Proof. unfold act. cbn [drain]. destruct (m h) as [h1 [a|e]]; reflexivity. Qed.
Lemma drain_ask {A} (m : heap -> res A) k h : drain (ask m k) h = match m h with Ok a => drain (k a) h | Err e => (h, ([], Some e)) end.
Proof. unfold ask. rewrite drain_act. destruct (m h); reflexivity. Qed.
Lemma drain_of_list l h : drain (of_list l) h = (h, (l, None)).
Proof. induction l as [|x l IH]; [reflexivity|]. cbn [of_list drain]. rewrite IH. reflexivity. Qed.
Lemma drain_sapp b : forall a h, drain (sapp a b) h = match drain a h with (h1, (l, Some e)) => (h1, (l, Some e)) | (h1, (l, None)) => let '(h2, (l', e)) := drain b h1 in (h2, (l ++ l', e)) end.
Proof.
  induction a as [|e|i k IH|f k IH]; intros h; cbn [sapp drain].
  - destruct (drain b h) as [h2 [l e]]. reflexivity.
  - reflexivity.
  - rewrite IH. destruct (drain k h) as [h1 [l [e|]]]; [reflexivity|]. destruct (drain b h1) as [h2 [l' e]]. reflexivity.
  - apply IH.
Qed.
Lemma drain_sfor f : forall s h, drain (sfor s f) h = for_each (fun x => drain (f x)) s h.
Proof.
  induction s as [|e|i k IH|g k IH]; intros h; cbn [sfor drain for_each]; auto.
  rewrite drain_sapp. destruct (drain (f i) h) as [h1 [l [e|]]]; [reflexivity|]. rewrite IH. reflexivity.
Qed.
Lemma drain_scollect k : forall s acc h, drain (scollect s acc k) h = match drain s h with (h1, (_, Some e)) => (h1, ([], Some e)) | (h1, (l, None)) => drain (k (acc ++ l)) h1 end.
Proof.
  induction s as [|e|i k' IH|g k' IH]; intros acc h; cbn [scollect drain]; auto.
  - rewrite app_nil_r. reflexivity.
  - rewrite IH. destruct (drain k' h) as [h1 [l [e|]]]; [reflexivity|]. rewrite <- app_assoc. reflexivity.
Qed.
Lemma drain_sdrop k : forall s h, drain (sdrop s k) h = match drain s h with (h1, (_, Some e)) => (h1, ([], Some e)) | (h1, (_, None)) => drain k h1 end.
Proof. induction s as [|e|i k' IH|g k' IH]; intros h; cbn [sdrop drain]; auto. rewrite IH. destruct (drain k' h) as [h1 [l [e|]]]; reflexivity. Qed.
Lemma drain_sfirst k : forall s h, drain (sfirst s k) h = match drain s h with (h1, ([], None)) => drain k h1 | r => r end.
Proof. induction s as [|e|i k' IH|g k' IH]; intros h; cbn [sfirst drain]; auto. destruct (drain k' h) as [h1 [l e]]. reflexivity. Qed.

(** ** connectors *)
Section Flow.
Context (trav : nat -> nat -> strm) (c : conn) (rest : list conn) (i : nat) (h : heap).
Lemma flow_nil : drain (flow trav [] i) h = (h, ([i], None)).
Proof. reflexivity. Qed.
Lemma flow_pred : drain (flow trav (c :: rest) i) h = match eval_pred (c_pred c) h i with
  | Err e => (h, ([], Some e))
  | Ok false => drain (flow trav rest i) h
  | Ok true => drain (match c_kind c with
                      | Delegate => trav (c_itor c) i
                      | Recurse => sfor (trav (c_itor c) i) (flow trav rest)
                      | Subroutine => sdrop (trav (c_itor c) i) (flow trav rest i)
                      | k => scollect (trav (c_itor c) i) [] (fun cs => act (attach k i cs) (fun _ => flow trav rest i))
                      end) h
  end.
Proof. cbn [flow]. rewrite drain_ask. destruct (eval_pred _ _ _) as [[|]|e]; reflexivity. Qed.
Lemma flow_error e : eval_pred (c_pred c) h i = Err e -> drain (flow trav (c :: rest) i) h = (h, ([], Some e)).
Proof. intros E. rewrite flow_pred, E. reflexivity. Qed.
Lemma flow_skip : eval_pred (c_pred c) h i = Ok false -> drain (flow trav (c :: rest) i) h = drain (flow trav rest i) h.
Proof. intros E. rewrite flow_pred, E. reflexivity. Qed.
Lemma flow_delegate : eval_pred (c_pred c) h i = Ok true -> c_kind c = Delegate -> drain (flow trav (c :: rest) i) h = drain (trav (c_itor c) i) h.
Proof. intros E K. rewrite flow_pred, E, K. reflexivity. Qed.
Lemma flow_recurse : eval_pred (c_pred c) h i = Ok true -> c_kind c = Recurse -> drain (flow trav (c :: rest) i) h = for_each (fun x => drain (flow trav rest x)) (trav (c_itor c) i) h.
Proof. intros E K. rewrite flow_pred, E, K. apply drain_sfor. Qed.
Lemma flow_subroutine : eval_pred (c_pred c) h i = Ok true -> c_kind c = Subroutine ->
  drain (flow trav (c :: rest) i) h = match drain (trav (c_itor c) i) h with (h1, (_, Some e)) => (h1, ([], Some e)) | (h1, (_, None)) => drain (flow trav rest i) h1 end.
Proof. intros E K. rewrite flow_pred, E, K. apply drain_sdrop. Qed.
Lemma flow_children : eval_pred (c_pred c) h i = Ok true -> In (c_kind c) [CAdd; CAddHier; CReplace; CDelete] ->
  drain (flow trav (c :: rest) i) h = match drain (trav (c_itor c) i) h with
    | (h1, (_, Some e)) => (h1, ([], Some e))
    | (h1, (cs, None)) => match attach (c_kind c) i cs h1 with
                          | (h2, Err e) => (h2, ([], Some e))
                          | (h2, Ok _) => drain (flow trav rest i) h2
                          end
    end.
Proof.
  intros E K. rewrite flow_pred, E. 
  assert (G : forall k, drain (scollect (trav (c_itor c) i) [] (fun cs => act (attach k i cs) (fun _ => flow trav rest i))) h = match drain (trav (c_itor c) i) h with
    | (h1, (_, Some e)) => (h1, ([], Some e)) | (h1, (cs, None)) => match attach k i cs h1 with (h2, Err e) => (h2, ([], Some e)) | (h2, Ok _) => drain (flow trav rest i) h2 end end).
  { intros k. rewrite drain_scollect. destruct (drain (trav (c_itor c) i) h) as [h1 [l [e|]]]; [reflexivity|]. cbn [app]. rewrite drain_act. reflexivity. }
  destruct (c_kind c); cbn [In] in K; try apply G; exfalso; intuition discriminate.
Qed.
End Flow.
(** a quiet generator leaves the heap alone *)
Lemma for_each_quiet (f : nat -> heap -> heap * (list nat * option exn)) (r : nat -> list nat) h :
  (forall x, f x h = (h, (r x, None))) -> forall l, for_each f (of_list l) h = (h, (flat_map r l, None)).
Proof. intros F. induction l as [|x l IH]; [reflexivity|]. cbn [of_list for_each flat_map]. rewrite F, IH. reflexivity. Qed.

(** what the Children connectors do *)
Lemma kids_add_ok p : forall cs h h', hwf h -> (p < length h)%nat -> Forall (fun c => (c < length h)%nat) cs -> kids_add h p cs = (h', Ok tt) ->
  hwf h' /\ length h' = length h /\ (forall j, n_f (nd h' j) = n_f (nd h j)) /\ Permutation (n_kids (nd h' p)) (n_kids (nd h p) ++ cs) /\
  (forall j, j <> p -> n_kids (nd h' j) = n_kids (nd h j)) /\ (forall j, ~ In j cs -> n_par (nd h' j) = n_par (nd h j)).
Proof.
  induction cs as [|c cs IH]; intros h h' H Hp Hc E.
  - cbn in E. injection E as <-. rewrite app_nil_r. split; [exact H|]. split; [reflexivity|]. split; [reflexivity|]. split; [reflexivity|]. split; reflexivity.
  - inversion Hc as [|? ? Hc1 Hc2]; subst. rewrite kids_add_many in E. destruct (kids_add_one h p c H Hp Hc1) as [(Ad & l & r & El & Fl & Fr & E1)|[_ E1]]; rewrite E1 in E; [|discriminate].
    destruct Ad as (A1 & A2 & A3 & A4). destruct (hwf_insert h p c l r H Hp Hc1 A1 A2 A3 El Fl Fr) as (W1 & L1 & D1). destruct (add_effect h p c (l ++ c :: r) Hp Hc1) as (_ & Ef).
    destruct (IH _ h' W1 ltac:(rewrite L1; exact Hp) ltac:(rewrite L1; exact Hc2) E) as (W & L & D & Pm & K & Q).
    split; [exact W|]. split; [congruence|]. split; [intros j; rewrite D, D1; reflexivity|]. split; [|split].
    + rewrite Pm. destruct (Ef p) as (_ & _ & ->). rewrite Nat.eqb_refl, El, <- !app_assoc. apply Permutation_app_head. cbn [app]. apply Permutation_middle.
    + intros j Hj. rewrite K by exact Hj. destruct (Ef j) as (_ & _ & ->). destruct (Nat.eqb_spec j p); [contradiction|reflexivity].
    + intros j Hj. rewrite Q by (intros X; apply Hj; right; exact X). destruct (Ef j) as (_ & -> & _). destruct (Nat.eqb_spec j c) as [->|]; [exfalso; apply Hj; left; reflexivity|reflexivity].
Qed.
Lemma replace_ok p cs h h' : hwf h -> (p < length h)%nat -> Forall (fun c => (c < length h)%nat) cs -> attach CReplace p cs h = (h', Ok tt) ->
  hwf h' /\ length h' = length h /\ (forall j, n_f (nd h' j) = n_f (nd h j)) /\ Permutation (n_kids (nd h' p)) cs /\ (forall c, In c (n_kids (nd h p)) -> ~ In c cs -> n_par (nd h' c) = None) /\
  (forall j, j <> p -> n_kids (nd h' j) = n_kids (nd h j)) /\ (forall j, ~ In j cs -> ~ In j (n_kids (nd h p)) -> n_par (nd h' j) = n_par (nd h j)).
Proof.
  intros H Hp Hc. cbn [attach]. destruct (kids_clear_spec h p H Hp) as (C1 & C2 & C3 & _ & C4 & C5). destruct (kids_del_slice_inv h p None None None H Hp) as (W1 & L1 & D1). fold (kids_clear h p) in W1, L1, D1. unfold obind. rewrite C1.
  intros E. destruct (kids_add_ok p cs _ h' W1 ltac:(rewrite L1; exact Hp) ltac:(rewrite L1; exact Hc) E) as (W & L & D & Pm & K & Q).
  split; [exact W|]. split; [congruence|]. split; [intros j; rewrite D, D1; reflexivity|]. split; [rewrite Pm, C2; reflexivity|]. split; [intros c Hin Hn; rewrite Q by exact Hn; apply C3; exact Hin|]. split; [intros j Hj; rewrite K by exact Hj; apply C4; exact Hj|]. intros j Hj Hk. rewrite Q by exact Hj. apply C5. exact Hk.
Qed.
Lemma delete_ok p : forall cs h h', hwf h -> (p < length h)%nat -> remove_all h p cs = (h', Ok tt) ->
  hwf h' /\ length h' = length h /\ (forall j, n_f (nd h' j) = n_f (nd h j)) /\ incl cs (n_kids (nd h p)) /\ n_kids (nd h' p) = filter (fun k => negb (existsb (Nat.eqb k) cs)) (n_kids (nd h p)) /\ (forall c, In c cs -> n_par (nd h' c) = None) /\
  (forall j, j <> p -> n_kids (nd h' j) = n_kids (nd h j)) /\ (forall j, ~ In j cs -> n_par (nd h' j) = n_par (nd h j)).
Proof.
  induction cs as [|c cs IH]; intros h h' H Hp E.
  - cbn in E. injection E as <-. split; [exact H|]. split; [reflexivity|]. split; [reflexivity|]. split; [intros x []|]. split; [|split; [intros c []|split; reflexivity]]. symmetry. cbn. clear. induction (n_kids (nd h p)) as [|x l IHl]; [reflexivity|]. cbn. f_equal. exact IHl.
  - cbn [remove_all] in E. destruct (kids_remove_spec h p c H) as [[Hin E1]|[_ E1]]; rewrite E1 in E; unfold obind in E; cbn [fst snd] in E; [|discriminate].
    destruct (without_facts h p c H Hin) as (W1 & L1 & D1 & Q1 & K1). destruct (IH _ h' W1 ltac:(rewrite L1; exact Hp) E) as (W & L & D & Ic & K & Q & K2 & Q2).
    assert (Kp : n_kids (nd (without h p c) p) = filter (fun k => negb (k =? c)%nat) (n_kids (nd h p))) by (rewrite K1, Nat.eqb_refl; reflexivity).
    split; [exact W|]. split; [congruence|]. split; [intros j; rewrite D, D1; reflexivity|]. split; [|split; [|split; [|split]]].
    + intros x [<-|Hx]; [exact Hin|]. apply Ic in Hx. rewrite Kp in Hx. apply filter_In in Hx. apply Hx.
    + rewrite K, Kp. clear. induction (n_kids (nd h p)) as [|x l IHl]; [reflexivity|]. cbn [filter existsb]. destruct (x =? c)%nat; cbn [negb orb]; [exact IHl|]. cbn [filter]. destruct (existsb _ cs); cbn [negb]; [exact IHl|f_equal; exact IHl].
    + intros x [<-|Hx]; [|apply Q; exact Hx]. destruct (in_dec Nat.eq_dec c cs) as [Hc|Hc]; [apply Q; exact Hc|].
      assert (F : forall cs g g', remove_all g p cs = (g', Ok tt) -> hwf g -> ~ In c cs -> n_par (nd g c) = None -> n_par (nd g' c) = None).
      { clear. induction cs as [|d cs IHc]; intros g g' E W N P; [cbn in E; injection E as <-; exact P|]. cbn [remove_all] in E. destruct (kids_remove_spec g p d W) as [[Hin E1]|[_ E1]]; rewrite E1 in E; unfold obind in E; cbn [fst snd] in E; [|discriminate].
        destruct (without_facts g p d W Hin) as (W1 & _ & _ & Q1 & _). apply (IHc _ _ E W1); [intros X; apply N; right; exact X|]. rewrite Q1. destruct (Nat.eqb_spec c d); [reflexivity|exact P]. }
      apply (F cs _ _ E W1 Hc). rewrite Q1, Nat.eqb_refl. reflexivity.
    + intros j Hj. rewrite K2 by exact Hj. rewrite K1. destruct (Nat.eqb_spec j p); [contradiction|reflexivity].
    + intros j Hj. rewrite Q2 by (intros X; apply Hj; right; exact X). rewrite Q1. destruct (Nat.eqb_spec j c) as [->|]; [exfalso; apply Hj; left; reflexivity|reflexivity].
Qed.

(** ** Nuco *)
Lemma nuco_none call its h h' : silent call its h h' -> drain (nuco call its) h = (h', ([], None)).
Proof. induction 1 as [|t r h h1 h2 E S IH]; [reflexivity|]. cbn [nuco]. rewrite drain_sfirst, E. exact IH. Qed.
Lemma nuco_some call pre t r h hk h' l e : silent call pre h hk -> drain (call t) hk = (h', (l, e)) -> l <> [] \/ e <> None -> drain (nuco call (pre ++ t :: r)) h = (h', (l, e)).
Proof.
  intros S E N. induction S as [h|u us h h1 h2 E1 S IH]; cbn [app nuco]; rewrite drain_sfirst.
  - rewrite E. destruct l as [|x l]; [|reflexivity]. destruct e; [reflexivity|]. destruct N as [N|N]; contradiction.
  - rewrite E1. apply IH. exact E.
Qed.
Lemma nuco_cases call : forall its h, (exists h', silent call its h h') \/ (exists pre t r hk, its = pre ++ t :: r /\ silent call pre h hk /\ (fst (snd (drain (call t) hk)) <> [] \/ snd (snd (drain (call t) hk)) <> None)).
Proof.
  induction its as [|t its IH]; intros h; [left; exists h; constructor|]. destruct (drain (call t) h) as [h1 [l e]] eqn:E.
  destruct l as [|x l]; [destruct e as [e|]|].
  - right. exists [], t, its, h. split; [reflexivity|]. split; [constructor|]. rewrite E. right. discriminate.
  - destruct (IH h1) as [(h' & S)|(pre & u & r & hk & -> & S & N)].
    + left. exists h'. apply (silent_cons call t its h h1 h' E S).
    + right. exists (t :: pre), u, r, hk. split; [reflexivity|]. split; [apply (silent_cons call t pre h h1 hk E S)|exact N].
  - right. exists [], t, its, h. split; [reflexivity|]. split; [constructor|]. rewrite E. left. discriminate.
Qed.

(** ** postorators *)
Lemma same_items_incl l l' h g : incl l' l -> same_items l h g -> same_items l' h g.
Proof. intros I S i Hi. apply S, I. exact Hi. Qed.
Lemma same_items_trans l h1 h2 h3 : same_items l h1 h2 -> same_items l h2 h3 -> same_items l h1 h3.
Proof. intros A B i Hi. rewrite (B i Hi). apply A. exact Hi. Qed.
Lemma emit_singles f : forall l h, emit f (map (fun x => (false, [x])) l) h = (h, (l, None)).
Proof. induction l as [|x l IH]; intros h; [reflexivity|]. cbn [map emit]. rewrite IH. reflexivity. Qed.
Lemma join_keeps l h d : extends h (fst (join_h h l d)).
Proof. unfold join_h. destruct (ito_join _ d); cbn [fst new_node]; [apply extends_new|apply extends_refl]. Qed.
Lemma windowed_spec size pred d p l0 h0 : (0 < size)%nat -> (forall i, In i l0 -> (i < length h0)%nat) ->
  (forall g w, same_items l0 h0 g -> incl w l0 -> length w = size -> pred g w = Ok (p w)) ->
  forall l w h, incl w l0 -> incl l l0 -> (length w < size)%nat -> extends h0 h ->
  exists bs, windows size p (w ++ l) bs /\ drain (windowed size pred d w (of_list l)) h = emit (fun b g => join_h g b d) bs h.
Proof.
  intros Hs Hb Hp. induction l as [|x l IH]; intros w h Iw Il Lw X; cbn [of_list windowed].
  - exists (map (fun x => (false, [x])) w). rewrite app_nil_r. split; [constructor; exact Lw|]. rewrite drain_of_list, emit_singles. reflexivity.
  - assert (Ix : In x l0) by (apply Il; left; reflexivity). assert (Il' : incl l l0) by (intros y Hy; apply Il; right; exact Hy).
    assert (Iw' : incl (w ++ [x]) l0) by (apply incl_app; [exact Iw|intros y [<-|[]]; exact Ix]).
    replace (w ++ x :: l) with ((w ++ [x]) ++ l) by (rewrite <- app_assoc; reflexivity). destruct (Nat.eqb_spec (length (w ++ [x])) size) as [E|E].
    + rewrite drain_ask. rewrite (Hp h (w ++ [x])) by (auto; intros i Hi; rewrite (proj2 X i (Hb i Hi)); reflexivity). destruct (p (w ++ [x])) eqn:Ep.
      * pose proof (join_keeps (w ++ [x]) h d) as J. destruct (join_h h (w ++ [x]) d) as [h1 [j|e]] eqn:Ej; cbn [fst] in J.
        -- destruct (IH [] h1) as (bs & B1 & B2); [intros y []|exact Il'|cbn; lia|exact (extends_trans _ _ _ X J)|]. exists ((true, w ++ [x]) :: bs). split; [constructor; assumption|].
           rewrite drain_act, Ej. cbn [drain emit]. rewrite Ej, B2. reflexivity.
        -- destruct (IH [] h) as (bs & B1 & B2); [intros y []|exact Il'|cbn; lia|exact X|]. exists ((true, w ++ [x]) :: bs). split; [constructor; assumption|].
           rewrite drain_act, Ej. cbn [emit]. rewrite Ej. reflexivity.
      * destruct (w ++ [x]) as [|y w'] eqn:Ew; [destruct w; discriminate|]. destruct (IH w' h) as (bs & B1 & B2); [intros z Hz; apply Iw'; right; exact Hz|exact Il'|cbn in E; lia|exact X|].
        exists ((false, [y]) :: bs). split; [cbn [app]; constructor; assumption|]. cbn [drain emit]. rewrite B2. reflexivity.
    + apply IH; auto. rewrite app_length in *. cbn in *. lia.
Qed.
Lemma windows_blocks size p l bs : windows size p l bs -> blocks bs = l /\ Forall (fun b => match b with (true, w) => length w = size /\ p w = true | (false, w) => exists x, w = [x] end) bs.
Proof.
  induction 1 as [l L|w r bs L P W [B F]|x w r bs L P W [B F]].
  - split; [unfold blocks; rewrite map_map; cbn; induction l as [|x l IH]; [reflexivity|cbn; rewrite IH by (cbn in L; lia); reflexivity]|]. apply Forall_forall. intros b Hb. apply in_map_iff in Hb. destruct Hb as (x & <- & _). eauto.
  - split; [unfold blocks in *; cbn; rewrite B; reflexivity|]. constructor; auto.
  - split; [unfold blocks in *; cbn; rewrite B; reflexivity|]. constructor; [eauto|auto].
Qed.
Lemma stacked_spec reduce push pop pu po l0 h0 :
  (forall b h, same_items l0 h0 h -> incl b l0 -> same_items l0 h (fst (reduce b h))) ->
  (forall g x, same_items l0 h0 g -> In x l0 -> push g [] x = Ok (pu x)) ->
  (match pop with None => forall st x, po st x = false | Some q => forall g st x, same_items l0 h0 g -> incl st l0 -> In x l0 -> q g st x = Ok (po st x) end) ->
  forall l st h, incl l l0 -> incl st l0 -> same_items l0 h0 h ->
    (st = [] -> exists bs, stacks pu po l bs /\ drain (stacked reduce push pop [] (of_list l)) h = emit reduce bs h) /\
    (forall x w, st = x :: w -> pu x = true -> (forall u y v, w = u ++ y :: v -> po (x :: u) y = false) ->
       exists bs, stacks pu po (x :: w ++ l) bs /\ drain (stacked reduce push pop st (of_list l)) h = emit reduce bs h).
Proof.
  intros Hr Hpu Hpo. induction l as [|y l IH]; intros st h Il Ist S.
  - split.
    + intros _. exists []. split; [constructor|reflexivity].
    + intros x w -> Px Pw. exists [(true, x :: w)]. split; [rewrite app_nil_r; rewrite <- (app_nil_r w) at 1; constructor; auto; [intros y r' E; discriminate|constructor]|]. cbn [of_list stacked]. rewrite drain_act. cbn [emit]. destruct (reduce (x :: w) h) as [h1 [j|e]]; reflexivity.
  - assert (Iy : In y l0) by (apply Il; left; reflexivity). assert (Il' : incl l l0) by (intros z Hz; apply Il; right; exact Hz).
    assert (Start : forall g, same_items l0 h0 g -> exists bs, stacks pu po (y :: l) bs /\
      drain (ask (fun h => push h [] y) (fun b : bool => if b then stacked reduce push pop [y] (of_list l) else Yield y (stacked reduce push pop [] (of_list l)))) g = emit reduce bs g).
    { intros g Sg. rewrite drain_ask, (Hpu g y Sg Iy). destruct (pu y) eqn:Ey.
      - destruct (IH [y] g Il' ltac:(intros z [<-|[]]; exact Iy) Sg) as [_ G]. destruct (G y [] eq_refl Ey) as (bs & B1 & B2); [intros u z v E; destruct u; discriminate|]. exists bs. auto.
      - destruct (IH [] g Il' ltac:(intros z []) Sg) as [G _]. destruct (G eq_refl) as (bs & B1 & B2). exists ((false, [y]) :: bs). split; [constructor; assumption|]. cbn [drain emit]. rewrite B2. reflexivity. }
    split.
    + intros ->. cbn [of_list stacked]. apply Start. exact S.
    + intros x w -> Px Pw. cbn [of_list stacked].
      assert (Grow : po (x :: w) y = false -> exists bs, stacks pu po (x :: w ++ y :: l) bs /\ drain (stacked reduce push pop ((x :: w) ++ [y]) (of_list l)) h = emit reduce bs h).
      { intros Ep. destruct (IH ((x :: w) ++ [y]) h Il') as [_ G]; [apply incl_app; [exact Ist|intros z [<-|[]]; exact Iy]|exact S|].
        destruct (G x (w ++ [y]) eq_refl Px) as (bs & B1 & B2).
        - intros u z v E. destruct v as [|v0 v] using rev_ind.
          + apply app_inj_tail in E. destruct E as [-> ->]. exact Ep.
          + clear IHv. rewrite app_comm_cons, app_assoc in E. apply app_inj_tail in E. destruct E as [E _]. apply (Pw u z v E).
        - exists bs. split; [rewrite <- app_assoc in B1; exact B1|exact B2]. }
      destruct pop as [q|].
      * rewrite drain_ask, (Hpo h (x :: w) y S Ist Iy). destruct (po (x :: w) y) eqn:Ep; [|apply Grow; reflexivity].
        rewrite drain_act. pose proof (Hr (x :: w) h S Ist) as K. destruct (reduce (x :: w) h) as [h1 [j|e]] eqn:Er; cbn [fst] in K.
        -- destruct (Start h1 (same_items_trans _ _ _ _ S K)) as (bs & B1 & B2). exists ((true, x :: w) :: bs). split; [constructor; auto; intros y' r' [= <- _]; exact Ep|]. cbn [drain emit]. rewrite Er. cbn [drain] in B2. rewrite B2. reflexivity.
        -- destruct (Start h S) as (bs & B1 & _). exists ((true, x :: w) :: bs). split; [constructor; auto; intros y' r' [= <- _]; exact Ep|]. cbn [emit]. rewrite Er. reflexivity.
      * apply Grow. apply Hpo.
Qed.
Lemma stacks_blocks pu po l bs : stacks pu po l bs -> blocks bs = l.
Proof. induction 1 as [|x r bs P W B|x w r bs P Q Q' W B]; [reflexivity| |]; unfold blocks in *; cbn; rewrite B; reflexivity. Qed.
(** what comes out *)
Lemma emit_join s d h0 l0 : (forall i, In i l0 -> (i < length h0)%nat /\ h_string h0 i = s /\ fwf (n_f (nd h0 i))) ->
  forall bs h, extends h0 h -> incl (blocks bs) l0 -> Forall (fun b : bool * list nat => if fst b then snd b <> [] else exists x, snd b = [x]) bs ->
  exists h' outs, emit (fun b g => join_h g b d) bs h = (h', (outs, None)) /\ extends h h' /\ Forall2 (joined h0 h' s d) bs outs.
Proof.
  intros Hi. induction bs as [|[k b] bs IH]; intros h X I F.
  - exists h, []. split; [reflexivity|]. split; [apply extends_refl|constructor].
  - inversion F as [|? ? F1 F2]; subst. assert (Ib : incl b l0) by (intros x Hx; apply I; unfold blocks; cbn; apply in_or_app; auto). assert (Ir : incl (blocks bs) l0) by (intros x Hx; apply I; unfold blocks; cbn; apply in_or_app; auto).
    cbn [emit]. destruct k; cbn [fst snd] in F1.
    + assert (Dt : forall i, In i b -> n_f (nd h i) = n_f (nd h0 i)) by (intros i Hb; rewrite (proj2 X i (proj1 (Hi i (Ib i Hb)))); reflexivity).
      assert (Em : map (fun i => n_f (nd h i)) b = map (fun i => n_f (nd h0 i)) b) by (apply map_ext_in; exact Dt).
      destruct (join_spec (map (fun i => n_f (nd h0 i)) b) d) as [(s' & Fs & j & Ej & J1 & J2 & J3 & J4 & J5)|[(x & y & Hx & Hy & N) _]].
      * apply Forall_forall. intros f Hf. apply in_map_iff in Hf. destruct Hf as (i & <- & Hin). apply Hi, Ib, Hin.
      * destruct b; [congruence|discriminate].
      * assert (s' = s) as ->. { destruct b as [|i b]; [congruence|]. pose proof (Forall_inv Fs) as Fi. destruct (Hi i (Ib i (or_introl eq_refl))) as (_ & Si & _). unfold h_string in Si. cbn in Fi. congruence. }
        assert (Ejh : join_h h b d = (h ++ [Nd j None []], Ok (length h))) by (unfold join_h; rewrite Em, Ej; reflexivity). rewrite Ejh. pose proof (extends_new h (Nd j None [])) as Xn.
        destruct (IH (h ++ [Nd j None []]) (extends_trans _ _ _ X Xn) Ir F2) as (h' & outs & E & X' & R). rewrite E. exists h', (length h :: outs). split; [reflexivity|]. split; [exact (extends_trans _ _ _ Xn X')|].
        constructor; [|exact R]. cbn [joined]. split; [apply X|]. assert (En : nd h' (length h) = Nd j None []) by (rewrite (proj2 X') by (rewrite app_length; cbn; lia); rewrite nd_app, Nat.eqb_refl; reflexivity). rewrite En. cbn [n_f n_par n_kids]. split; [exact J1|]. split; [exact J2|]. split; [exact J3|]. split; [exact J5|]. split; reflexivity.
      * exfalso. apply N. apply in_map_iff in Hx. apply in_map_iff in Hy. destruct Hx as (i & <- & Hx), Hy as (j & <- & Hy). destruct (Hi i (Ib i Hx)) as (_ & Si & _), (Hi j (Ib j Hy)) as (_ & Sj & _). unfold h_string in *. congruence.
    + destruct F1 as [x ->]. destruct (IH h X Ir F2) as (h' & outs & E & X' & R). rewrite E. exists h', (x :: outs). split; [reflexivity|]. split; [exact X'|]. constructor; [reflexivity|exact R].
Qed.
Theorem windowed_total size pred d p s l h : (0 < size)%nat -> (forall i, In i l -> (i < length h)%nat /\ h_string h i = s /\ fwf (n_f (nd h i))) ->
  (forall g w, same_items l h g -> incl w l -> length w = size -> pred g w = Ok (p w)) ->
  exists bs h' outs, drain (run_post (PostWindow size pred d) (of_list l)) h = (h', (outs, None)) /\ windows size p l bs /\ blocks bs = l /\ extends h h' /\ Forall2 (joined h h' s d) bs outs.
Proof.
  intros Hs Hi Hp. destruct (windowed_spec size pred d p l h Hs (fun i H => proj1 (Hi i H)) Hp l [] h) as (bs & B1 & B2); [intros x []|apply incl_refl|cbn; lia|apply extends_refl|].
  cbn [app] in B1. destruct (windows_blocks size p l bs B1) as [B3 B4]. destruct (emit_join s d h l Hi bs h (extends_refl h)) as (h' & outs & E & X & R); [rewrite B3; apply incl_refl| |].
  - refine (Forall_impl _ _ B4). intros [[|] w]; cbn [fst snd]; [intros [L _] ->; cbn in L; lia|auto].
  - exists bs, h', outs. cbn [run_post]. rewrite B2. auto.
Qed.
Theorem stacked_total reduce push pop pu po l h :
  (forall b g, same_items l h g -> incl b l -> same_items l g (fst (reduce b g))) ->
  (forall g x, same_items l h g -> In x l -> push g [] x = Ok (pu x)) ->
  (match pop with None => forall st x, po st x = false | Some q => forall g st x, same_items l h g -> incl st l -> In x l -> q g st x = Ok (po st x) end) ->
  exists bs, stacks pu po l bs /\ blocks bs = l /\ drain (run_post (PostStack reduce push pop) (of_list l)) h = emit reduce bs h.
Proof.
  intros Hr Hpu Hpo. destruct (stacked_spec reduce push pop pu po l h Hr Hpu Hpo l [] h) as [G _]; [apply incl_refl|intros x []|intros i _; reflexivity|]. destruct (G eq_refl) as (bs & B1 & B2). exists bs. split; [exact B1|]. split; [exact (stacks_blocks pu po l bs B1)|exact B2].
Qed.
