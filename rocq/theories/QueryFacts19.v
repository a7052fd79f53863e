(** Facts for queries: what an accepted text looks like. *)
From Verif Require Import SpecQuery QueryFacts9 QueryFacts17.

Lemma run_of_inv c m : forall s, exists t, s = repeat c (run_of c m s) ++ t /\ (run_of c m s <= m)%nat.
Proof.
  induction m as [|m IH]; intros s; [exists s; split; [reflexivity|reflexivity]|]. destruct s as [|x s]; [exists []; split; [reflexivity|cbn; lia]|]. cbn [run_of].
  destruct (Z.eqb_spec x c) as [->|_]; [|exists (x :: s); split; [reflexivity|lia]]. destruct (IH s) as (t & E & L). exists t. cbn [repeat app]. rewrite <- E. split; [reflexivity|lia].
Qed.
Lemma parse_axis_key (x : Z) r k n1 : (if x =? 46 then Some (match run_of 46 4 (x :: r) with 1%nat => AxSelf | 2%nat => AxParent | 3%nat => AxAncs | _ => AxRoot end, run_of 46 4 (x :: r))
      else if x =? 42 then Some (match run_of 42 3 (x :: r) with 1%nat => AxKids | 2%nat => AxDescs | _ => AxLeaves end, run_of 42 3 (x :: r))
      else if (x =? 62) && match r with y :: _ => y =? 60 | [] => false end then Some (AxDedup, 2%nat)
      else if x =? 60 then Some (match run_of 60 3 (x :: r) with 1%nat => AxPrev | 2%nat => AxPrevs | _ => AxPrec end, run_of 60 3 (x :: r))
      else if x =? 62 then Some (match run_of 62 3 (x :: r) with 1%nat => AxNext | 2%nat => AxNexts | _ => AxFoll end, run_of 62 3 (x :: r))
      else None) = Some (k, n1) -> firstn n1 (x :: r) = axis_name k.
Proof.
  assert (B : forall c m, x = c -> (0 < m)%nat -> (1 <= run_of c m (x :: r) <= m)%nat /\ firstn (run_of c m (x :: r)) (x :: r) = repeat c (run_of c m (x :: r))).
  { intros c m -> Hm. destruct (run_of_inv c m (c :: r)) as (t & E & L). split.
    - split; [|exact L]. destruct m; [lia|]. cbn [run_of]. rewrite Z.eqb_refl. lia.
    - rewrite E at 2. replace (run_of c m (c :: r)) with (length (repeat c (run_of c m (c :: r)))) at 1 by apply repeat_length. rewrite firstn_app, firstn_all, Nat.sub_diag, app_nil_r. reflexivity. }
  destruct (Z.eqb_spec x 46) as [E|_].
  { pose proof (B 46 4%nat E ltac:(lia)) as [L X]. remember (run_of 46 4 (x :: r)) as nn eqn:En. clear En. intros EE. injection EE as <- <-. rewrite X. destruct nn as [|[|[|[|[|]]]]]; try lia; reflexivity. }
  destruct (Z.eqb_spec x 42) as [E|_].
  { pose proof (B 42 3%nat E ltac:(lia)) as [L X]. remember (run_of 42 3 (x :: r)) as nn eqn:En. clear En. intros EE. injection EE as <- <-. rewrite X. destruct nn as [|[|[|[|]]]]; try lia; reflexivity. }
  destruct ((x =? 62) && match r with y :: _ => y =? 60 | [] => false end) eqn:E0.
  { intros [= <- <-]. apply andb_true_iff in E0. destruct E0 as [E1 E2]. apply Z.eqb_eq in E1. destruct r as [|y r]; [discriminate|]. apply Z.eqb_eq in E2. subst. reflexivity. }
  destruct (Z.eqb_spec x 60) as [E|_].
  { pose proof (B 60 3%nat E ltac:(lia)) as [L X]. remember (run_of 60 3 (x :: r)) as nn eqn:En. clear En. intros EE. injection EE as <- <-. rewrite X. destruct nn as [|[|[|[|]]]]; try lia; reflexivity. }
  destruct (Z.eqb_spec x 62) as [E|_]; [|discriminate].
  pose proof (B 62 3%nat E ltac:(lia)) as [L X]. remember (run_of 62 3 (x :: r)) as nn eqn:En. clear En. intros EE. injection EE as <- <-. rewrite X. destruct nn as [|[|[|[|]]]]; try lia; reflexivity.
Qed.
Lemma parse_axis_inv s a n : parse_axis s = Some (a, n) -> exists t, s = firstn n s ++ t /\ axis_text a (firstn n s).
Proof.
  unfold parse_axis. intros H. exists (skipn n s). split; [symmetry; apply firstn_skipn|].
  remember (match s with x :: _ => if x =? 45 then (true, 1%nat) else if x =? 43 then (false, 1%nat) else (false, 0%nat) | [] => (false, 0%nat) end) as z eqn:Ez. destruct z as [rv n0].
  assert (HS : (if rv then firstn n0 s = lit "-" else firstn n0 s = [] \/ firstn n0 s = lit "+") /\ (n0 <= length s)%nat).
  { destruct s as [|x s]; [injection Ez as -> ->; split; [left; reflexivity|cbn; lia]|]. destruct (Z.eqb_spec x 45) as [->|_]; [injection Ez as -> ->; split; [reflexivity|cbn; lia]|].
    destruct (Z.eqb_spec x 43) as [->|_]; injection Ez as -> ->; (split; [|cbn; lia]); auto. }
  clear Ez. cbv zeta in H. destruct (skipn n0 s) as [|x r] eqn:Es; [discriminate|].
  match type of H with (match ?K with _ => _ end) = _ => destruct K as [[k n1]|] eqn:EK end; [|discriminate].
  apply parse_axis_key in EK.
  remember (run_of 33 2 (skipn n1 (x :: r))) as n2 eqn:E2. injection H as <- <-. destruct (run_of_inv 33 2 (skipn n1 (x :: r))) as (t & Et & L2). rewrite <- E2 in Et, L2.
  exists (firstn n0 s). cbn [ax_rev ax_key ax_self]. split; [exact (proj1 HS)|].
  assert (D : firstn (n0 + n1 + n2) s = firstn n0 s ++ firstn n1 (x :: r) ++ firstn n2 (skipn n1 (x :: r))).
  { rewrite <- Es. clear. revert s. induction n0 as [|n0 IH]; intros s.
    - cbn [Nat.add skipn]. rewrite firstn_O. cbn [app]. revert s. induction n1 as [|n1 IH]; intros s; [reflexivity|]. destruct s; [rewrite !firstn_nil; reflexivity|]. cbn [Nat.add firstn skipn app]. rewrite IH. reflexivity.
    - destruct s as [|y s]; [rewrite !skipn_nil, !firstn_nil; reflexivity|]. cbn [Nat.add firstn skipn app]. rewrite IH. reflexivity. }
  rewrite D, EK. f_equal. f_equal. rewrite Et.
  replace n2 with (length (repeat 33 n2)) at 1 by apply repeat_length. rewrite firstn_app, firstn_all, Nat.sub_diag, app_nil_r.
  destruct n2 as [|[|[|]]]; try lia; reflexivity.
Qed.
Lemma split_starts s : forall esc d cur l, split_phrases s esc d cur = Ok l ->
  fst (after esc d s) = false /\ (exists p l' t, l = p :: l' /\ rev cur ++ s = p ++ t) /\
  (forall u v, s = u ++ 47 :: v -> after esc d u = (false, 0) -> exists p t, In p l /\ v = p ++ t).
Proof.
  induction s as [|c s IH]; intros esc d cur l; cbn [split_phrases after].
  - destruct esc; [discriminate|]. intros [= <-]. split; [reflexivity|]. split; [exists (rev cur), [], []; auto|]. intros [|? u] v E; discriminate.
  - assert (N : forall esc' d', split_phrases s esc' d' (c :: cur) = Ok l ->
      (forall u, after esc d (c :: u) = after esc' d' u) -> (c = 47 -> esc = true \/ d <> 0) ->
      fst (after esc d (c :: s)) = false /\ (exists p l' t, l = p :: l' /\ rev cur ++ c :: s = p ++ t) /\
      (forall u v, c :: s = u ++ 47 :: v -> after esc d u = (false, 0) -> exists p t, In p l /\ v = p ++ t)).
    { intros esc' d' H A C. destruct (IH _ _ _ _ H) as (I1 & (p & l' & t & -> & I2) & I3). split; [rewrite A; exact I1|]. split.
      - exists p, l', t. split; [reflexivity|]. cbn [rev] in I2. rewrite <- app_assoc in I2. exact I2.
      - intros [|y u] v E Eu; cbn [app] in E; injection E as E1 E2.
        + cbn [after] in Eu. injection Eu as -> ->. destruct (C E1) as [X|X]; [discriminate|contradiction].
        + subst y. apply (I3 u v E2). rewrite <- A. exact Eu. }
    change (if esc then after false d s else if c =? 92 then after true d s else after false (d + (if c =? 123 then 1 else if c =? 125 then -1 else 0)) s) with (after esc d (c :: s)).
    destruct esc; [intros H; apply (N false d H); [reflexivity|auto]|].
    destruct (Z.eqb_spec c 92) as [E|E92]; [intros H; apply (N true d H); [intros u; cbn [after]; rewrite E; reflexivity|lia]|].
    assert (A : forall u, after false d (c :: u) = after false (d + (if c =? 123 then 1 else if c =? 125 then -1 else 0)) u).
    { intros u. cbn [after]. apply Z.eqb_neq in E92. rewrite E92. reflexivity. }
    destruct (Z.eqb_spec c 123) as [E|E123]; [intros H; apply (N false (d + 1) H A); lia|].
    destruct (Z.eqb_spec c 125) as [E|E125]; [intros H; apply (N false (d - 1) H A); lia|]. rewrite Z.add_0_r in A.
    destruct ((c =? 47) && (d =? 0)) eqn:E0.
    + apply andb_true_iff in E0. destruct E0 as [E1 E2]. apply Z.eqb_eq in E1, E2. subst c d. destruct (split_phrases s false 0 []) as [m|e] eqn:Em; cbn [bind]; [|discriminate]. intros [= <-].
      destruct (IH _ _ _ _ Em) as (I1 & (p & l' & t & -> & I2) & I3). split; [rewrite A; exact I1|]. split; [exists (rev cur), (p :: l'), (47 :: s); auto|].
      intros [|y u] v E Eu; cbn [app] in E; [injection E as E2|injection E as E1 E2].
      * subst v. exists p, t. split; [right; left; reflexivity|exact I2].
      * subst y. destruct (I3 u v E2) as (p' & t' & Hp & Ev); [rewrite <- A; exact Eu|]. exists p', t'. split; [right; exact Hp|exact Ev].
    + intros H. apply (N false d H A). intros ->. cbn in E0. apply Z.eqb_neq in E0. right. exact E0.
Qed.
Lemma map_list_all {A B} (f : A -> res B) l ys : map_list f l None = Ok ys -> forall x, In x l -> exists y, f x = Ok y.
Proof.
  revert ys. induction l as [|x l IH]; intros ys; [intros _ ? []|]. cbn [map_list]. destruct (f x) as [y|] eqn:E; cbn [bind]; [|discriminate]. destruct (map_list f l None) eqn:El; cbn [bind]; [|discriminate].
  intros _ z [<-|Hz]; [eauto|exact (IH _ eq_refl z Hz)].
Qed.
Theorem accepted_text E s q : parse_query E s = Ok q ->
  printable E s /\ fst (after false 0 s) = false /\
  (forall u v, (u = [] /\ v = s) \/ (s = u ++ 47 :: v /\ complete u) -> exists a w t, v = w ++ t /\ axis_text a w).
Proof.
  rewrite parse_query_eq. destruct (zlen s =? 0); cbn [orb]; [discriminate|]. destruct (existsb (py_isprintable E) s) eqn:Ep; cbn [negb]; [|discriminate].
  destruct (split_phrases s false 0 []) as [l|e] eqn:El; cbn [bind]; [|discriminate]. intros H. apply split_starts in El. destruct El as (I1 & (p & l' & t & -> & I2) & I3).
  assert (A : forall p0, In p0 (p :: l') -> exists a w t, p0 = w ++ t /\ axis_text a w).
  { intros p0 Hp. destruct (map_list_all _ _ _ H p0 Hp) as (y & Ey). unfold parse_phrase in Ey. destruct (parse_axis p0) as [[a n]|] eqn:Ea; [|discriminate].
    apply parse_axis_inv in Ea. destruct Ea as (t0 & E1 & E2). eauto. }
  split; [apply existsb_exists in Ep; exact Ep|]. split; [exact I1|]. intros u v [[-> ->]|[Es Cu]].
  - destruct (A p (or_introl eq_refl)) as (a & w & t0 & -> & Hw). exists a, w, (t0 ++ t). split; [|exact Hw]. rewrite app_assoc. exact I2.
  - destruct (I3 u v Es Cu) as (p' & t' & Hp & ->). destruct (A p' Hp) as (a & w & t0 & -> & Hw). exists a, w, (t0 ++ t'). split; [rewrite app_assoc; reflexivity|exact Hw].
Qed.
