(** Reduction of a parenthesis-free expression. *)
From Verif Require Export QueryFacts.

Inductive bop := BAnd | BXor | BOr.
Definition bop_char (b : bop) : Z := match b with BAnd => c_and | BXor => c_xor | BOr => c_or end.
Definition bop_fun (b : bop) : bool -> bool -> bool := match b with BAnd => andb | BXor => xorb | BOr => orb end.
Definition bop_lvl (b : bop) : nat := match b with BAnd => 2 | BXor => 1 | BOr => 0 end.

(** the value of v0 op1 v1 op2 v2 ...: accumulated or, xor and and *)
Fixpoint go (o x a : bool) (r : list (bop * bool)) : bool :=
  match r with
  | [] => o || xorb x a
  | (BAnd, v) :: r => go o x (a && v) r
  | (BXor, v) :: r => go o (xorb x a) v r
  | (BOr, v) :: r => go (o || xorb x a) false v r
  end.
Definition V (v0 : bool) (r : list (bop * bool)) : bool := go false false v0 r.

Lemma go_or r1 w r2 : forall o x a, go o x a (r1 ++ (BOr, w) :: r2) = go o x a r1 || V w r2.
Proof.
  assert (G : forall r o x a, go o x a r = o || go false x a r).
  { induction r as [|[[] v] r IH]; intros o x a; cbn [go]; [destruct o; reflexivity|apply IH|apply IH|].
    rewrite IH. rewrite (IH (false || xorb x a)). destruct o, (xorb x a); reflexivity. }
  induction r1 as [|[[] v] r1 IH]; intros o x a; cbn [go app]; [|apply IH|apply IH|apply IH]. unfold V. rewrite G. reflexivity.
Qed.
Definition no_or (r : list (bop * bool)) := Forall (fun p => fst p <> BOr) r.
Definition only_and (r : list (bop * bool)) := Forall (fun p => fst p = BAnd) r.
Lemma go_no_or r : no_or r -> forall x a, go false x a r = xorb x (go false false a r).
Proof.
  induction 1 as [|[b v] r N F IH]; intros x a; cbn [go]; [destruct x, a; reflexivity|]. cbn in N. destruct b; [apply IH| |congruence].
  rewrite IH, (IH (xorb false a)). destruct x, a, (go false false v r); reflexivity.
Qed.
Lemma go_xor r1 w r2 : no_or r1 -> no_or r2 -> forall x a, go false x a (r1 ++ (BXor, w) :: r2) = xorb (go false x a r1) (V w r2).
Proof.
  intros N1 N2. induction N1 as [|[b v] r1 N F IH]; intros x a; cbn [go app].
  - unfold V. rewrite (go_no_or r2 N2). destruct x, a; reflexivity.
  - cbn in N. destruct b; [apply IH|apply IH|congruence].
Qed.
Lemma go_only_and r : only_and r -> forall a, go false false a r = a && forallb snd r.
Proof.
  induction 1 as [|[b v] r N F IH]; intros a; cbn [go forallb snd]; [destruct a; reflexivity|]. cbn in N. subst b. rewrite IH. apply eq_sym, andb_assoc.
Qed.
Lemma go_and r1 w r2 : only_and r1 -> only_and r2 -> forall a, go false false a (r1 ++ (BAnd, w) :: r2) = go false false a r1 && V w r2.
Proof.
  intros N1 N2 a. unfold V. rewrite (go_only_and (r1 ++ _)), (go_only_and r1 N1), (go_only_and r2 N2).
  - rewrite forallb_app. cbn [forallb snd]. rewrite !andb_assoc. reflexivity.
  - apply Forall_app. split; [exact N1|constructor; [reflexivity|exact N2]].
Qed.

(** one step of the reduction keeps the value *)
Lemma go_step_and pre v post b w : forall o x a, go o x a (pre ++ (b, v) :: (BAnd, w) :: post) = go o x a (pre ++ (b, v && w) :: post).
Proof.
  induction pre as [|[[] u] pre IH]; intros o x a; cbn [go app]; [|apply IH|apply IH|apply IH]. destruct b; cbn [go]; rewrite ?andb_assoc; reflexivity.
Qed.
Definition no_and (r : list (bop * bool)) := Forall (fun p => fst p <> BAnd) r.
Lemma go_xor_first post v w : no_and post -> forall o x, go o (xorb x v) w post = go o x (xorb v w) post.
Proof. intros N o x. inversion N as [|[b u] r N1 F]; subst; cbn [go]; [|cbn in N1; destruct b; [congruence| |]; cbn [go]]; destruct o, x, v, w; reflexivity. Qed.
Lemma go_step_xor pre v post b w : no_and (pre ++ (b, v) :: post) -> forall o x a, go o x a (pre ++ (b, v) :: (BXor, w) :: post) = go o x a (pre ++ (b, xorb v w) :: post).
Proof.
  intros N. induction pre as [|[[] u] pre IH]; intros o x a; cbn [go app] in *; [|inversion N; subst; apply IH; assumption..].
  inversion N as [|? ? N1 F]; subst. cbn in N1. destruct b; [congruence| |]; cbn [go]; apply go_xor_first; exact F.
Qed.
Definition only_or (r : list (bop * bool)) := Forall (fun p => fst p = BOr) r.
Lemma go_or_first post v w : only_or post -> forall o, go (o || v) false w post = go o false (v || w) post.
Proof.
  intros N o. inversion N as [|[b u] r N1 F]; subst; cbn [go]; [|cbn in N1; subst b; cbn [go]]; rewrite ?xorb_false_l; rewrite ?orb_assoc; reflexivity.
Qed.
Lemma go_step_or pre v post b w : only_or (pre ++ (b, v) :: post) -> forall o x a, go o x a (pre ++ (b, v) :: (BOr, w) :: post) = go o x a (pre ++ (b, v || w) :: post).
Proof.
  intros N. induction pre as [|[[] u] pre IH]; intros o x a; cbn [go app] in *; [|inversion N; subst; apply IH; assumption..].
  inversion N as [|? ? N1 F]; subst. cbn in N1. subst b. cbn [go]. rewrite !xorb_false_l. apply go_or_first. exact F.
Qed.

(** ** operands and the operator they hold *)
Definition op_is (b : bop) (op : pystr) : Prop := forall b', has (bop_char b') op = true <-> b' = b.
Lemma first_with_spec bs ops b : Forall2 op_is bs ops -> forall k,
  match first_with (bop_char b) ops k with
  | Some i => exists b1 b2, bs = b1 ++ b :: b2 /\ ~ In b b1 /\ i = (k + length b1)%nat
  | None => ~ In b bs
  end.
Proof.
  induction 1 as [|b0 op bs ops O F IH]; intros k; cbn [first_with]; [intros []|].
  destruct (has (bop_char b) op) eqn:Hh.
  - apply (O b) in Hh. subst b0. exists [], bs. cbn. split; [reflexivity|]. split; [intros []|lia].
  - assert (N : b0 <> b) by (intros ->; rewrite (proj2 (O b) eq_refl) in Hh; discriminate).
    specialize (IH (S k)). destruct (first_with (bop_char b) ops (S k)) as [i|].
    + destruct IH as (b1 & b2 & -> & N1 & ->). exists (b0 :: b1), b2. cbn. split; [reflexivity|]. split; [intros [X|X]; [congruence|apply N1; exact X]|lia].
    + intros [X|X]; [congruence|apply IH; exact X].
Qed.
Lemma bop_dec (a b : bop) : {a = b} + {a <> b}.
Proof. decide equality. Qed.
Lemma highest_spec bs ops : Forall2 op_is bs ops -> bs <> [] -> exists b1 b b2,
  bs = b1 ++ b :: b2 /\ highest ops = Some (length b1, bop_fun b) /\
  match b with BAnd => True | BXor => ~ In BAnd bs | BOr => ~ In BAnd bs /\ ~ In BXor bs end.
Proof.
  intros F N. unfold highest. pose proof (first_with_spec bs ops BAnd F 0) as A. pose proof (first_with_spec bs ops BXor F 0) as X. pose proof (first_with_spec bs ops BOr F 0) as O.
  change (bop_char BAnd) with c_and in A. change (bop_char BXor) with c_xor in X. change (bop_char BOr) with c_or in O.
  destruct (first_with c_and ops 0) as [i|]; [destruct A as (b1 & b2 & E & _ & ->); exists b1, BAnd, b2; auto|].
  destruct (first_with c_xor ops 0) as [i|]; [destruct X as (b1 & b2 & E & _ & ->); exists b1, BXor, b2; auto|].
  destruct (first_with c_or ops 0) as [i|]; [destruct O as (b1 & b2 & E & _ & ->); exists b1, BOr, b2; auto|].
  exfalso. destruct bs as [|b bs]; [congruence|]. destruct b; [apply A|apply X|apply O]; left; reflexivity.
Qed.

Lemma removal {A} (l1 : list A) x l2 : firstn (length l1) (l1 ++ x :: l2) ++ skipn (S (length l1)) (l1 ++ x :: l2) = l1 ++ l2.
Proof.
  rewrite firstn_app, Nat.sub_diag, firstn_all. cbn [firstn]. rewrite app_nil_r. f_equal.
  replace (S (length l1)) with (length (l1 ++ [x])) by (rewrite app_length; cbn; lia).
  replace (l1 ++ x :: l2) with ((l1 ++ [x]) ++ l2) by (rewrite <- app_assoc; reflexivity). rewrite skipn_app, skipn_all, Nat.sub_diag. reflexivity.
Qed.
Lemma F2_len {A B} (R : A -> B -> Prop) l m : Forall2 R l m -> length l = length m.
Proof. induction 1; cbn; congruence. Qed.
Lemma Forall2_mid {A B} (R : A -> B -> Prop) l1 x l2 m : Forall2 R (l1 ++ x :: l2) m -> exists m1 y m2, m = m1 ++ y :: m2 /\ length m1 = length l1 /\ Forall2 R (l1 ++ l2) (m1 ++ m2).
Proof.
  intros F. apply Forall2_app_inv_l in F. destruct F as (m1 & m2 & F1 & F2 & ->). inversion F2 as [|? y ? m3 _ F3]; subst. exists m1, y, m3. split; [reflexivity|].
  split; [symmetry; exact (F2_len _ _ _ F1)|]. apply Forall2_app; assumption.
Qed.
Lemma reduce_spec n : forall v0 bs vs ops, length vs = length bs -> Forall2 op_is bs ops -> (length vs <= n)%nat ->
  reduce n (v0 :: vs) ops = Ok (V v0 (combine bs vs)).
Proof.
  induction n as [|n IH]; intros v0 bs vs ops Hl F Hn.
  - destruct vs; [|cbn in Hn; lia]. destruct bs; [|discriminate]. cbn. destruct v0; reflexivity.
  - destruct vs as [|v1 vs]; [destruct bs; [|discriminate]; cbn; destruct v0; reflexivity|].
    assert (Nb : bs <> []) by (intros ->; discriminate). destruct (highest_spec bs ops F Nb) as (b1 & b & b2 & E & Hh & P).
    cbn [reduce]. rewrite Hh. rewrite E in F. destruct (Forall2_mid _ _ _ _ _ F) as (m1 & y & m2 & -> & L1 & F').
    rewrite <- L1, removal. set (vals := v0 :: v1 :: vs) in *. subst bs. rewrite app_length in Hl. cbn [length] in Hl.
    (* split the values *)
    assert (Sp : exists w1 x z w2, vals = w1 ++ x :: z :: w2 /\ length w1 = length b1).
    { assert (Lv : (length vals = length b1 + 2 + length b2)%nat) by (unfold vals; cbn [length]; lia).
      destruct (skipn (length b1) vals) as [|x [|z w2]] eqn:Es; pose proof (skipn_length (length b1) vals) as Sl; rewrite Es in Sl; cbn [length] in Sl; try lia.
      exists (firstn (length b1) vals), x, z, w2. split; [rewrite <- Es; symmetry; apply firstn_skipn|rewrite firstn_length; lia]. }
    destruct Sp as (w1 & x & z & w2 & Ev & Lw). rewrite Ev. rewrite L1, <- Lw.
    rewrite app_nth2, Nat.sub_diag by lia. rewrite app_nth2 by lia. replace (S (length w1) - length w1)%nat with 1%nat by lia. cbn [nth].
    replace (firstn (length w1) (w1 ++ x :: z :: w2)) with w1 by (rewrite firstn_app, Nat.sub_diag, firstn_all; cbn; rewrite app_nil_r; reflexivity).
    replace (skipn (length w1 + 2) (w1 ++ x :: z :: w2)) with w2 by (rewrite skipn_app, skipn_all2 by lia; replace (length w1 + 2 - length w1)%nat with 2%nat by lia; reflexivity).
    assert (Lw2 : length w2 = length b2) by (assert (length vals = length (w1 ++ x :: z :: w2)) as Q by (rewrite Ev; reflexivity); unfold vals in Q; rewrite app_length in Q; cbn [length] in Q; lia).
    assert (Cp : forall (q : list bop) (w : list bool) q' w', length q = length w -> combine (q ++ q') (w ++ w') = combine q w ++ combine q' w').
    { clear. induction q as [|b q IH]; intros [|c w] q' w' L; cbn in *; try discriminate; [reflexivity|]. f_equal. apply IH. lia. }
    destruct w1 as [|u w1].
    + destruct b1; [|discriminate]. destruct m1; [|discriminate]. cbn [app] in *. unfold vals in Ev. injection Ev as -> -> ->.
      rewrite (IH (bop_fun b x z) b2 w2 m2 Lw2 F' (le_S_n _ _ Hn)). f_equal. unfold V. cbn [combine]. destruct b; cbn [go bop_fun].
      * reflexivity.
      * rewrite xorb_false_l. symmetry. rewrite <- (xorb_false_l x) at 1. apply (go_xor_first (combine b2 w2) x z).
        apply Forall_forall. intros [b w] Hc Eb. apply in_combine_l in Hc. cbn in Eb. subst b. apply P. right. exact Hc.
      * rewrite xorb_false_l. symmetry. apply (go_or_first (combine b2 w2) x z).
        apply Forall_forall. intros [b w] Hc. apply in_combine_l in Hc. cbn. destruct P as [P1 P2]. destruct b; [exfalso; apply P1; right; exact Hc|exfalso; apply P2; right; exact Hc|reflexivity].
    + unfold vals in Ev. cbn [app] in Ev. injection Ev as <- Ev.
      cbn [app]. rewrite (IH v0 (b1 ++ b2) (w1 ++ bop_fun b x z :: w2) (m1 ++ m2)).
      2:{ rewrite !app_length. cbn [length] in *. lia. }
      2:{ exact F'. }
      2:{ assert (length (v1 :: vs) = length (w1 ++ x :: z :: w2)) as Q by (rewrite Ev; reflexivity). rewrite !app_length in *. cbn [length] in *. lia. }
      f_equal. rewrite Ev. destruct (exists_last (l := b1)) as (c1 & c & ->); [intros ->; discriminate|]. rewrite app_length in Lw. cbn [length] in Lw.
      rewrite <- !app_assoc. cbn [app]. rewrite !Cp by lia. cbn [combine]. unfold V. destruct b; cbn [bop_fun].
      * symmetry. apply go_step_and.
      * symmetry. apply go_step_xor. apply Forall_app. split; [|constructor; [cbn; intros ->; apply P; apply in_or_app; left; apply in_or_app; right; left; reflexivity|]];
          apply Forall_forall; intros [b w] Hc Eb; apply in_combine_l in Hc; cbn in Eb; subst b; apply P; rewrite <- app_assoc; apply in_or_app; [left; exact Hc|right; cbn; right; right; exact Hc].
      * symmetry. destruct P as [P1 P2].
        assert (O : forall b, In b ((c1 ++ [c]) ++ BOr :: b2) -> b = BOr) by (intros [] Hb; [contradiction|contradiction|reflexivity]).
        apply go_step_or. apply Forall_app. split; [|constructor; [cbn; apply O; rewrite <- app_assoc; apply in_or_app; right; left; reflexivity|]];
          apply Forall_forall; intros [b w] Hc; apply in_combine_l in Hc; cbn; apply O; rewrite <- app_assoc; apply in_or_app; [left; exact Hc|right; cbn; right; right; exact Hc].
Qed.
