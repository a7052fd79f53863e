(** A parenthesis-free expression is evaluated to its outcome. *)
From Verif Require Export QueryFacts2.

Definition bin_chars : pystr := [c_and; c_xor; c_or].
Definition no_bin (s : pystr) : Prop := forall b, has (bop_char b) s = false.
Definition no_par {A} (l : list (item A)) : Prop := forall c, In c (chars_of l) -> c <> c_open /\ c <> c_close.

Lemma has_app c s t : has c (s ++ t) = has c s || has c t.
Proof. unfold has, mem_char. apply existsb_app. Qed.
Lemma count_char_app c s t : count_char c (s ++ t) = (count_char c s + count_char c t)%nat.
Proof. unfold count_char. rewrite filter_app, app_length. reflexivity. Qed.

Lemma eval_all_app fs1 : forall ops1 ops2 fs2 h r ec, length ops1 = length fs1 ->
  eval_all (ops1 ++ ops2) (fs1 ++ fs2) h r ec = do v1 <- eval_all ops1 fs1 h r ec; do v2 <- eval_all ops2 fs2 h r ec; Ok (v1 ++ v2).
Proof.
  induction fs1 as [|f fs1 IH]; intros [|op ops1] ops2 fs2 h r ec L; try discriminate.
  - cbn [app eval_all bind]. destruct ops2, fs2; cbn [eval_all bind]; try reflexivity. destruct (eval_one l e h r ec); cbn [bind]; [|reflexivity]. destruct (eval_all ops2 fs2 h r ec); reflexivity.
  - cbn [app eval_all]. destruct (eval_one op f h r ec) as [b|x]; cbn [bind]; [|reflexivity]. rewrite IH by (cbn in L; lia).
    destruct (eval_all ops1 fs1 h r ec) as [v1|x]; cbn [bind]; [|reflexivity]. destruct (eval_all ops2 fs2 h r ec); reflexivity.
Qed.
Lemma eval_all_more fs : forall ops o h r ec, length ops = length fs -> eval_all (ops ++ o) fs h r ec = eval_all ops fs h r ec.
Proof.
  intros ops o h r ec L. rewrite <- (app_nil_r fs) at 1. rewrite eval_all_app by exact L. destruct (eval_all ops fs h r ec); cbn; [|reflexivity].
  destruct o; cbn; rewrite app_nil_r; reflexivity.
Qed.
Lemma eval_all_len fs : forall ops h r ec v, (length fs <= length ops)%nat -> eval_all ops fs h r ec = Ok v -> length v = length fs.
Proof.
  induction fs as [|f fs IH]; intros ops h r ec v L E; [destruct ops; injection E as <-; reflexivity|].
  destruct ops as [|op ops]; [cbn in L; lia|]. cbn [eval_all] in E. destruct (eval_one op f h r ec); cbn [bind] in E; [|discriminate].
  destruct (eval_all ops fs h r ec) as [bs|] eqn:E1; cbn [bind] in E; [|discriminate]. injection E as <-. cbn. f_equal. eapply IH; [|exact E1]. cbn in L. lia.
Qed.
Lemma eval_all_hd o1 o2 ops fs h r ec : Nat.odd (count_char c_not o1) = Nat.odd (count_char c_not o2) -> eval_all (o1 :: ops) fs h r ec = eval_all (o2 :: ops) fs h r ec.
Proof. intros E. destruct fs as [|f fs]; [reflexivity|]. cbn [eval_all]. unfold eval_one. rewrite E. reflexivity. Qed.

(** what a written expression of precedence n looks like *)
Definition flat_ok (n : nat) (e : expr ecf) (l : list (item ecf)) : Prop :=
  exists o0 mids oL bs, operands l = o0 :: mids ++ [oL] /\ Forall2 op_is bs mids /\ no_bin o0 /\ no_bin oL /\ count_char c_not oL = 0%nat /\
    Forall (fun b => (n <= bop_lvl b)%nat) bs /\
    forall h r ec, outcome (fun f : ecf => f h r ec) e = do vals <- eval_all (operands l) (atoms l) h r ec; match vals with v0 :: vs => Ok (V v0 (combine bs vs)) | [] => Err IndexError end.

Lemma combine_app {A B} (q : list A) (w : list B) q' w' : length q = length w -> combine (q ++ q') (w ++ w') = combine q w ++ combine q' w'.
Proof. revert w. induction q as [|b q IH]; intros [|c w] L; cbn in *; try discriminate; [reflexivity|]. f_equal. apply IH. lia. Qed.
Lemma op_is_mid b o1 o2 : no_bin o1 -> no_bin o2 -> op_is b (o1 ++ bop_char b :: o2).
Proof.
  intros N1 N2 b'. rewrite has_app. change (bop_char b :: o2) with ([bop_char b] ++ o2). rewrite has_app, N1, N2. rewrite orb_false_r, orb_false_l.
  destruct b, b'; cbn; intuition discriminate.
Qed.
Lemma V_bin b v01 v02 bs1 bs2 vs1 vs2 : length vs1 = length bs1 -> length vs2 = length bs2 ->
  Forall (fun b' => (bop_lvl b <= bop_lvl b')%nat) bs1 -> Forall (fun b' => (bop_lvl b <= bop_lvl b')%nat) bs2 ->
  V v01 (combine (bs1 ++ b :: bs2) (vs1 ++ v02 :: vs2)) = bop_fun b (V v01 (combine bs1 vs1)) (V v02 (combine bs2 vs2)).
Proof.
  intros L1 L2 F1 F2. rewrite combine_app by lia. cbn [combine]. unfold V at 1. rewrite Forall_forall in F1, F2.
  assert (C : forall bs vs (P : bop * bool -> Prop), (forall b' v, In b' bs -> P (b', v)) -> Forall P (combine bs vs)).
  { intros bs vs P H. apply Forall_forall. intros [b' v] Hi. apply H. exact (in_combine_l _ _ _ _ Hi). }
  destruct b; cbn [bop_fun].
  - apply go_and; apply C; intros b' v Hb; cbn; [specialize (F1 b' Hb)|specialize (F2 b' Hb)]; destruct b'; cbn in *; try lia; reflexivity.
  - apply go_xor; apply C; intros b' v Hb; cbn; [specialize (F1 b' Hb)|specialize (F2 b' Hb)]; destruct b'; cbn in *; try lia; discriminate.
  - apply go_or.
Qed.
Lemma flat_bin b e1 e2 l1 l2 (op : expr ecf) : flat_ok (bop_lvl b) e1 l1 -> flat_ok (bop_lvl b) e2 l2 ->
  (forall v, outcome v op = do x <- outcome v e1; do y <- outcome v e2; Ok (bop_fun b x y)) ->
  flat_ok (bop_lvl b) op (l1 ++ IC (bop_char b) :: l2).
Proof.
  intros (o1 & m1 & p1 & bs1 & E1 & F1 & N1 & P1 & Z1 & V1 & O1) (o2 & m2 & p2 & bs2 & E2 & F2 & N2 & P2 & Z2 & V2 & O2) Op.
  assert (EI : operands (IC (bop_char b) :: l2) = (bop_char b :: o2) :: m2 ++ [p2]) by (cbn [operands]; rewrite E2; reflexivity).
  pose proof (operands_app l1 (IC (bop_char b) :: l2) (o1 :: m1) p1 _ _ E1 EI) as EO.
  exists o1, (m1 ++ (p1 ++ bop_char b :: o2) :: m2), p2, (bs1 ++ b :: bs2).
  split; [rewrite EO; cbn; rewrite <- app_assoc; reflexivity|]. split; [apply Forall2_app; [exact F1|constructor; [apply op_is_mid; assumption|exact F2]]|].
  split; [exact N1|]. split; [exact P2|]. split; [exact Z2|]. split; [apply Forall_app; split; [exact V1|constructor; [lia|exact V2]]|].
  intros h r ec. rewrite Op, O1, O2. rewrite EO, atoms_app, E1, E2. cbn [atoms].
  assert (La1 : length (o1 :: m1) = length (atoms l1)) by (pose proof (operands_len l1) as L; rewrite E1 in L; cbn [length] in *; rewrite app_length in L; cbn [length] in L; lia).
  assert (La2 : length (o2 :: m2) = length (atoms l2)) by (pose proof (operands_len l2) as L; rewrite E2 in L; cbn [length] in *; rewrite app_length in L; cbn [length] in L; lia).
  rewrite eval_all_app by exact La1. rewrite (eval_all_more (atoms l1) (o1 :: m1) [p1]) by exact La1.
  rewrite (eval_all_hd (p1 ++ bop_char b :: o2) o2).
  2:{ rewrite count_char_app, Z1. cbn [Nat.add]. change (bop_char b :: o2) with ([bop_char b] ++ o2). rewrite count_char_app. destruct b; reflexivity. }
  destruct (eval_all (o1 :: m1) (atoms l1) h r ec) as [vals1|x1] eqn:Ea1; cbn [bind]; [|reflexivity].
  apply eval_all_len in Ea1; [|lia]. destruct vals1 as [|v01 vs1]; [cbn [length] in *; lia|]. cbn [bind].
  destruct (eval_all (o2 :: m2 ++ [p2]) (atoms l2) h r ec) as [vals2|x2] eqn:Ea2; cbn [bind]; [|reflexivity].
  apply eval_all_len in Ea2; [|cbn [length] in *; rewrite app_length; cbn [length]; lia]. destruct vals2 as [|v02 vs2]; [cbn [length] in *; lia|]. cbn [bind app].
  f_equal. symmetry. pose proof (F2_len _ _ _ F1). pose proof (F2_len _ _ _ F2). cbn [length] in *. apply V_bin; try assumption; lia.
Qed.

Lemma no_par_app {A} (l m : list (item A)) : no_par (l ++ m) -> no_par l /\ no_par m.
Proof. unfold no_par. rewrite chars_app. intros H. split; intros c Hc; apply H; apply in_or_app; auto. Qed.
Lemma no_par_cons {A} c (l : list (item A)) : no_par (IC c :: l) -> no_par l.
Proof. intros H d Hd. apply H. right. exact Hd. Qed.
Lemma flat_spec n k e l : rendS n k e l -> no_par l -> flat_ok n e l.
Proof.
  induction 1 as [a|k e l R IH|n e l R IH|k1 k2 e1 e2 l1 l2 R1 IH1 R2 IH2|k1 k2 e1 e2 l1 l2 R1 IH1 R2 IH2|k1 k2 e1 e2 l1 l2 R1 IH1 R2 IH2|n k e l R IH|n k e l R IH|n k e l R IH]; intros NP.
  - exists [], [], [], []. cbn [operands atoms app]. repeat (split; [first [reflexivity|constructor|intros []; reflexivity]|]).
    intros h r ec. cbn. unfold eval_one, not_if. destruct (a h r ec) as [[]|]; reflexivity.
  - destruct (IH (no_par_cons _ _ NP)) as (o & m & p & bs & E & F & N & P & Z0 & Vv & O). exists (c_not :: o), m, p, bs.
    cbn [operands atoms]. rewrite E. cbn [app]. split; [reflexivity|]. split; [exact F|]. split; [intros b; specialize (N b); destruct b; exact N|]. split; [exact P|]. split; [exact Z0|]. split; [exact Vv|].
    assert (bs = []) as -> by (destruct bs as [|b bs]; [reflexivity|]; inversion Vv; destruct b; cbn in *; lia). inversion F; subst.
    intros h r ec. cbn [outcome]. rewrite O, E. cbn [app].
    pose proof (operands_len l) as L. rewrite E in L. cbn in L. destruct (atoms l) as [|f [|? ?]]; try discriminate. cbn [eval_all bind]. unfold eval_one.
    change (c_not :: o) with ([c_not] ++ o). rewrite count_char_app. change (count_char c_not [c_not]) with 1%nat. rewrite Nat.add_1_l, Nat.odd_succ, <- Nat.negb_odd.
    destruct (f h r ec) as [b|]; cbn [bind not_if]; [|reflexivity]. cbn. unfold V. cbn. destruct (Nat.odd (count_char c_not o)), b; reflexivity.
  - exfalso. destruct (NP c_open) as [X _]; [left; reflexivity|]. apply X. reflexivity.
  - apply no_par_app in NP. destruct NP as [A1 A2]. apply (flat_bin BAnd e1 e2); [apply IH1; exact A1|apply IH2; exact (no_par_cons _ _ A2)|reflexivity].
  - apply no_par_app in NP. destruct NP as [A1 A2]. apply (flat_bin BXor e1 e2); [apply IH1; exact A1|apply IH2; exact (no_par_cons _ _ A2)|reflexivity].
  - apply no_par_app in NP. destruct NP as [A1 A2]. apply (flat_bin BOr e1 e2); [apply IH1; exact A1|apply IH2; exact (no_par_cons _ _ A2)|reflexivity].
  - destruct (IH NP) as (o & m & p & bs & E & F & N & P & Z0 & Vv & O). exists o, m, p, bs. repeat (split; [assumption|]). split; [|exact O].
    eapply Forall_impl; [|exact Vv]. cbn. lia.
  - destruct (IH (no_par_cons _ _ NP)) as (o & m & p & bs & E & F & N & P & Z0 & Vv & O). exists (32 :: o), m, p, bs.
    cbn [operands atoms]. rewrite E. cbn [app]. split; [reflexivity|]. split; [exact F|]. split; [intros b; specialize (N b); destruct b; exact N|]. split; [exact P|]. split; [exact Z0|]. split; [exact Vv|].
    intros h r ec. rewrite O, E. cbn [app]. rewrite (eval_all_hd (32 :: o) o) by reflexivity. reflexivity.
  - destruct (no_par_app _ _ NP) as [NP' _]. destruct (IH NP') as (o & m & p & bs & E & F & N & P & Z0 & Vv & O). exists o, m, (p ++ [32]), bs.
    rewrite (operands_app l [IC 32] (o :: m) p [32] [] E eq_refl). split; [reflexivity|]. split; [exact F|]. split; [exact N|].
    split; [intros b; rewrite has_app, P; destruct b; reflexivity|]. split; [rewrite count_char_app, Z0; reflexivity|]. split; [exact Vv|].
    intros h r ec. rewrite O, E, atoms_app. cbn [atoms]. rewrite app_nil_r.
    assert (La : length (o :: m) = length (atoms l)) by (pose proof (operands_len l) as L; rewrite E in L; cbn [length] in *; rewrite app_length in L; cbn [length] in L; lia).
    change (o :: m ++ [p]) with ((o :: m) ++ [p]). rewrite !eval_all_more by exact La. reflexivity.
Qed.
Lemma flat_func n k e l : rendS n k e l -> no_par l -> forall h r ec, combined_func (atoms l) (operands l) h r ec = outcome (fun f : ecf => f h r ec) e.
Proof.
  intros R NP h r ec. destruct (flat_spec n k e l R NP) as (o & m & p & bs & E & F & N & P & Z0 & Vv & O). rewrite O. unfold combined_func. rewrite E. cbn [tl].
  rewrite removelast_last. destruct (eval_all (o :: m ++ [p]) (atoms l) h r ec) as [vals|] eqn:Ea; cbn [bind]; [|reflexivity].
  pose proof (operands_len l) as L. rewrite E in L. cbn [length] in L. rewrite app_length in L. cbn [length] in L.
  apply eval_all_len in Ea; [|cbn [length]; rewrite app_length; cbn; lia]. destruct vals as [|v0 vs]; [cbn in Ea; lia|]. cbn [length] in *. pose proof (F2_len _ _ _ F).
  apply reduce_spec; [lia|exact F|lia].
Qed.
