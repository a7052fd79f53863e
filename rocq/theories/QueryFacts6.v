(** From texts to operands and groups. *)
From Verif Require Export QueryFacts5.

Lemma level_app o c s t : forall bs, level o c bs (s ++ t) = level o c bs s + level o c (match s with [] => bs | _ => last s 0 =? 92 end) t.
Proof.
  induction s as [|x s IH]; intros bs; cbn [level app]; [lia|]. rewrite IH. destruct s; cbn [last]; lia.
Qed.
Lemma group_scan o c : o <> c -> o <> 92 -> c <> 92 -> forall g2 rest bs d pre cur, g2 <> [] ->
  Z.of_nat (S d) + level o c bs g2 = 0 -> (forall p q, g2 = p ++ q -> p <> [] -> q <> [] -> 0 < Z.of_nat (S d) + level o c bs p) ->
  groups o c (g2 ++ rest) bs (S d) pre cur = do y <- groups o c rest false 0 [] []; Ok ((pre, rev cur ++ g2) :: fst y, snd y).
Proof.
  intros Noc No Nc. induction g2 as [|x g2 IH]; intros rest bs d pre cur N L P; [congruence|]. cbn [app groups].
  assert (Nx : forall d', g2 <> [] -> Z.of_nat (S d') = Z.of_nat (S d) + (if bs then 0 else if x =? o then 1 else if x =? c then -1 else 0) ->
    groups o c (g2 ++ rest) (x =? 92) (S d') pre (x :: cur) = do y <- groups o c rest false 0 [] []; Ok ((pre, rev cur ++ x :: g2) :: fst y, snd y)).
  { intros d' N2 Ed. rewrite IH; [|exact N2|cbn [level] in L; lia|].
    - cbn [rev]. rewrite <- app_assoc. reflexivity.
    - intros p q -> Np Nq. specialize (P (x :: p) q eq_refl). cbn [level] in P. specialize (P ltac:(discriminate) Nq). lia. }
  assert (St : g2 <> [] -> 0 < Z.of_nat (S d) + (if bs then 0 else if x =? o then 1 else if x =? c then -1 else 0)).
  { intros N2. specialize (P [x] g2 eq_refl ltac:(discriminate) N2). cbn [level] in P. lia. }
  assert (En : g2 = [] -> x = c /\ bs = false /\ d = O).
  { intros ->. cbn [level] in L. destruct bs; [lia|]. destruct (Z.eqb_spec x o); [lia|]. destruct (Z.eqb_spec x c); [split; [assumption|split; [reflexivity|lia]]|lia]. }
  destruct g2 as [|y g2].
  - destruct (En eq_refl) as (-> & -> & ->). cbn [negb andb]. replace (c =? o) with false by (symmetry; apply Z.eqb_neq; auto). rewrite Z.eqb_refl. cbn [andb app]. replace (c =? 92) with false by (symmetry; apply Z.eqb_neq; auto). reflexivity.
  - specialize (St ltac:(discriminate)). destruct bs; cbn [negb]; rewrite ?andb_false_r, ?andb_true_r.
    + apply Nx; [discriminate|lia].
    + destruct (Z.eqb_spec x o) as [->|N1]; [apply Nx; [discriminate|lia]|]. destruct (Z.eqb_spec x c) as [->|N2].
      * destruct d as [|d]; [lia|]. apply Nx; [discriminate|lia].
      * apply Nx; [discriminate|lia].
Qed.
Lemma group_whole o c g rest pre cur : o <> c -> o <> 92 -> c <> 92 -> one_group o c g ->
  groups o c (g ++ rest) false 0 pre cur = do y <- groups o c rest false 0 [] []; Ok ((rev cur, g) :: fst y, snd y).
Proof.
  intros Noc No Nc ((g' & ->) & L & P). cbn [app groups]. rewrite Z.eqb_refl. cbn [andb negb]. replace (o =? 92) with false by (symmetry; apply Z.eqb_neq; auto).
  cbn [level] in L. rewrite Z.eqb_refl in L. replace (o =? 92) with false in L by (symmetry; apply Z.eqb_neq; auto).
  rewrite (group_scan o c Noc No Nc g' rest false 0 (rev cur) [o]); [reflexivity| |lia|].
  - intros ->. cbn in L. lia.
  - intros p q -> Np Nq. specialize (P (o :: p) q eq_refl ltac:(discriminate) Nq). cbn [level] in P. rewrite Z.eqb_refl in P. replace (o =? 92) with false in P by (symmetry; apply Z.eqb_neq; auto). lia.
Qed.
Definition last_op (ops : list pystr) : pystr := last ops [].
Lemma groups_items o c L : o <> c -> o <> 92 -> c <> 92 -> (forall g, In g (atoms L) -> one_group o c g) -> (forall x, In x (chars_of L) -> x <> o /\ x <> 92) ->
  forall cur pre o0 os, operands L = o0 :: os ->
  groups o c (text_of L) false 0 pre cur = Ok (combine ((rev cur ++ o0) :: os) (atoms L), last_op ((rev cur ++ o0) :: os)).
Proof.
  intros Noc No Nc. induction L as [|[x|g] L IH]; intros HG HC cur pre o0 os EO; cbn [text_of operands atoms chars_of] in *.
  - injection EO as <- <-. cbn. rewrite app_nil_r. reflexivity.
  - destruct (operands_ne L) as (o1 & os1 & E1). rewrite E1 in EO. injection EO as <- <-. destruct (HC x) as [X1 X2]; [left; reflexivity|].
    cbn [groups]. replace (x =? o) with false by (symmetry; apply Z.eqb_neq; exact X1). replace (x =? 92) with false by (symmetry; apply Z.eqb_neq; exact X2). cbn [andb].
    rewrite (IH HG (fun y Hy => HC y (or_intror Hy)) (x :: cur) [] o1 os1 E1). cbn [rev]. rewrite <- app_assoc. reflexivity.
  - injection EO as <- <-. rewrite group_whole; [|exact Noc|exact No|exact Nc|apply HG; left; reflexivity]. destruct (operands_ne L) as (o1 & os1 & E1). rewrite E1.
    rewrite (IH (fun y Hy => HG y (or_intror Hy)) HC [] [] o1 os1 E1). cbn. rewrite app_nil_r. reflexivity.
Qed.

(** ** counting delimiters *)
Lemma esc_run_snoc e p x : esc_run e (p ++ [x]) = if x =? e then S (esc_run e p) else O.
Proof. unfold esc_run. rewrite rev_app_distr. cbn [rev app take_while]. rewrite Z.eqb_sym. destruct (x =? e); reflexivity. Qed.
Lemma count_level o c s : o <> c -> o <> 92 -> c <> 92 -> forall p, (forall p1 x q, s = p1 ++ x :: q -> x = o \/ x = c -> esc_run 92 (p ++ p1) = O \/ Nat.odd (esc_run 92 (p ++ p1)) = true) ->
  Z.of_nat (count_unesc o (Nat.odd (esc_run 92 p)) s) - Z.of_nat (count_unesc c (Nat.odd (esc_run 92 p)) s) = level o c (0 <? esc_run 92 p)%nat s.
Proof.
  intros Noc No Nc. induction s as [|x s IH]; intros p H; cbn [count_unesc level]; [lia|].
  assert (H' : forall p1 y q, s = p1 ++ y :: q -> y = o \/ y = c -> esc_run 92 ((p ++ [x]) ++ p1) = O \/ Nat.odd (esc_run 92 ((p ++ [x]) ++ p1)) = true).
  { intros p1 y q -> Hy. rewrite <- app_assoc. cbn [app]. apply (H (x :: p1) y q eq_refl Hy). }
  specialize (IH (p ++ [x]) H'). rewrite esc_run_snoc in IH.
  destruct (Z.eqb_spec x 92) as [->|N].
  - replace (92 =? o) with false by (symmetry; apply Z.eqb_neq; auto). replace (92 =? c) with false by (symmetry; apply Z.eqb_neq; auto).
    rewrite Nat.odd_succ, <- Nat.negb_odd in IH. destruct (0 <? esc_run 92 p)%nat; cbn in IH |- *; lia.
  - cbn [Nat.odd Nat.even negb] in IH. change (0 <? 0)%nat with false in IH.
    assert (HH : x = o \/ x = c -> (0 <? esc_run 92 p)%nat = Nat.odd (esc_run 92 p)).
    { intros Hx. pose proof (H [] x s eq_refl Hx) as HZ. rewrite app_nil_r in HZ. destruct HZ as [Z0|O1]; [rewrite Z0; reflexivity|rewrite O1]. apply Nat.ltb_lt. destruct (esc_run 92 p); [discriminate|lia]. }
    destruct (Z.eqb_spec x o) as [->|N1].
    + rewrite HH by auto. replace (o =? c) with false by (symmetry; apply Z.eqb_neq; auto). destruct (Nat.odd (esc_run 92 p)); cbn [andb negb]; cbn in IH |- *; lia.
    + destruct (Z.eqb_spec x c) as [->|N2].
      * rewrite HH by auto. destruct (Nat.odd (esc_run 92 p)); cbn [andb negb]; cbn in IH |- *; lia.
      * destruct (0 <? esc_run 92 p)%nat; cbn [andb] in *; cbn in IH |- *; lia.
Qed.
Lemma group_last o c g : o <> 92 -> c <> 92 -> one_group o c g -> last g 0 <> 92 /\ last g 0 = c.
Proof.
  intros No Nc ((g' & ->) & L & P). destruct (exists_last (l := o :: g')) as (i & x & E); [discriminate|]. rewrite E in *. rewrite last_last.
  assert (Ni : i <> []). { intros ->. cbn in E. injection E as E1 E2. subst x. cbn in L. rewrite Z.eqb_refl in L. lia. }
  specialize (P i [x] eq_refl Ni ltac:(discriminate)). rewrite level_app in L. cbn [level] in L.
  destruct i as [|i0 i]; [congruence|]. destruct (last (i0 :: i) 0 =? 92); [lia|]. destruct (x =? o); [lia|]. destruct (Z.eqb_spec x c) as [Ex|]; [split; congruence|lia].
Qed.
Lemma count_unesc_app c s t : forall esc, last s 0 <> 92 -> s <> [] -> count_unesc c esc (s ++ t) = (count_unesc c esc s + count_unesc c false t)%nat.
Proof.
  induction s as [|x s IH]; intros esc N Ns; [congruence|]. cbn [app count_unesc]. destruct s as [|y s].
  - cbn in N. replace (x =? 92) with false by (symmetry; apply Z.eqb_neq; exact N). cbn [app count_unesc]. lia.
  - destruct (x =? 92); [apply IH; [exact N|discriminate]|]. rewrite IH by (try exact N; discriminate). lia.
Qed.
Lemma count_items o c L : o <> c -> o <> 92 -> c <> 92 -> (forall g, In g (atoms L) -> one_group o c g /\ escapes_ok o c g) -> (forall x, In x (chars_of L) -> x <> o /\ x <> c /\ x <> 92) ->
  count_unesc o false (text_of L) = count_unesc c false (text_of L).
Proof.
  intros Noc No Nc. induction L as [|[x|g] L IH]; intros HG HC; cbn [text_of atoms chars_of] in *; [reflexivity| |].
  - destruct (HC x (or_introl eq_refl)) as (X1 & X2 & X3). cbn [count_unesc]. replace (x =? 92) with false by (symmetry; apply Z.eqb_neq; exact X3).
    replace (x =? o) with false by (symmetry; apply Z.eqb_neq; exact X1). replace (x =? c) with false by (symmetry; apply Z.eqb_neq; exact X2). cbn [andb].
    rewrite (IH HG (fun y Hy => HC y (or_intror Hy))). reflexivity.
  - destruct (HG g (or_introl eq_refl)) as [G1 G2]. destruct (group_last o c g No Nc G1) as [Lg _].
    assert (Ng : g <> []) by (destruct G1 as ((g' & ->) & _); discriminate). rewrite !count_unesc_app by assumption. rewrite (IH (fun y Hy => HG y (or_intror Hy)) HC).
    pose proof (count_level o c g Noc No Nc [] (fun p1 x q E Hx => G2 p1 x q E Hx)) as CL. cbn in CL. destruct G1 as (_ & L0 & _). rewrite L0 in CL. lia.
Qed.
