(** The paren loop on a written expression. *)
From Verif Require Export QueryFacts4.

Lemma prefixb_one c x s : prefixb [c] (x :: s) = (c =? x).
Proof. cbn. destruct s; apply andb_true_r. Qed.
Lemma find_char c s t : ~ In c s -> find_in [c] (s ++ c :: t) = Some (zlen s).
Proof.
  induction s as [|x s IH]; intros N; cbn [app].
  - cbn [find_in]. rewrite prefixb_one, Z.eqb_refl. reflexivity.
  - cbn [find_in]. rewrite prefixb_one. destruct (Z.eqb_spec c x) as [->|_]; [exfalso; apply N; left; reflexivity|].
    rewrite IH by (intros X; apply N; right; exact X). rewrite zlen_cons. reflexivity.
Qed.
Lemma rfind_char_none c t : ~ In c t -> rfind_in [c] t = None.
Proof.
  induction t as [|x t IH]; intros N; [reflexivity|]. cbn [rfind_in]. rewrite IH by (intros X; apply N; right; exact X).
  rewrite prefixb_one. destruct (Z.eqb_spec c x) as [->|_]; [exfalso; apply N; left; reflexivity|reflexivity].
Qed.
Lemma rfind_char c s t : ~ In c t -> rfind_in [c] (s ++ c :: t) = Some (zlen s).
Proof.
  intros N. induction s as [|x s IH]; cbn [app].
  - cbn [rfind_in]. rewrite rfind_char_none by exact N. rewrite prefixb_one, Z.eqb_refl. reflexivity.
  - cbn [rfind_in]. rewrite IH, zlen_cons. reflexivity.
Qed.
Lemma zsub_pre (s t : pystr) : zsub (s ++ t) 0 (zlen s) = s.
Proof. unfold zsub, zlen. rewrite Z.sub_0_r, Nat2Z.id. change (Z.to_nat 0) with 0%nat. cbn [skipn]. rewrite firstn_app, firstn_all, Nat.sub_diag. cbn. apply app_nil_r. Qed.
Lemma zsub_post (s : pystr) c t : zsub (s ++ c :: t) (zlen s + zlen [c]) (zlen (s ++ c :: t)) = t.
Proof.
  unfold zsub, zlen. rewrite app_length. cbn [length]. replace (Z.to_nat (Z.of_nat (length s) + Z.of_nat 1)) with (length (s ++ [c])) by (rewrite app_length; cbn; lia).
  replace (s ++ c :: t) with ((s ++ [c]) ++ t) by (rewrite <- app_assoc; reflexivity). rewrite skipn_app, skipn_all, Nat.sub_diag. cbn [app skipn].
  apply firstn_all2. lia.
Qed.
Lemma partition_char c s t : ~ In c s -> py_partition (s ++ c :: t) [c] = (s, [c], t).
Proof. intros N. unfold py_partition. rewrite find_char by exact N. rewrite zsub_post. rewrite zsub_pre. reflexivity. Qed.
Lemma rpartition_char c s t : ~ In c t -> py_rpartition (s ++ c :: t) [c] = (s, [c], t).
Proof. intros N. unfold py_rpartition. rewrite rfind_char by exact N. rewrite zsub_post. rewrite zsub_pre. reflexivity. Qed.

Lemma has_In c s : has c s = true <-> In c s.
Proof. unfold has, mem_char. rewrite existsb_exists. split; [intros (x & Hx & E); apply Z.eqb_eq in E; subst; exact Hx|intros H; exists c; split; [exact H|apply Z.eqb_refl]]. Qed.
Lemma has_not c s : has c s = false <-> ~ In c s.
Proof. rewrite <- has_In. destruct (has c s); intuition discriminate. Qed.
Definition none_has (c : Z) (ops : list pystr) : Prop := Forall (fun o => has c o = false) ops.
Lemma none_has_concat c ops : none_has c ops <-> ~ In c (concat ops).
Proof.
  unfold none_has. rewrite Forall_forall. split.
  - intros H X. apply in_concat in X. destruct X as (o & Ho & Hc). specialize (H o Ho). apply has_not in H. contradiction.
  - intros N o Ho. apply has_not. intros X. apply N. apply in_concat. exists o. auto.
Qed.
Lemma last_with_none c ops : none_has c ops -> forall i acc, last_with c ops i acc = acc.
Proof. induction 1 as [|o ops E F IH]; intros i acc; cbn [last_with]; [reflexivity|]. rewrite E. apply IH. Qed.
Lemma last_with_at c a o ops : has c o = true -> none_has c ops -> forall i acc, last_with c (a ++ o :: ops) i acc = Some (i + length a)%nat.
Proof.
  intros Ho N. induction a as [|x a IH]; intros i acc; cbn [last_with app].
  - rewrite Ho, last_with_none by exact N. f_equal. cbn. lia.
  - rewrite IH. f_equal. cbn. lia.
Qed.
Lemma first_with_at c a o ops : none_has c a -> has c o = true -> forall i, first_with c (a ++ o :: ops) i = Some (i + length a)%nat.
Proof.
  intros N Ho. induction N as [|x a E F IH]; intros i; cbn [first_with app]; [rewrite Ho; f_equal; cbn; lia|]. rewrite E, IH. f_equal. cbn. lia.
Qed.
Lemma nth_mid {A} (a : list A) x b d : nth (length a) (a ++ x :: b) d = x.
Proof. rewrite app_nth2, Nat.sub_diag by lia. reflexivity. Qed.
Lemma skipn_mid {A} (a : list A) x b : skipn (S (length a)) (a ++ x :: b) = b.
Proof. rewrite skipn_app, skipn_all2 by lia. replace (S (length a) - length a)%nat with 1%nat by lia. reflexivity. Qed.
Lemma firstn_mid {A} (a : list A) b : firstn (length a) (a ++ b) = a.
Proof. rewrite firstn_app, firstn_all, Nat.sub_diag. cbn. apply app_nil_r. Qed.
Lemma skipn_pre {A} (a : list A) b : skipn (length a) (a ++ b) = b.
Proof. rewrite skipn_app, skipn_all, Nat.sub_diag. reflexivity. Qed.

Lemma loop_step sub n (A B C : list (item ecf)) : no_par B -> no_open C -> (2 <= length (atoms B))%nat ->
  paren_loop sub (S n) (atoms (A ++ IC c_open :: B ++ IC c_close :: C)) (operands (A ++ IC c_open :: B ++ IC c_close :: C)) =
  do f <- sub (atoms B) (operands B); paren_loop sub n (atoms (A ++ IF f :: C)) (operands (A ++ IF f :: C)).
Proof.
  intros NB NC HB. destruct (operands_last A) as (a & al & EA). destruct (operands_ne C) as (ch & ct & EC).
  assert (EB : exists bh bm bl, operands B = bh :: bm ++ [bl] /\ (1 <= length bm)%nat /\ length (atoms B) = S (length bm)).
  { pose proof (operands_len B) as L. destruct (operands_ne B) as (bh & bt & E). destruct (exists_last (l := bt)) as (bm & bl & Eb); [intros ->; rewrite E in L; cbn in L; lia|].
    exists bh, bm, bl. rewrite E, Eb. split; [reflexivity|]. rewrite E, Eb in L. cbn [length] in L. rewrite app_length in L. cbn [length] in L. lia. }
  destruct EB as (bh & bm & bl & EB & Lb & La).
  assert (PB : none_has c_open (operands B) /\ none_has c_close (operands B)).
  { split; apply none_has_concat; rewrite operands_chars; intros X; apply NB in X; destruct X as [X1 X2]; [apply X1|apply X2]; reflexivity. }
  assert (PC : none_has c_open (operands C)) by (apply none_has_concat; rewrite operands_chars; intros X; exact (NC _ X eq_refl)).
  destruct PB as [PB1 PB2]. rewrite EB in PB1, PB2. rewrite EC in PC.
  assert (E2 : operands (B ++ IC c_close :: C) = bh :: bm ++ (bl ++ c_close :: ch) :: ct).
  { rewrite (operands_app B (IC c_close :: C) (bh :: bm) bl (c_close :: ch) ct); [reflexivity|exact EB|cbn [operands]; rewrite EC; reflexivity]. }
  assert (E1 : operands (A ++ IC c_open :: B ++ IC c_close :: C) = a ++ (al ++ c_open :: bh) :: bm ++ (bl ++ c_close :: ch) :: ct).
  { apply (operands_app A (IC c_open :: B ++ IC c_close :: C) a al (c_open :: bh)); [exact EA|cbn [operands]; rewrite E2; reflexivity]. }
  inversion PB1 as [|? ? Bh1 Bt1]; subst. inversion PB2 as [|? ? Bh2 Bt2]; subst. apply Forall_app in Bt1. apply Forall_app in Bt2. destruct Bt1 as [Bm1 Bl1], Bt2 as [Bm2 Bl2].
  inversion Bl1 as [|? ? Bl1' _]; subst. inversion Bl2 as [|? ? Bl2' _]; subst. inversion PC as [|? ? Ch Ct]; subst.
  cbn [paren_loop]. rewrite E1. rewrite (last_with_at c_open a (al ++ c_open :: bh)).
  2:{ rewrite has_app. change (c_open :: bh) with ([c_open] ++ bh). rewrite has_app. cbn. apply orb_true_r. }
  2:{ apply Forall_app. split; [exact Bm1|]. constructor; [|exact Ct]. rewrite has_app, Bl1'. change (c_close :: ch) with ([c_close] ++ ch). rewrite has_app, Ch. reflexivity. }
  cbn [Nat.add]. rewrite nth_mid. rewrite rpartition_char by (apply has_not; exact Bh1). rewrite Bh2. rewrite skipn_mid.
  rewrite (first_with_at c_close bm (bl ++ c_close :: ch)); [|exact Bm2|rewrite has_app; change (c_close :: ch) with ([c_close] ++ ch); rewrite has_app; cbn; apply orb_true_r].
  assert (Nj : nth (S (length a) + length bm) (a ++ (al ++ c_open :: bh) :: bm ++ (bl ++ c_close :: ch) :: ct) [] = bl ++ c_close :: ch).
  { replace (a ++ (al ++ c_open :: bh) :: bm ++ (bl ++ c_close :: ch) :: ct) with ((a ++ (al ++ c_open :: bh) :: bm) ++ (bl ++ c_close :: ch) :: ct) by (rewrite <- app_assoc; reflexivity).
    replace (S (length a) + length bm)%nat with (length (a ++ (al ++ c_open :: bh) :: bm)) by (rewrite app_length; cbn; lia). apply nth_mid. }
  rewrite Nj. rewrite partition_char by (apply has_not; exact Bl2').
  replace (S (length a) + length bm - length a =? 1)%nat with false by (symmetry; apply Nat.eqb_neq; lia).
  assert (LA : length a = length (atoms A)) by (pose proof (operands_len A) as L; rewrite EA, app_length in L; cbn in L; lia).
  rewrite !atoms_app. cbn [atoms]. rewrite !atoms_app. cbn [atoms].
  replace (S (length a) + length bm - length a)%nat with (length (atoms B)) by lia.
  replace (skipn (length a) (atoms A ++ atoms B ++ atoms C)) with (atoms B ++ atoms C) by (rewrite LA, skipn_pre; reflexivity). rewrite firstn_mid.
  replace (length (atoms B) - 1)%nat with (length bm) by lia. rewrite (firstn_mid bm).
  replace (bh :: bm ++ [bl]) with (operands B) by exact EB.
  destruct (sub (atoms B) (operands B)) as [f|x]; cbn [bind]; [|reflexivity].
  f_equal.
  - rewrite !atoms_app. cbn [atoms]. rewrite LA, firstn_mid. f_equal. f_equal.
    replace (S (length (atoms A)) + length bm)%nat with (length (atoms A ++ atoms B)) by (rewrite app_length; lia). rewrite app_assoc. apply skipn_pre.
  - rewrite firstn_mid. rewrite (operands_app A (IF f :: C) a al [] (ch :: ct) EA) by (cbn [operands]; rewrite EC; reflexivity). rewrite app_nil_r. f_equal. f_equal. f_equal.
    replace (a ++ (al ++ c_open :: bh) :: bm ++ (bl ++ c_close :: ch) :: ct) with ((a ++ (al ++ c_open :: bh) :: bm) ++ (bl ++ c_close :: ch) :: ct) by (rewrite <- app_assoc; reflexivity).
    replace (S (S (length a) + length bm)) with (S (length (a ++ (al ++ c_open :: bh) :: bm))) by (rewrite app_length; cbn; lia). apply skipn_mid.
Qed.

Lemma op_chars_ok n k (e : expr ecf) l : rendS n k e l -> forallb (fun op => forallb (fun c => mem_char c op_chars) op) (operands l) = true.
Proof.
  intros R. assert (H : forallb (fun c => mem_char c op_chars) (chars_of l) = true).
  { induction R; cbn [chars_of]; rewrite ?chars_app, ?forallb_app; cbn [chars_of forallb]; rewrite ?forallb_app, ?IHR, ?IHR1, ?IHR2; reflexivity. }
  rewrite <- operands_chars in H. clear R. induction (operands l) as [|o os IH]; [reflexivity|]. cbn [concat forallb] in *. rewrite forallb_app in H. apply andb_true_iff in H. destruct H as [H1 H2]. rewrite H1. apply IH. exact H2.
Qed.
Lemma combined_checks n k (e : expr ecf) l m : rendS n k e l ->
  ecf_combined (S m) (atoms l) (operands l) = do x <- paren_loop (ecf_combined m) (S (count_char c_open (chars_of l))) (atoms l) (operands l); Ok (combined_func (fst x) (snd x)).
Proof.
  intros R. cbn [ecf_combined]. pose proof (rendS_atoms _ _ _ _ R) as La. unfold zlen in La. pose proof (operands_len l) as Lo.
  replace (length (atoms l) =? 0)%nat with false by (symmetry; apply Nat.eqb_neq; destruct k; lia).
  replace (length (operands l) =? length (atoms l) + 1)%nat with true by (symmetry; apply Nat.eqb_eq; lia). cbn [negb].
  rewrite (op_chars_ok _ _ _ _ R). cbn [negb]. unfold total_count. rewrite operands_chars. fold (count_char c_open (chars_of l)). fold (count_char c_close (chars_of l)).
  rewrite <- (rendS_count _ _ _ _ R), Nat.eqb_refl. reflexivity.
Qed.
Lemma combined_flat n k (e : expr ecf) l m : rendS n k e l -> no_par l -> ecf_combined (S m) (atoms l) (operands l) = Ok (combined_func (atoms l) (operands l)).
Proof.
  intros R N. rewrite (combined_checks n k e l m R). cbn [paren_loop]. rewrite last_with_none; [reflexivity|].
  apply none_has_concat. rewrite operands_chars. intros X. destruct (N _ X) as [Y _]. apply Y. reflexivity.
Qed.
Lemma loop_spec c : forall n k (e : expr ecf) l, rendS n k e l -> count_char c_open (chars_of l) = c ->
  exists fs ops, paren_loop (ecf_combined 1) (S c) (atoms l) (operands l) = Ok (fs, ops) /\
    forall h r ec, combined_func fs ops h r ec = outcome (fun f : ecf => f h r ec) e.
Proof.
  induction c as [|c IH]; intros n k e l R Hc.
  - assert (N : no_open l) by (intros x Hx ->; apply count_zero in Hc; contradiction). exists (atoms l), (operands l). split.
    + cbn [paren_loop]. rewrite last_with_none; [reflexivity|]. apply none_has_concat. rewrite operands_chars. apply count_zero. exact Hc.
    + exact (flat_func n k e l R (rendS_no_open _ _ _ _ R N)).
  - assert (I : In c_open (chars_of l)) by (destruct (no_open_dec l) as [N|I]; [exfalso; assert (count_char c_open (chars_of l) = 0%nat) by (apply count_zero; intros X; exact (N _ X eq_refl)); lia|exact I]).
    destruct (last_group n k e l R I) as (A & B & C & eb & nb & -> & Rb & Pb & Oc & K).
    pose proof (rendS_atoms _ _ _ _ Rb) as Lb. unfold zlen in Lb.
    rewrite loop_step; [|exact Pb|exact Oc|lia]. rewrite (combined_flat nb true eb B 0 Rb Pb). cbn [bind].
    destruct (K (combined_func (atoms B) (operands B)) (flat_func nb true eb B Rb Pb)) as (e' & R' & V').
    destruct (IH n k e' _ R') as (fs & ops & E & V2).
    { rewrite !chars_app in *. cbn [chars_of] in *. rewrite chars_app in Hc. cbn [chars_of] in Hc. rewrite count_char_app in *. change (c_open :: chars_of B ++ c_close :: chars_of C) with ([c_open] ++ chars_of B ++ [c_close] ++ chars_of C) in Hc.
      rewrite !count_char_app in Hc. change (count_char c_open [c_open]) with 1%nat in Hc. change (count_char c_open [c_close]) with 0%nat in Hc.
      assert (count_char c_open (chars_of B) = 0%nat) by (apply count_zero; intros X; destruct (Pb _ X) as [Y _]; apply Y; reflexivity). lia. }
    exists fs, ops. split; [exact E|]. intros h r ec. rewrite V2, V'. reflexivity.
Qed.
Lemma combined_rendS k (e : expr ecf) l : rendS 0 k e l -> exists c, combined (atoms l) (operands l) = Ok c /\ forall h r ec, c h r ec = outcome (fun f : ecf => f h r ec) e.
Proof.
  intros R. unfold combined. rewrite (combined_checks 0 k e l 1 R). destruct (loop_spec _ 0%nat k e l R eq_refl) as (fs & ops & E & V0). rewrite E. cbn [bind fst snd]. eauto.
Qed.
Lemma combined_spec (e : expr ecf) l : writes e l -> exists c, combined (atoms l) (operands l) = Ok c /\ forall h r ec, c h r ec = outcome (fun f : ecf => f h r ec) e.
Proof. intros (k & R). exact (combined_rendS k e l (rendS_of _ _ _ _ R l eq_refl)). Qed.
Lemma outcome_truth {A} (v : A -> res bool) (b : A -> bool) e : (forall a, v a = Ok (b a)) -> outcome v e = Ok (truth b e).
Proof. intros H. induction e as [a|e IH|e1 IH1 e2 IH2|e1 IH1 e2 IH2|e1 IH1 e2 IH2]; cbn [outcome truth]; rewrite ?H, ?IH, ?IH1, ?IH2; reflexivity. Qed.
