(** A whole phrase: axis, filter expression, sub-query expression. *)
From Verif Require Export QueryFacts10.

Lemma axis_text_last a w : axis_text a w -> w <> [] /\ ~ In (last w 0) op_chars /\ last w 0 <> 92.
Proof.
  destruct a as [k rv o]. intros (sg & S & ->). cbn [ax_rev ax_key ax_self] in *.
  destruct rv; [subst sg|destruct S as [-> | ->]]; destruct k, o; cbn; (split; [discriminate|split; lia]).
Qed.
Lemma last_app_ne {A} (l m : list A) d : m <> [] -> last (l ++ m) d = last m d.
Proof. intros H. destruct (exists_last H) as (m' & x & ->). rewrite app_assoc, !last_last. reflexivity. Qed.
Lemma no_brace_app s t : no_brace (s ++ t) -> no_brace s.
Proof. intros H u v E. apply (H u (v ++ t)). rewrite E, <- app_assoc. reflexivity. Qed.
Lemma after_ops o : (forall c, In c o -> In c op_chars) -> after false 0 o = (false, 0).
Proof.
  induction o as [|x o IH]; intros H; [reflexivity|]. cbn [after]. assert (X : In x op_chars) by (apply H; left; reflexivity). cbn in X.
  replace (x =? 92) with false by (symmetry; apply Z.eqb_neq; lia). replace (x =? 123) with false by (symmetry; apply Z.eqb_neq; lia). replace (x =? 125) with false by (symmetry; apply Z.eqb_neq; lia).
  apply IH. intros c Hc. apply H. right. exact Hc.
Qed.
Lemma phrase_plain E parse a w e1 L1 : plain_delims E -> axis_text a w -> axis_ends (text_of L1) -> part e1 L1 -> (forall g, In g (atoms L1) -> filter_group E g) ->
  no_brace (text_of L1) -> fst (after false 0 (text_of L1)) = false ->
  exists f, parse_phrase E parse (w ++ text_of L1) = Ok (PH a f tautology) /\ forall h r ec, f h r ec = part_value (fun g => res_ecf (one_filter E g) h r ec) e1.
Proof.
  intros HE HA HT P A NB NE. destruct (phrase_filter_spec E e1 L1 HE P A) as (f & F1 & F2). exists f. split; [|exact F2]. unfold parse_phrase. rewrite (parse_axis_spec a w _ HA HT).
  change (Z.of_nat (length w)) with (zlen w). rewrite (find_from (w ++ text_of L1) w) by eauto. rewrite skipn_pre. destruct (scan_none (text_of L1) (zlen w) false 0 NB) as [S1 S2].
  destruct (scan [123] 92 (zlen w) (text_of L1) false) as [ys b]. cbn [fst snd] in *. subst ys. rewrite S2, NE. cbn [g_next bind].
  fold (phrase_filter E (text_of L1)). rewrite F1. reflexivity.
Qed.
Lemma phrase_sub E parse a w e1 L1 e2 L2 : plain_delims E -> axis_text a w -> axis_ends (text_of L1 ++ text_of L2) ->
  part e1 L1 -> (forall g, In g (atoms L1) -> filter_group E g) -> no_brace (text_of L1) -> fst (after false 0 (text_of L1)) = false -> ends_with_group L1 ->
  writes e2 L2 -> (forall g, In g (atoms L2) -> sub_group parse g) ->
  exists f s, parse_phrase E parse (w ++ text_of L1 ++ text_of L2) = Ok (PH a f s) /\
    (forall h r ec, f h r ec = part_value (fun g => res_ecf (one_filter E g) h r ec) e1) /\
    (forall h r ec, s h r ec = outcome (fun g => do q <- parse (inside g); sub_func q h r ec) e2).
Proof.
  intros HE HA HT P A NB NE EG W2 A2. pose proof HE as (S32 & Hs & HD). destruct (axis_text_last a w HA) as (Wn & Wl & W92).
  (* the trailing spaces of L1 *)
  assert (X : exists L0 sp, L1 = L0 ++ map IC sp /\ (forall c, In c sp -> c = 32) /\ ~ In (last (w ++ text_of L0) 0) op_chars /\ last (w ++ text_of L0) 0 <> 92 /\ despace L0 = despace L1).
  { destruct EG as [D|(l & g & D)].
    - exists [], (text_of L1). split; [|split; [exact (spaces_text L1 D)|split; [rewrite app_nil_r; exact Wl|split; [rewrite app_nil_r; exact W92|symmetry; exact D]]]].
      apply spaces_only in D. clear -D. induction D as [|i L Hi D IH]; [reflexivity|]. subst i. cbn. f_equal. exact IH.
    - apply filter_app_inv in D as (l1 & l2 & El & D1 & D2). apply filter_cons_inv in D2 as (s & l3 & El2 & D3 & D4). apply spaces_only in D4. 
      exists (l1 ++ s ++ [IF g]), (text_of l3). rewrite El, El2. split; [|split; [|split; [|split]]].
      + assert (Y : map IC (text_of l3) = l3). { clear -D4. induction D4 as [|i L Hi D IH]; [reflexivity|]. subst i. cbn. f_equal. exact IH. }
        rewrite Y, <- !app_assoc. reflexivity.
      + apply spaces_text. clear -D4. induction D4 as [|i L Hi D IH]; [reflexivity|]. subst i. exact IH.
      + assert (G : In g (atoms L1)) by (rewrite El, El2, !atoms_app; apply in_or_app; right; apply in_or_app; right; left; reflexivity). destruct (A g G) as (G1 & _). destruct (group_last 91 93 g) as [G3 G4]; [lia|lia|exact G1|].
        rewrite !text_app. cbn [text_of]. rewrite app_nil_r, !app_assoc, last_app_ne; [rewrite G4; cbn; lia|]. destruct G1 as ((g' & ->) & _). discriminate.
      + assert (G : In g (atoms L1)) by (rewrite El, El2, !atoms_app; apply in_or_app; right; apply in_or_app; right; left; reflexivity). destruct (A g G) as (G1 & _). destruct (group_last 91 93 g) as [G3 G4]; [lia|lia|exact G1|].
        rewrite !text_app. cbn [text_of]. rewrite app_nil_r, !app_assoc, last_app_ne; [exact G3|]. destruct G1 as ((g' & ->) & _). discriminate.
      + change (fun x : item pystr => negb (is_space_item x)) with (fun x : item pystr => negb (is_space_item x)) in *. rewrite !despace_app. f_equal. f_equal. unfold despace at 1. cbn. f_equal. unfold despace. symmetry. clear -D4. induction D4 as [|i L Hi D IH]; [reflexivity|]. subst i. exact IH. }
  destruct X as (L0 & sp & E1 & Sp & X1 & X2 & D0).
  assert (P0 : part e1 L0) by (apply (part_pad e1 L1); [symmetry; exact D0|exact P]).
  assert (A0 : forall g, In g (atoms L0) -> filter_group E g) by (intros g Hg; apply A; rewrite E1, atoms_app; apply in_or_app; left; exact Hg).
  destruct (phrase_filter_spec E e1 L0 HE P0 A0) as (f & F1 & F2).
  (* the sub-query, with those spaces in front *)
  set (L2' := map IC sp ++ L2). assert (P2 : part (Some e2) L2') by (apply (part_pad (Some e2) L2); [symmetry; apply despace_text_sp; exact Sp|exact W2]).
  assert (AL2 : atoms L2' = atoms L2) by (unfold L2'; rewrite atoms_app, atoms_chars_only; reflexivity).
  assert (SO : forall g, In g (atoms L2') -> solid (py_isspace E) g).
  { intros g Hg. rewrite AL2 in Hg. destruct (A2 g Hg) as (G & _). apply (group_solid _ 123 125); try lia; [apply HD; cbn; tauto|apply HD; cbn; tauto|exact G]. }
  destruct (strip_part E (Some e2) L2' Hs P2 SO) as (L3 & P3 & A3 & T3). destruct (ecf_subquery_spec E parse e2 L3 Hs P3) as (s & Q1 & Q2); [rewrite A3, AL2; exact A2|].
  exists f, s. split; [|split; [exact F2|exact Q2]].
  (* where the first brace is *)
  destruct (operands L2') as [|o0 os] eqn:EO; [pose proof (operands_len L2') as Y; rewrite EO in Y; discriminate|].
  pose proof (operands_len L2') as Ln. rewrite EO in Ln. cbn [length] in Ln.
  assert (An : atoms L2' <> []).
  { destruct P2 as (k & R). pose proof (rendS_atoms _ _ _ _ (rendS_of _ _ _ _ R L2' eq_refl)) as Q. destruct (atoms L2'); [unfold zlen in Q; destruct k; cbn in Q; lia|discriminate]. }
  destruct (atoms L2') as [|g0 gs] eqn:EA; [congruence|]. destruct (A2 g0) as (((g0' & Eg0) & _) & _); [rewrite <- AL2; left; reflexivity|].
  assert (HC : forall x, In x o0 -> In x op_chars).
  { intros x Hx. apply (writes_chars e2 L2' x P2). rewrite <- operands_chars, EO. cbn. apply in_or_app. left. exact Hx. }
  assert (TL : text_of L2' = o0 ++ 123 :: g0' ++ text_of (weave os gs)).
  { rewrite <- (weave_self L2'), EO, EA. cbn [weave]. rewrite text_app, text_chars. cbn [text_of]. rewrite Eg0. reflexivity. }
  assert (TW : text_of L1 ++ text_of L2 = text_of L0 ++ text_of L2') by (rewrite E1, text_app, text_chars; unfold L2'; rewrite text_app, text_chars, <- app_assoc; reflexivity).
  assert (NB0 : no_brace (text_of L0)) by (apply (no_brace_app _ sp); rewrite E1, text_app, text_chars in NB; exact NB).
  assert (NE0 : fst (after false 0 (text_of L0)) = false).
  { rewrite E1, text_app, text_chars, after_app in NE. destruct sp as [|x sp]; [exact NE|]. destruct (fst (after false 0 (text_of L0))) eqn:E0; [|reflexivity].
    exfalso. destruct (exists_last (l := w ++ text_of L0)) as (i & y & Ei); [intros C; apply app_eq_nil in C as [C _]; contradiction|]. rewrite Ei, last_last in X2.
    destruct L0 as [|i0 L0']; [discriminate|]. destruct (text_of (i0 :: L0')) as [|z0 zs] eqn:Ez; [discriminate|]. destruct (exists_last (l := z0 :: zs)) as (i' & y' & Ei'); [discriminate|].
    rewrite Ei' in Ei, E0. rewrite app_assoc in Ei. apply app_inj_tail in Ei as [_ <-]. rewrite after_app in E0. cbn [after] in E0. destruct (fst (after false 0 i')); [discriminate|].
    replace (y' =? 92) with false in E0 by (symmetry; apply Z.eqb_neq; exact X2). discriminate. }
  unfold parse_phrase. rewrite (parse_axis_spec a w _ HA HT). change (Z.of_nat (length w)) with (zlen w). rewrite (find_from (w ++ text_of L1 ++ text_of L2) w) by eauto. rewrite skipn_pre.
  rewrite TW. 
  destruct (scan_pre (text_of L0 ++ o0) (g0' ++ text_of (weave os gs)) (zlen w) false) as (ys & SC).
  { intros u v Eu. destruct (app_eq_app _ _ _ _ Eu) as (m & [[M1 M2]|[M1 M2]]).
    - destruct m as [|x m]; [cbn in M2; exfalso; assert (In 123 op_chars) as C by (apply HC; rewrite <- M2; left; reflexivity); cbn in C; lia|]. cbn in M2. injection M2 as <- M2. apply (NB0 u m). exact M1.
    - exfalso. assert (In 123 op_chars) as C by (apply HC; rewrite M2; apply in_or_app; right; left; reflexivity). cbn in C. lia. }
  { rewrite after_app, NE0, after_base, (after_ops o0 HC). reflexivity. }
  rewrite TL, app_assoc. destruct (scan [123] 92 (zlen w) ((text_of L0 ++ o0) ++ 123 :: g0' ++ text_of (weave os gs)) false) as [zs b]. cbn [fst snd] in *. subst zs. cbn [g_next bind].
  set (rest := 123 :: g0' ++ text_of (weave os gs)) in *.
  destruct (exists_last (l := w ++ text_of L0)) as (p & x & Ep); [intros C; apply app_eq_nil in C as [C _]; contradiction|]. rewrite Ep, last_last in X1, X2.
  assert (LP : (length w + length (text_of L0) = S (length p))%nat) by (rewrite <- app_length, Ep, app_length; cbn; lia).
  assert (EP : w ++ (text_of L0 ++ o0) ++ rest = p ++ x :: o0 ++ rest) by (rewrite !app_assoc, Ep, <- !app_assoc; reflexivity).
  assert (EC : Z.to_nat (zlen w + zlen (text_of L0 ++ o0)) = (length p + S (length o0))%nat) by (rewrite zlen_app; unfold zlen; lia).
  rewrite EC, EP. rewrite (walk_back_run p x o0 rest X1 HC).
  replace (skipn (S (length p)) (p ++ x :: o0 ++ rest)) with (text_of L2') by (rewrite skipn_mid; exact TL).
  replace (nth (S (length p) - 1) (p ++ x :: o0 ++ rest) 0) with x by (cbn [Nat.sub]; rewrite Nat.sub_0_r, nth_mid; reflexivity).
  replace (x =? 92) with false by (symmetry; apply Z.eqb_neq; exact X2). rewrite !andb_false_r. rewrite <- T3, Q1. cbn [bind].
  rewrite <- app_assoc. replace (S (length p) - length w)%nat with (length (text_of L0)) by lia. rewrite firstn_mid.
  change (bind (phrase_filter E (text_of L0)) (fun f0 => Ok (PH a f0 s)) = Ok (PH a f s)). rewrite F1. reflexivity.
Qed.
