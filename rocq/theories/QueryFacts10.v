(** Phrases: axis, filter expression, sub-query expression. *)
From Verif Require Export UtilFacts UtilFacts2 QueryFacts9.

(** -- stripping a written expression -- *)
Lemma cut_front (sp : Z -> bool) : forall (L : list (item pystr)) w r, text_of L = w ++ r -> (forall c, In c w -> sp c = true) ->
  (forall g, In g (atoms L) -> exists x g', g = x :: g' /\ sp x = false) -> exists L', L = map IC w ++ L' /\ text_of L' = r.
Proof.
  induction L as [|[c|g] L IH]; intros w r E S A.
  - cbn in E. destruct w; [|discriminate]. cbn in E. subst r. exists []. auto.
  - destruct w as [|x w]; [exists (IC c :: L); auto|]. cbn [text_of app] in E. injection E as <- E.
    destruct (IH w r E) as (L' & -> & T); [intros y Hy; apply S; right; exact Hy|exact A|]. exists L'. auto.
  - destruct w as [|x w]; [exists (IF g :: L); auto|]. destruct (A g (or_introl eq_refl)) as (y & g' & -> & Y). cbn [text_of app] in E. injection E as -> E.
    rewrite (S x (or_introl eq_refl)) in Y. discriminate.
Qed.
Lemma cut_back (sp : Z -> bool) : forall (L : list (item pystr)) w r, text_of L = r ++ w -> (forall c, In c w -> sp c = true) ->
  (forall g, In g (atoms L) -> g <> [] /\ sp (last g 0) = false) -> exists L', L = L' ++ map IC w /\ text_of L' = r.
Proof.
  intros L w. revert L. induction w as [|x w IH] using rev_ind; intros L r E S A.
  - rewrite app_nil_r in E. exists L. rewrite app_nil_r. auto.
  - destruct L as [|i L] using rev_ind; [cbn in E; destruct r, w; discriminate|clear IHL]. rewrite text_app in E. rewrite app_assoc in E. rewrite atoms_app in A. destruct i as [c|g].
    + cbn [text_of] in E. apply app_inj_tail in E as [E ->].
      destruct (IH L r E) as (L' & -> & T); [intros y Hy; apply S, in_or_app; left; exact Hy|intros g Hg; apply A, in_or_app; left; exact Hg|].
      exists L'. split; [|exact T]. rewrite map_app, app_assoc. reflexivity.
    + destruct (A g) as [G1 G2]; [apply in_or_app; right; left; reflexivity|]. cbn [text_of] in E. rewrite app_nil_r in E. destruct (exists_last G1) as (g' & y & ->). rewrite last_last in G2.
      rewrite app_assoc in E. apply app_inj_tail in E as [_ E]. rewrite <- E in S. rewrite (S y) in G2; [discriminate|]. apply in_or_app. right. left. reflexivity.
Qed.
Definition solid (sp : Z -> bool) (g : pystr) : Prop := exists x g', g = x :: g' /\ sp x = false /\ sp (last g 0) = false.
Lemma group_solid sp o c g : o <> 92 -> c <> 92 -> sp o = false -> sp c = false -> one_group o c g -> solid sp g.
Proof. intros No Nc So Sc G. destruct (group_last o c g No Nc G) as [_ G2]. destruct G as ((g' & ->) & _). exists o, g'. rewrite G2. auto. Qed.
Lemma despace_text_sp (L : list (item pystr)) w : (forall c, In c w -> c = 32) -> despace (map IC w ++ L) = despace L.
Proof. intros H. rewrite despace_app, despace_chars. replace (despaces w) with (@nil Z); [reflexivity|]. clear -H. induction w as [|x w IH]; [reflexivity|]. cbn. rewrite (H x (or_introl eq_refl)). apply IH. intros c Hc. apply H. right. exact Hc. Qed.
Lemma despace_text_sp_r (L : list (item pystr)) w : (forall c, In c w -> c = 32) -> despace (L ++ map IC w) = despace L.
Proof. intros H. rewrite despace_app. pose proof (despace_text_sp [] w H) as E. rewrite app_nil_r in E. rewrite E. apply app_nil_r. Qed.
Lemma part_chars e L x : part e L -> In x (chars_of L) -> In x op_chars.
Proof.
  destruct e as [e|]; cbn [part]; [apply writes_chars|]. intros H Hx. apply chars_despace in Hx as [-> |Hx]; [cbn; tauto|]. rewrite H in Hx. destruct Hx.
Qed.
Lemma part_pad e L L' : despace L = despace L' -> part e L -> part e L'.
Proof. intros E. destruct e as [e|]; cbn [part]; unfold writes; rewrite E; auto. Qed.
Lemma chars_of_map (w : pystr) : chars_of (map (@IC pystr) w) = w.
Proof. induction w; [reflexivity|]. cbn. f_equal. assumption. Qed.
Lemma strip_part E e L : ops_not_space E -> part e L -> (forall g, In g (atoms L) -> solid (py_isspace E) g) ->
  exists L', part e L' /\ atoms L' = atoms L /\ text_of L' = py_strip (py_isspace E) (text_of L) None.
Proof.
  intros Hs P A. destruct (strip_shape (py_isspace E) (text_of L)) as (w1 & w2 & Es & W).
  destruct (cut_front (py_isspace E) L w1 _ Es) as (L1 & E1 & T1); [intros; apply W; auto|intros g Hg; destruct (A g Hg) as (x & g' & X1 & X2 & _); eauto|].
  assert (A1 : atoms L1 = atoms L) by (rewrite E1, atoms_app, atoms_chars_only; reflexivity).
  destruct (cut_back (py_isspace E) L1 w2 _ T1) as (L2 & E2 & T2); [intros; apply W; auto|rewrite A1; intros g Hg; destruct (A g Hg) as (x & g' & X1 & _ & X3); split; [rewrite X1; discriminate|exact X3]|].
  assert (B : forall c, In c w1 \/ In c w2 -> c = 32).
  { intros c Hc. destruct (Z.eq_dec c 32) as [|N]; [assumption|]. exfalso. assert (In c op_chars) as O. { apply (part_chars e L c P). rewrite E1, E2, !chars_app, !chars_of_map. destruct Hc as [Hc|Hc]; apply in_or_app; [left; exact Hc|right; apply in_or_app; right; exact Hc]. }
    specialize (Hs c O N). rewrite (W c Hc) in Hs. discriminate. }
  exists L2. split; [|split; [|exact T2]].
  - apply (part_pad e L); [|exact P]. rewrite E1, despace_text_sp, E2, despace_text_sp_r; auto.
  - rewrite <- A1, E2, atoms_app, atoms_chars_only, app_nil_r. reflexivity.
Qed.
Lemma part_empty e (L : list (item pystr)) : part e L -> text_of L = [] -> (forall g, In g (atoms L) -> g <> []) -> e = None.
Proof.
  intros P T A. destruct e as [e|]; [|reflexivity]. exfalso. destruct P as (k & R). pose proof (rendS_atoms _ _ _ _ (rendS_of _ _ _ _ R L eq_refl)) as Q.
  destruct L as [|[c|g] L]; [unfold zlen in Q; cbn in Q; destruct k; lia|discriminate|]. cbn [text_of] in T. apply app_eq_nil in T as [T _]. apply (A g (or_introl eq_refl) T).
Qed.
Lemma strip_all sp s : (forall c, In c s -> sp c = true) -> py_strip sp s None = [].
Proof.
  intros H. unfold py_strip, py_lstrip. replace (drop_while _ s) with (@nil Z); [reflexivity|].
  induction s as [|x s IH]; [reflexivity|]. cbn. rewrite (H x (or_introl eq_refl)). apply IH. intros c Hc. apply H. right. exact Hc.
Qed.
Lemma spaces_text (L : list (item pystr)) : despace L = [] -> forall c, In c (text_of L) -> c = 32.
Proof. intros D. apply spaces_only in D. induction D as [|i L Hi D IH]; [intros c []|]. subst i. cbn. intros c [<-|Hc]; auto. Qed.
Lemma spaces_atoms (L : list (item pystr)) : despace L = [] -> atoms L = [].
Proof. intros D. apply spaces_only in D. induction D as [|i L Hi D IH]; [reflexivity|]. subst i. exact IH. Qed.

(** the filter of a phrase *)
Definition phrase_filter (E : pyenv) (s : pystr) : res ecf := match py_strip (py_isspace E) s None with [] => Ok tautology | f => ecf_filter E f end.
Lemma phrase_filter_spec E e L : plain_delims E -> part e L -> (forall g, In g (atoms L) -> filter_group E g) ->
  exists f, phrase_filter E (text_of L) = Ok f /\ forall h r ec, f h r ec = part_value (fun g => res_ecf (one_filter E g) h r ec) e.
Proof.
  intros (S32 & Hs & HD) P A. unfold phrase_filter.
  assert (SO : forall g, In g (atoms L) -> solid (py_isspace E) g).
  { intros g Hg. destruct (A g Hg) as (G & _). apply (group_solid _ 91 93); try lia; [apply HD; cbn; tauto|apply HD; cbn; tauto|exact G]. }
  destruct (strip_part E e L Hs P SO) as (L' & P' & A' & T'). destruct e as [e|].
  - destruct (ecf_filter_spec E e L' Hs P') as (c & C1 & C2); [rewrite A'; exact A|]. exists c. split; [|exact C2]. rewrite <- T'.
    destruct (text_of L') eqn:ET; [|exact C1]. exfalso. assert (X : Some e = None); [|discriminate]. apply (part_empty (Some e) L' P' ET). rewrite A'. intros g Hg. destruct (SO g Hg) as (x & g' & -> & _). discriminate.
  - cbn [part] in P. rewrite strip_all; [|intros c Hc; rewrite (spaces_text L P c Hc); exact S32]. exists tautology. split; [reflexivity|]. reflexivity.
Qed.

(** -- locating the sub-query -- *)
Lemma scan_none s : forall k esc d, (forall u v, s = u ++ 123 :: v -> fst (after esc d u) = true) -> fst (scan [123] 92 k s esc) = [] /\ snd (scan [123] 92 k s esc) = fst (after esc d s).
Proof.
  induction s as [|x s IH]; intros k esc d H; [auto|]. cbn [scan after].
  assert (N : forall e' d', (forall u, after esc d (x :: u) = after e' d' u) -> fst (scan [123] 92 (k + 1) s e') = [] /\ snd (scan [123] 92 (k + 1) s e') = fst (after e' d' s)).
  { intros e' d' E1. apply IH. intros u v Es. rewrite <- E1. apply (H (x :: u) v). rewrite Es. reflexivity. }
  cbn [after] in N. destruct esc; [exact (N _ _ (fun u => eq_refl))|]. destruct (x =? 92) eqn:E92; [exact (N _ _ (fun u => eq_refl))|].
  destruct (N _ _ (fun u => eq_refl)) as [N1 N2]. destruct (scan [123] 92 (k + 1) s false) as [ys f]. cbn [fst snd] in *. subst ys.
  cbn [mem_char existsb orb]. destruct (Z.eqb_spec x 123) as [->|Nx]; [specialize (H [] s eq_refl); discriminate|]. cbn [orb fst snd]. auto.
Qed.
Lemma scan_pre p t : forall k esc, (forall u v, p = u ++ 123 :: v -> fst (after esc 0 u) = true) -> fst (after esc 0 p) = false ->
  exists ys, fst (scan [123] 92 k (p ++ 123 :: t) esc) = (k + zlen p) :: ys.
Proof.
  induction p as [|x p IH]; intros k esc H F.
  - cbn in F. subst esc. cbn [app scan]. cbn [Z.eqb Pos.eqb]. destruct (scan [123] 92 (k + 1) t false) as [ys f]. cbn [mem_char existsb Z.eqb Pos.eqb orb fst]. exists ys. rewrite zlen_nil, Z.add_0_r. reflexivity.
  - cbn [app scan]. assert (N : forall e' d', (forall u, after esc 0 (x :: u) = after e' d' u) -> exists ys, fst (scan [123] 92 (k + 1) (p ++ 123 :: t) e') = (k + zlen (x :: p)) :: ys).
    { intros e' d' E1. destruct (IH (k + 1) e') as (ys & Y).
      - intros u v Es. specialize (H (x :: u) v). rewrite E1, after_base in H. cbn [fst] in H. apply H. rewrite Es. reflexivity.
      - rewrite E1, after_base in F. exact F.
      - exists ys. rewrite Y, zlen_cons. f_equal. lia. }
    cbn [after] in N. destruct esc; [exact (N _ _ (fun u => eq_refl))|]. destruct (x =? 92) eqn:E92; [exact (N _ _ (fun u => eq_refl))|].
    destruct (N _ _ (fun u => eq_refl)) as [ys N1]. destruct (scan [123] 92 (k + 1) (p ++ 123 :: t) false) as [zs f]. cbn [fst snd] in *. subst zs.
    cbn [mem_char existsb orb]. destruct (Z.eqb_spec x 123) as [->|Nx]; [specialize (H [] p eq_refl); discriminate|]. cbn [orb fst snd]. exists ys. reflexivity.
Qed.
Lemma find_from p w : (exists t, p = w ++ t) -> find_unescaped (UStr p) [123] (lit "\") (Some (zlen w)) None =
  (fst (scan [123] 92 (zlen w) (skipn (length w) p) false), if snd (scan [123] 92 (zlen w) (skipn (length w) p) false) then Some ValueError else None).
Proof.
  intros (t & ->). change (lit "\") with [92]. rewrite (find_unescaped_scan (UStr (w ++ t)) [123] 92 (Some (zlen w)) None I) by discriminate. cbn [u_text].
  pose proof (zlen_nonneg w). pose proof (zlen_nonneg t).
  assert (EI : from_indices (zlen (w ++ t)) (Some (zlen w)) None = (zlen w, zlen (w ++ t))). { rewrite zlen_app. unfold from_indices. replace (0 <=? zlen w) with true by (symmetry; apply Z.leb_le; lia). f_equal; lia. }
  rewrite EI. cbn [fst snd]. rewrite skipn_pre. replace (zsub (w ++ t) (zlen w) (zlen (w ++ t))) with t; [reflexivity|]. rewrite zsub_app_r by lia. rewrite zlen_app. replace (zlen w + zlen t - zlen w) with (zlen t) by lia. rewrite Z.sub_diag, zsub_full. reflexivity.
Qed.
Lemma walk_back_run p x o t : ~ In x op_chars -> (forall c, In c o -> In c op_chars) -> walk_back (p ++ x :: o ++ t) (length p + S (length o)) = S (length p).
Proof.
  intros Hx. revert t. induction o as [|c o IH] using rev_ind; intros t Ho.
  - cbn [length]. rewrite Nat.add_1_r. cbn [walk_back app]. rewrite nth_mid. replace (mem_char x op_chars) with false; [reflexivity|]. symmetry. apply not_true_is_false. intros C. apply mem_char_in in C. contradiction.
  - rewrite app_length. cbn [length]. replace (length p + S (length o + 1))%nat with (S (length p + S (length o))) by lia. cbn [walk_back].
    replace (nth (length p + S (length o)) (p ++ x :: (o ++ [c]) ++ t) 0) with c.
    2:{ rewrite <- (nth_mid (p ++ x :: o) c t 0) at 1. rewrite app_length. cbn [length]. f_equal. rewrite <- !app_assoc. reflexivity. }
    replace (mem_char c op_chars) with true by (symmetry; apply mem_char_in, Ho, in_or_app; right; left; reflexivity).
    rewrite <- app_assoc. apply IH. intros y Hy. apply Ho, in_or_app. left. exact Hy.
Qed.
