(** Filters and sub-queries given as texts: parse and value. *)
From Verif Require Export QueryFacts7.

Lemma map_list_ok {A B} (f : A -> res B) (g : A -> B) l : (forall a, In a l -> f a = Ok (g a)) -> map_list f l None = Ok (map g l).
Proof.
  induction l as [|a l IH]; intros H; [reflexivity|]. cbn [map_list map]. rewrite (H a (or_introl eq_refl)). cbn [bind]. rewrite IH by (intros x Hx; apply H; right; exact Hx). reflexivity.
Qed.
Lemma map_list_combine {A B C} (f : B -> res C) : forall (ops : list A) (l : list B), (length l <= length ops)%nat -> map_list (fun g => f (snd g)) (combine ops l) None = map_list f l None.
Proof.
  induction ops as [|o ops IH]; intros [|b l] L; cbn [combine map_list] in *; try reflexivity; [cbn in L; lia|]. rewrite IH by (cbn in L; lia). reflexivity.
Qed.

(** the groups of a written expression, and what they combine to *)
Lemma written_groups E {B} o c e (L : list (item pystr)) (mk : pystr -> res B) (den : pystr -> ecf) (fin : B -> ecf) :
  o <> c -> o <> 92 -> c <> 92 -> ~ In o op_chars -> ~ In c op_chars -> ops_not_space E -> writes e L ->
  (forall g, In g (atoms L) -> one_group o c g /\ escapes_ok o c g /\ exists b, mk g = Ok b /\ fin b = den g) ->
  count_unesc o false (text_of L) = count_unesc c false (text_of L) /\
  exists o0 os cf, operands L = o0 :: os /\
    (forall a b cur pre, weave (operands L) (atoms L) = map IC a ++ weave (b :: os) (atoms L) -> o0 = a ++ b ->
      forall T, text_of (weave (b :: os) (atoms L)) = T -> cur = rev a ->
      groups o c T false 0 pre cur = Ok (combine (o0 :: os) (atoms L), last (o0 :: os) [])) /\
    group_ops E true (combine (o0 :: os) (atoms L)) (last (o0 :: os) []) = Ok (strip_init (py_isspace E) (o0 :: os)) /\
    atoms L <> [] /\ combined (map den (atoms L)) (strip_init (py_isspace E) (o0 :: os)) = Ok cf /\ forall h r ec, cf h r ec = outcome (fun g => den g h r ec) e.
Proof.
  intros Noc No Nc Io Ic Hs W HG. destruct (groups_combined E e L den Hs W) as (o0 & os & EO & GO & cf & EC & V0).
  assert (HC : forall x, In x (chars_of L) -> x <> o /\ x <> c /\ x <> 92).
  { intros x Hx. apply (writes_chars e L x W) in Hx. split; [intros ->; contradiction|]. split; [intros ->; contradiction|]. cbn in Hx. lia. }
  pose proof (operands_len L) as Ln. rewrite EO in Ln. cbn [length] in Ln.
  split; [apply count_items; [assumption..|intros g Hg; destruct (HG g Hg) as (G1 & G2 & _); auto|exact HC]|].
  exists o0, os, cf. split; [exact EO|]. split; [|split; [apply GO; reflexivity|split]].
  - intros a b cur pre Ew E0 T <- ->.
    assert (Lw : length (b :: os) = S (length (atoms L))) by (cbn; lia).
    rewrite (groups_items o c (weave (b :: os) (atoms L)) Noc No Nc) with (o0 := b) (os := os).
    + rewrite rev_involutive, <- E0, weave_atoms by exact Lw. reflexivity.
    + rewrite weave_atoms by exact Lw. intros g Hg. exact (proj1 (HG g Hg)).
    + intros x Hx. destruct (HC x) as (X1 & _ & X2); [|auto]. rewrite <- (weave_self L), Ew, chars_app. apply in_or_app. right. exact Hx.
    + apply weave_operands. exact Lw.
  - destruct W as (k & R). pose proof (rendS_atoms _ _ _ _ (rendS_of _ _ _ _ R L eq_refl)) as Q. destruct (atoms L); [unfold zlen in Q; destruct k; cbn in Q; lia|discriminate].
  - rewrite EO in EC. auto.
Qed.
Lemma ecf_filter_spec E e (L : list (item pystr)) : ops_not_space E -> writes e L ->
  (forall g, In g (atoms L) -> one_group 91 93 g /\ escapes_ok 91 93 g /\ exists f, one_filter E g = Ok f) ->
  exists c, ecf_filter E (text_of L) = Ok c /\ forall h r ec, c h r ec = outcome (fun g => res_ecf (one_filter E g) h r ec) e.
Proof.
  intros Hs W HG.
  destruct (written_groups E 91 93 e L (one_filter E) (fun g => res_ecf (one_filter E g)) (fun f => f)) as (CU & o0 & os & cf & EO & GR & GO & Na & EC & V0);
    try lia; try exact Hs; try exact W; try (cbn; lia).
  { intros g Hg. destruct (HG g Hg) as (G1 & G2 & f & Ef). split; [exact G1|]. split; [exact G2|]. exists f. rewrite Ef. auto. }
  exists cf. split; [|exact V0]. unfold ecf_filter. rewrite CU, Nat.eqb_refl. cbn [negb].
  rewrite (GR [] o0 [] []); [|rewrite EO; reflexivity|reflexivity|rewrite <- EO, weave_self; reflexivity|reflexivity]. cbn [bind fst snd]. rewrite GO. cbn [bind].
  pose proof (operands_len L) as Ln. rewrite EO in Ln. cbn [length] in Ln. rewrite (map_list_combine (one_filter E)) by (cbn [length]; lia).
  rewrite (map_list_ok (one_filter E) (fun g => res_ecf (one_filter E g))). 2:{ intros g Hg. destruct (HG g Hg) as (_ & _ & f & Ef). rewrite Ef. reflexivity. }
  cbn [bind]. destruct (atoms L) as [|g0 gs]; [congruence|]. cbn [map] in *. exact EC.
Qed.
Lemma find_curl_pre p t : (forall x, In x p -> x <> 92 /\ x <> 123) -> find_curl (p ++ 123 :: t) (Some false) = Some (length p).
Proof.
  induction p as [|x p IH]; intros H; [reflexivity|]. cbn [app find_curl]. destruct (H x (or_introl eq_refl)) as [H1 H2].
  replace (x =? 92) with false by (symmetry; apply Z.eqb_neq; exact H1). replace (x =? 123) with false by (symmetry; apply Z.eqb_neq; exact H2). cbn [andb]. rewrite IH by (intros y Hy; apply H; right; exact Hy). reflexivity.
Qed.
Lemma text_app l m : text_of (l ++ m) = text_of l ++ text_of m.
Proof. induction l as [|[c|a] l IH]; cbn; [reflexivity|f_equal; exact IH|rewrite IH; apply app_assoc]. Qed.
Lemma text_chars o : text_of (map IC o) = o.
Proof. induction o; [reflexivity|]. cbn. f_equal. assumption. Qed.
Lemma ecf_subquery_spec E (parse : pystr -> res query) e (L : list (item pystr)) : ops_not_space E -> writes e L ->
  (forall g, In g (atoms L) -> one_group 123 125 g /\ escapes_ok 123 125 g /\ exists q, parse (inside g) = Ok q) ->
  exists c, ecf_subquery E parse (text_of L) false = Ok c /\
    forall h r ec, c h r ec = outcome (fun g => do q <- parse (inside g); sub_func q h r ec) e.
Proof.
  intros Hs W HG. set (mk := fun g => do q <- parse (inside g); Ok (sub_func q)).
  destruct (written_groups E 123 125 e L mk (fun g => res_ecf (mk g)) (fun f => f)) as (CU & o0 & os & cf & EO & GR & GO & Na & EC & V0);
    try lia; try exact Hs; try exact W; try (cbn; lia).
  { intros g Hg. destruct (HG g Hg) as (G1 & G2 & q & Eq). split; [exact G1|]. split; [exact G2|]. exists (sub_func q). unfold mk. rewrite Eq. auto. }
  exists cf. split.
  2:{ intros h r ec. rewrite V0. clear. induction e as [g|e IH|e1 IH1 e2 IH2|e1 IH1 e2 IH2|e1 IH1 e2 IH2]; cbn [outcome]; rewrite ?IH, ?IH1, ?IH2; try reflexivity. unfold mk. destruct (parse (inside g)); reflexivity. }
  unfold ecf_subquery. pose proof (operands_len L) as Ln. rewrite EO in Ln. cbn [length] in Ln.
  destruct (atoms L) as [|g0 gs] eqn:EA; [congruence|]. destruct (HG g0 (or_introl eq_refl)) as (((g' & Eg) & _) & _).
  assert (HC : forall x, In x o0 -> x <> 92 /\ x <> 123).
  { intros x Hx. assert (In x op_chars) as Y by (apply (writes_chars e L x W); rewrite <- operands_chars, EO; cbn; apply in_or_app; left; exact Hx). cbn in Y. lia. }
  assert (TL : text_of L = o0 ++ 123 :: g' ++ text_of (weave os gs)).
  { rewrite <- (weave_self L), EO, EA. cbn [weave]. rewrite text_app, text_chars. cbn [text_of]. rewrite Eg. reflexivity. }
  rewrite TL, (find_curl_pre o0 _ HC). rewrite firstn_mid, skipn_pre.
  assert (CU' : forall x, x = 123 \/ x = 125 -> count_unesc x false (o0 ++ 123 :: g' ++ text_of (weave os gs)) = count_unesc x false (123 :: g' ++ text_of (weave os gs))).
  { intros x Hx. assert (Q : forall y, In y o0 -> y <> 92 /\ y <> 123 /\ y <> 125) by (intros y Hy; assert (In y op_chars) as Y by (apply (writes_chars e L y W); rewrite <- operands_chars, EO; cbn; apply in_or_app; left; exact Hy); cbn in Y; lia).
    clear -Q Hx. induction o0 as [|y o0 IH]; [reflexivity|]. cbn [app count_unesc]. destruct (Q y (or_introl eq_refl)) as (Q1 & Q2 & Q3). replace (y =? 92) with false by (symmetry; apply Z.eqb_neq; exact Q1).
    replace (y =? x) with false by (symmetry; apply Z.eqb_neq; lia). cbn [andb Nat.add]. apply IH. intros z Hz. apply Q. right. exact Hz. }
  rewrite <- !CU' by auto. rewrite <- TL, CU, Nat.eqb_refl. cbn [negb].
  replace (last o0 0 =? 92) with false.
  2:{ symmetry. apply Z.eqb_neq. destruct (exists_last (l := 0 :: o0)) as (i & x & Ex); [discriminate|]. destruct o0 as [|y o0]; [cbn; lia|]. destruct (exists_last (l := y :: o0)) as (i' & x' & Ex'); [discriminate|]. rewrite Ex', last_last. apply HC. rewrite Ex'. apply in_or_app. right. left. reflexivity. }
  rewrite (GR o0 [] (rev o0) []).
  2:{ rewrite EO. reflexivity. }
  2:{ rewrite app_nil_r. reflexivity. }
  2:{ cbn [weave map app text_of]. rewrite Eg. reflexivity. }
  2:{ reflexivity. }
  cbn [bind fst snd]. rewrite GO. cbn [bind].
  change (fun g : pystr * pystr => do q <- parse (removelast (tl (snd g))); Ok (sub_func q)) with (fun g : pystr * pystr => mk (snd g)).
  rewrite (map_list_combine mk) by (cbn [length] in *; lia).
  rewrite (map_list_ok mk (fun g => res_ecf (mk g))). 2:{ intros g Hg. destruct (HG g Hg) as (_ & _ & q & Eq). unfold mk. rewrite Eq. reflexivity. }
  cbn [bind map]. exact EC.
Qed.
