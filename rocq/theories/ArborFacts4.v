(** Proofs: Invert, and Split and Invert on regex boundaries (C54, C55). *)
From Verif Require Export ArborFacts3.

Section Invert.
Variables (h0 : heap) (i : nat) (d : option pystr).
Hypothesis Hi : (i < length h0)%nat.
Hypothesis Hf : fwf (n_f (nd h0 i)).
Hypothesis Hleaf : n_kids (nd h0 i) = [].
Hypothesis Hne : h_start h0 i < h_stop h0 i.
Let A := h_start h0 i.
Let B := h_stop h0 i.

Lemma inv_clone h a b : extends h0 h -> A <= a <= b -> b <= B ->
  clone_of i (Some a) (Some b) (Some d) true h = (h ++ [piece_node h0 i d a b], Ok (length h)).
Proof.
  intros He Ha Hb. unfold clone_of, depth_fuel. rewrite clone_leaf by (rewrite (extends_nd h0 h i He Hi); exact Hleaf). rewrite (extends_nd h0 h i He Hi). destruct Hf as (F1 & F2).
  unfold A, B, h_start, h_stop in *. rewrite clone_f_in; cbn [odflt]; [reflexivity|split; assumption|lia|lia].
Qed.
Lemma inv_whole h : extends h0 h -> clone_of i None None (Some d) true h = (h ++ [piece_node h0 i d A B], Ok (length h)).
Proof.
  intros He. unfold clone_of, depth_fuel. rewrite clone_leaf by (rewrite (extends_nd h0 h i He Hi); exact Hleaf). rewrite (extends_nd h0 h i He Hi). destruct Hf as (F1 & F2). rewrite clone_f_in; cbn [odflt]; [reflexivity|split; assumption|lia|lia].
Qed.
Lemma new_piece h a b : extends h0 h -> is_piece h0 i d (h ++ [piece_node h0 i d a b]) (piece (a, b)) (length h).
Proof. intros [L _]. unfold is_piece, piece. cbn [fst snd]. split; [exact L|]. rewrite nd_app, Nat.eqb_refl. reflexivity. Qed.

Lemma invert_loop_ok : forall s (al : nat -> Prop) h sp start last,
  extends h0 h -> (forall j, (j < length h0)%nat -> al j) -> bounds al s h sp -> ordered start sp B ->
  match last with None => start = A | Some b => (b < length h)%nat /\ h_stop h b = start /\ A <= start end ->
  exists h' l, drain (invert_loop d i start last s) h = (h', (l, None)) /\ extends h0 h' /\ (length h <= length h')%nat /\ (forall j, (j < length h)%nat -> al j -> nd h' j = nd h j) /\
    Forall2 (is_piece h0 i d h') (map piece (filter wide (gaps start sp B))) l.
Proof.
  induction s as [|e|b k IH|g k IH]; intros al h sp start last He Hal Hb Ho Hl.
  - cbn in Hb. subst sp. cbn [invert_loop]. rewrite drain_ask. assert (EA : h_start h i = A) by (unfold A, h_start; rewrite (extends_nd h0 h i He Hi); reflexivity).
    assert (EB : h_stop h i = B) by (unfold B, h_stop; rewrite (extends_nd h0 h i He Hi); reflexivity).
    rewrite EA. cbn in Ho. cbn [gaps]. unfold filter at 1. unfold wide at 1. cbn [fst snd]. destruct (Z.eqb_spec start A) as [->|N].
    + rewrite drain_act, (inv_whole h He). cbn [drain]. destruct (Z.ltb_spec A B) as [L|L]; [|unfold A, B in *; lia].
      exists (h ++ [piece_node h0 i d A B]), [length h]. split; [reflexivity|]. split; [exact (extends_trans _ _ _ He (extends_new _ _))|]. split; [rewrite app_length; lia|]. split; [intros j Hj _; exact (extends_nd _ _ _ (extends_new h _) Hj)|]. constructor; [exact (new_piece h A B He)|constructor].
    + destruct last as [b|]; [|congruence]. destruct Hl as (L1 & L2 & L3). rewrite drain_ask, L2, EB. cbn [fst snd]. destruct (Z.ltb_spec start B) as [L|L].
      * rewrite drain_act, (inv_clone h start B He) by lia. cbn [drain]. exists (h ++ [piece_node h0 i d start B]), [length h]. split; [reflexivity|]. split; [exact (extends_trans _ _ _ He (extends_new _ _))|]. split; [rewrite app_length; lia|]. split; [intros j Hj _; exact (extends_nd _ _ _ (extends_new h _) Hj)|]. constructor; [exact (new_piece h start B He)|constructor].
      * exists h, []. cbn [drain map]. split; [reflexivity|]. split; [exact He|]. auto.
  - contradiction Hb.
  - cbn [bounds] in Hb. destruct sp as [|[x y] r]; [contradiction|]. destruct Hb as (Hc & Ec & Hk). injection Ec as Ea Eb. cbn [ordered] in Ho. destruct Ho as (O1 & O2 & O3). pose proof (ordered_le _ _ _ O3) as O4.
    assert (HA : A <= start) by (destruct last as [b0|]; [tauto|lia]).
    cbn [invert_loop]. rewrite drain_ask, Ea. cbn [gaps]. cbn [filter]. unfold wide at 1. cbn [fst snd]. destruct (Z.ltb_spec start x) as [L|L].
    + rewrite drain_act, (inv_clone h start x He) by lia. set (h1 := h ++ [piece_node h0 i d start x]). assert (X1 : extends h h1) by apply extends_new. assert (L1 : length h1 = S (length h)) by (unfold h1; rewrite app_length; cbn; lia).
      cbn [drain]. rewrite drain_ask. destruct (extends_spans _ _ X1) as [_ XS]. destruct (XS b Hc) as (_ & XA & XB). rewrite XB, Eb.
      destruct (IH (fun j => al j \/ (length h <= j < length h1)%nat) h1 r y (Some b)) as (h' & l & D & X & XL & K & P).
      * exact (extends_trans _ _ _ He X1).
      * intros j Hj. left. auto.
      * exact (Hk h1 X1).
      * exact O3.
      * split; [lia|]. split; [rewrite XB; exact Eb|lia].
      * rewrite D. exists h', (length h :: l). split; [reflexivity|]. split; [exact X|]. split; [lia|]. split; [intros j Hj Ha; rewrite K by (auto; lia); exact (extends_nd _ _ _ X1 Hj)|].
        cbn [map]. constructor; [|exact P]. pose proof (new_piece h start x He) as Q. fold h1 in Q. unfold is_piece, piece in *. cbn [fst snd] in *. rewrite (K (length h)); [exact Q|lia|right; lia].
    + rewrite drain_ask, Eb. destruct (IH (fun j => al j \/ (length h <= j < length h)%nat) h r y (Some b)) as (h' & l & D & X & XL & K & P).
      * exact He.
      * intros j Hj. left. auto.
      * exact (Hk h (extends_refl h)).
      * exact O3.
      * split; [exact Hc|]. split; [exact Eb|lia].
      * exists h', l. rewrite D. split; [reflexivity|]. split; [exact X|]. split; [exact XL|]. split; [intros j Hj Ha; apply K; auto|exact P].
  - cbn [invert_loop drain]. cbn [bounds] in Hb. destruct Hb as (B1 & B2 & B3 & B4).
    destruct (IH h al (g h) sp start last) as (h' & l & D & X & XL & K & P); try assumption.
    + split; [destruct He; lia|]. intros j Hj. rewrite B2 by (apply Hal; exact Hj). exact (extends_nd _ _ _ He Hj).
    + destruct last as [b|]; [|exact Hl]. destruct Hl as (L1 & L2 & L3). split; [lia|]. split; [|exact L3]. destruct (B3 b L1) as (_ & _ & ->). exact L2.
    + exists h', l. split; [exact D|]. split; [exact X|]. split; [lia|]. split; [|exact P]. intros j Hj Ha. rewrite K by (auto; lia). apply B2. exact Ha.
Qed.
End Invert.

Theorem invert_total call it d h i sp : (i < length h)%nat -> fwf (n_f (nd h i)) -> n_kids (nd h i) = [] -> h_start h i < h_stop h i ->
  bounds (fun j => (j < length h)%nat) (call it i) h sp -> ordered (h_start h i) sp (h_stop h i) ->
  exists h' l, drain (transform_of call (TInvert it d) i) h = (h', (l, None)) /\ extends h h' /\
    Forall2 (is_piece h i d h') (map piece (filter wide (gaps (h_start h i) sp (h_stop h i)))) l.
Proof.
  intros Hi Hf Hk Hne Hb Ho. cbn [transform_of]. rewrite drain_ask.
  destruct (invert_loop_ok h i d Hi Hf Hk Hne (call it i) (fun j => (j < length h)%nat) h sp (h_start h i) None (extends_refl h) (fun j H => H) Hb Ho eq_refl) as (h' & l & D & X & _ & _ & P). exists h', l. auto.
Qed.

(** -- regex boundaries --------------------------------------------------------- *)
Lemma whole_keys re m : re_ok re -> re_keys re whole_only m = [KInt 0].
Proof.
  intros R. unfold re_keys, whole_only. set (filt := fun k : gkey => match k with KInt 0 => true | _ => false end).
  pose proof (from_filter_spec re filt R) as H. cbv zeta in H. set (acc := fun g : nat => _) in H. destruct (preferred_spec re R) as [PL PP].
  assert (E : filter acc (seq 0 (S (re_groups re))) = [0%nat]).
  { cbn [seq filter]. replace (acc 0%nat) with true by (unfold acc; rewrite orb_comm; reflexivity). f_equal.
    destruct (filter acc (seq 1 (re_groups re))) as [|g l] eqn:E; [reflexivity|]. exfalso.
    assert (Hg : In g (filter acc (seq 1 (re_groups re)))) by (rewrite E; left; reflexivity). apply filter_In in Hg. destruct Hg as [Hs Ha]. apply in_seq in Hs.
    unfold acc in Ha. apply orb_true_iff in Ha. destruct Ha as [Ha|Ha].
    - destruct (PP g ltac:(lia)) as [D _]. destruct (nth g (gk_preferred re) (KInt 0)) as [z|s]; [|discriminate Ha]. destruct D as [D _]. destruct z; try discriminate Ha. lia.
    - destruct g; [lia|]. cbn in Ha. discriminate Ha. }
  change (gk_from_filter (gk_preferred re) filt = [KInt 0]). rewrite E in H. inversion H as [|x g l l' [H1 H2] H3 Ex Eg]; subst. inversion H3; subst. f_equal. destruct x as [z|s]; [|discriminate H2]. destruct z; try discriminate H2. reflexivity.
Qed.
Lemma whole_match h s m df a b : rm_string m = s -> rm_spans m (KInt 0) = [(a, b)] -> 0 <= a <= b -> b <= zlen s ->
  from_match h m df [KInt 0] = (h ++ [Nd (FI s a b (df (KInt 0)) None) None []], Ok [length h]).
Proof.
  intros Es Ep Ha Hb. unfold from_match, captures. cbn [flat_map]. rewrite Ep, Es. cbn [map app sort_caps fold_right insert_cap fm_loop fst snd]. unfold new_str, new_node.
  rewrite (ito_of_str_in s a b (df (KInt 0))) by lia. cbn [obind fst snd pop_until]. reflexivity.
Qed.
Lemma ordered_in sp : forall A B x, ordered A sp B -> In x sp -> A <= fst x <= snd x /\ snd x <= B.
Proof.
  induction sp as [|[a b] r IH]; intros A B x H Hx; [destruct Hx|]. cbn in H. destruct H as (H1 & H2 & H3). pose proof (ordered_le _ _ _ H3). destruct Hx as [<-|Hx]; [cbn; lia|]. destruct (IH b B x H3 Hx). lia.
Qed.
Lemma run_whole s df ms sp : matches_at s ms sp -> (forall x, In x sp -> 0 <= fst x <= snd x /\ snd x <= zlen s) -> forall h,
  exists h' ls, run_matches h (fun _ => [KInt 0]) df ms = (h', Ok ls) /\ extends h h' /\ Forall2 (fun j x => (j < length h')%nat /\ (h_start h' j, h_stop h' j) = x) (concat ls) sp.
Proof.
  intros M. induction M as [|m [a b] ms sp [Es Ep] M IH]; intros Hin h.
  - exists h, []. split; [reflexivity|]. split; [apply extends_refl|constructor].
  - cbn [run_matches]. destruct (Hin (a, b) (or_introl eq_refl)) as [H1 H2]. cbn [fst snd] in H1, H2. rewrite (whole_match h s m (df m) a b Es Ep H1 H2). set (h1 := h ++ _).
    destruct (IH (fun x Hx => Hin x (or_intror Hx)) h1) as (h' & ls & E & X & F). unfold obind. cbn [fst snd]. rewrite E. cbn [fst snd].
    assert (X1 : extends h h1) by apply extends_new. assert (L : (length h < length h1)%nat) by (unfold h1; rewrite app_length; cbn; lia).
    exists h', ([length h] :: ls). split; [reflexivity|]. split; [exact (extends_trans _ _ _ X1 X)|]. cbn [concat app]. constructor; [|exact F].
    split; [destruct X; lia|]. unfold h_start, h_stop. rewrite (extends_nd _ _ _ X L). unfold h1. rewrite nd_app, Nat.eqb_refl. reflexivity.
Qed.
Lemma list_bounds tr : forall l sp h (al : nat -> Prop), Forall2 (fun j x => (j < length h)%nat /\ (h_start h j, h_stop h j) = x) l sp -> bounds al (sfor (of_list l) (flow tr [])) h sp.
Proof.
  induction l as [|j l IH]; intros sp h al F; inversion F as [|? x ? sp' [H1 H2] F' E1 E2]; subst; [reflexivity|].
  cbn [of_list sfor flow sapp bounds]. split; [exact H1|]. split; [reflexivity|]. intros h' X. apply IH. clear - F' X. induction F' as [|k x l sp' [G1 G2] F IH]; constructor; [|exact IH]. destruct (extends_spans _ _ X) as [XL XS]. destruct (XS k G1) as (_ & -> & ->). split; [lia|exact G2].
Qed.
(** calling the regex splitter on an Ito gives boundaries at the matches *)
Lemma regex_bounds P t re fi n h i sp : P t = regex_itor re fi -> re_ok re -> hwf h -> acyclic h -> (i < length h)%nat ->
  matches_at (h_string h i) (fi (h_string h i) (h_start h i) (h_stop h i)) sp -> ordered (h_start h i) sp (h_stop h i) ->
  bounds (fun j => (j < length h)%nat) (call (S n) P t i) h sp.
Proof.
  intros EP R W Ac Hi M O. unfold call. destruct (clone_plain h i W Ac Hi) as (tr & h1 & Ec & R0 & R1 & Ep & K & _ & W1 & _).
  assert (X1 : extends h h1).
  { destruct (clone_total h i None None None W Ac Hi) as (t1 & h2 & _ & _ & _ & X & D). destruct D as [(_ & E2 & _)|(_ & E2)]; rewrite Ec in E2; [injection E2 as <-; exact X|discriminate E2]. }
  unfold act at 1. cbn [bounds]. unfold clone_of. rewrite Ec. cbn [fst snd].
  assert (Ef : n_f (nd h1 (length h)) = n_f (nd h i)) by (rewrite (rep_f _ _ _ R1), (rep_f _ _ _ R0); reflexivity).
  destruct (extends_spans _ _ X1) as [XL XS]. split; [exact XL|]. split; [exact K|]. split; [exact XS|].
  cbn [traverse]. rewrite EP. cbn [regex_itor it_post it_tr it_cons run_post transform_of sfor act]. unfold act. cbn [sfor bounds].
  assert (Es : h_string h1 (length h) = h_string h i) by (unfold h_string; rewrite Ef; reflexivity). assert (Ea : h_start h1 (length h) = h_start h i) by (unfold h_start; rewrite Ef; reflexivity). assert (Eb : h_stop h1 (length h) = h_stop h i) by (unfold h_stop; rewrite Ef; reflexivity).
  rewrite Es, Ea, Eb. rewrite from_re_nolimit by exact I.
  pose proof (hwf_span h W i) as Hw.
  destruct (run_whole (h_string h i) (fun _ _ => None) _ sp M) with (h := h1) as (h2 & ls & E2 & X2 & F2).
  { intros x Hx. destruct (ordered_in sp _ _ x O Hx). destruct Hw as [Hw1 Hw2]. unfold h_start, h_stop, h_string in *. lia. }
  assert (EK : run_matches h1 (re_keys re whole_only) (fun _ _ => None) (fi (h_string h i) (h_start h i) (h_stop h i)) = run_matches h1 (fun _ => [KInt 0]) (fun _ _ => None) (fi (h_string h i) (h_start h i) (h_stop h i))).
  { clear - R. generalize (fi (h_string h i) (h_start h i) (h_stop h i)). intros ms. revert h1. induction ms as [|m ms IH]; intros h1; [reflexivity|]. cbn [run_matches]. rewrite (whole_keys re m R). unfold obind. destruct (from_match h1 m (fun _ => None) [KInt 0]) as [h2 [l|e]]; cbn [fst snd]; [|reflexivity]. rewrite IH. reflexivity. }
  rewrite EK, E2. cbn [obind fst snd]. destruct (extends_spans _ _ X2) as [YL YS].
  split; [exact YL|]. split; [intros j Hj; apply (extends_nd h1 h2 j X2); lia|]. split; [exact YS|]. apply list_bounds. exact F2.
Qed.

Lemma Forall2_imp {X Y} (R S : X -> Y -> Prop) l m : (forall x y, R x y -> S x y) -> Forall2 R l m -> Forall2 S l m.
Proof. intros H F. induction F; constructor; auto. Qed.
Lemma clone_same h i : hwf h -> acyclic h -> (i < length h)%nat ->
  exists h1, clone_of i None None None true h = (h1, Ok (length h)) /\ extends h h1 /\ (length h < length h1)%nat /\ hwf h1 /\ acyclic h1 /\ n_f (nd h1 (length h)) = n_f (nd h i) /\ length (n_kids (nd h1 (length h))) = length (n_kids (nd h i)).
Proof.
  intros W Ac Hi. destruct (clone_plain h i W Ac Hi) as (tr & h1 & Ec & R0 & R1 & Ep & K & _ & W1 & A1). exists h1. split; [exact Ec|].
  destruct (clone_total h i None None None W Ac Hi) as (t1 & h2 & _ & _ & _ & X & D). destruct D as [(_ & E2 & _)|(_ & E2)]; rewrite Ec in E2; [injection E2 as <-|discriminate E2].
  split; [exact X|]. split; [pose proof (clone_h_inv (depth_fuel h) h i None None None true W Hi) as (_ & _ & Q); rewrite Ec in Q; cbn [fst snd] in Q; apply (Q _ eq_refl)|]. split; [exact W1|]. split; [exact A1|]. split; [rewrite (rep_f _ _ _ R1), (rep_f _ _ _ R0); reflexivity|].
  pose proof (rep_kids _ _ _ R0) as K0. pose proof (rep_kids _ _ _ R1) as K1. rewrite <- (Forall2_len _ _ _ K0), <- (Forall2_len _ _ _ K1). reflexivity.
Qed.
Lemma drain_plain tr s : forall h, drain (sfor s (flow tr [])) h = drain s h.
Proof. induction s as [|e|j k IH|g k IH]; intros h; cbn [sfor drain]; try reflexivity; [|apply IH]. cbn [flow sapp drain]. rewrite IH. reflexivity. Qed.

(** Split with a regex, called on any Ito of a well-formed heap *)
Theorem split_regex P t t' re fi limit br zero d n h i sp : P t = Itor (TSplit t' limit br zero d) [] PostNone -> P t' = regex_itor re fi -> re_ok re ->
  hwf h -> acyclic h -> (i < length h)%nat ->
  matches_at (h_string h i) (fi (h_string h i) (h_start h i) (h_stop h i)) sp -> ordered (h_start h i) sp (h_stop h i) ->
  exists h' l, drain (call (S (S n)) P t i) h = (h', (l, None)) /\ extends h h' /\
    Forall2 (is_piece h i d h') (split_result br zero (h_start h i) (h_stop h i) (used limit sp)) l.
Proof.
  intros E1 E2 R W Ac Hi M O. destruct (clone_same h i W Ac Hi) as (h1 & Ec & X1 & L1 & W1 & A1 & Ef & _). unfold call. rewrite drain_act, Ec.
  cbn [traverse]. rewrite E1. cbn [it_post it_tr it_cons run_post]. rewrite drain_plain. cbn [transform_of].
  assert (Es : h_string h1 (length h) = h_string h i) by (unfold h_string; rewrite Ef; reflexivity). assert (Ea : h_start h1 (length h) = h_start h i) by (unfold h_start; rewrite Ef; reflexivity). assert (Eb : h_stop h1 (length h) = h_stop h i) by (unfold h_stop; rewrite Ef; reflexivity).
  rewrite <- Es, <- Ea, <- Eb in M. rewrite <- Ea, <- Eb in O.
  pose proof (regex_bounds P t' re fi n h1 (length h) sp E2 R W1 A1 L1 M O) as Bd.
  destruct (split_total limit br zero d _ h1 (length h) sp L1 (hwf_span h1 W1 _) Bd O) as (h' & l & D & X & F). exists h', l. split; [exact D|]. split; [exact (extends_trans _ _ _ X1 X)|].
  rewrite Ea, Eb in F. refine (Forall2_imp _ _ _ _ _ F). intros x j. unfold is_piece. rewrite Es, Ef. destruct (fst x); [auto|]. intros [Q1 Q2]. split; [lia|exact Q2].
Qed.
(** the same for Invert *)
Theorem invert_regex P t t' re fi d n h i sp : P t = Itor (TInvert t' d) [] PostNone -> P t' = regex_itor re fi -> re_ok re ->
  hwf h -> acyclic h -> (i < length h)%nat -> n_kids (nd h i) = [] -> h_start h i < h_stop h i ->
  matches_at (h_string h i) (fi (h_string h i) (h_start h i) (h_stop h i)) sp -> ordered (h_start h i) sp (h_stop h i) ->
  exists h' l, drain (call (S (S n)) P t i) h = (h', (l, None)) /\ extends h h' /\
    Forall2 (is_piece h i d h') (map piece (filter wide (gaps (h_start h i) sp (h_stop h i)))) l.
Proof.
  intros E1 E2 R W Ac Hi Hk Hne M O. destruct (clone_same h i W Ac Hi) as (h1 & Ec & X1 & L1 & W1 & A1 & Ef & Ek). unfold call. rewrite drain_act, Ec.
  cbn [traverse]. rewrite E1. cbn [it_post it_tr it_cons run_post]. rewrite drain_plain.
  assert (Es : h_string h1 (length h) = h_string h i) by (unfold h_string; rewrite Ef; reflexivity). assert (Ea : h_start h1 (length h) = h_start h i) by (unfold h_start; rewrite Ef; reflexivity). assert (Eb : h_stop h1 (length h) = h_stop h i) by (unfold h_stop; rewrite Ef; reflexivity).
  rewrite <- Es, <- Ea, <- Eb in M. rewrite <- Ea, <- Eb in O. rewrite Hk in Ek. cbn [length] in Ek. apply length_zero_iff_nil in Ek.
  pose proof (regex_bounds P t' re fi n h1 (length h) sp E2 R W1 A1 L1 M O) as Bd.
  destruct (invert_total (call (S n) P) t' d h1 (length h) sp L1 (hwf_span h1 W1 _) Ek) as (h' & l & D & X & F); [rewrite Ea, Eb; exact Hne|exact Bd|exact O|]. exists h', l. split; [exact D|]. split; [exact (extends_trans _ _ _ X1 X)|].
  rewrite Ea, Eb in F. refine (Forall2_imp _ _ _ _ _ F). intros x j. unfold is_piece. rewrite Es, Ef. destruct (fst x); [auto|]. intros [Q1 Q2]. split; [lia|exact Q2].
Qed.
(** Extract with a desc function yields what from_re yields for the clone *)
Theorem extract_total P t re fi limit df gf n h i : P t = Itor (TExtract re fi limit (Some df) gf) [] PostNone -> hwf h -> acyclic h -> (i < length h)%nat ->
  exists h1, extends h h1 /\ drain (call (S n) P t i) h =
    match from_re h1 re gf df limit (fi (h_string h i) (h_start h i) (h_stop h i)) with
    | (h2, Ok (l, _)) => (h2, (l, None))
    | (h2, Err e) => (h2, ([], Some e))
    end.
Proof.
  intros E1 W Ac Hi. destruct (clone_same h i W Ac Hi) as (h1 & Ec & X1 & L1 & W1 & A1 & Ef & _). exists h1. split; [exact X1|]. unfold call. rewrite drain_act, Ec.
  cbn [traverse]. rewrite E1. cbn [it_post it_tr it_cons run_post]. rewrite drain_plain. cbn [transform_of]. rewrite drain_act.
  assert (Es : h_string h1 (length h) = h_string h i) by (unfold h_string; rewrite Ef; reflexivity). assert (Ea : h_start h1 (length h) = h_start h i) by (unfold h_start; rewrite Ef; reflexivity). assert (Eb : h_stop h1 (length h) = h_stop h i) by (unfold h_stop; rewrite Ef; reflexivity).
  rewrite Es, Ea, Eb. destruct (from_re _ _ _ _ _ _) as [h2 [[l m]|e]]; unfold obind; cbn [fst snd]; [rewrite drain_of_list|]; reflexivity.
Qed.
Theorem drain_harmless fuel P t i h : prog_stays (length h) P ->
  let r := drain (call fuel P t i) h in extends h (fst r) /\ Forall (fun j => (length h <= j)%nat) (fst (snd r)).
Proof.
  intros HP. pose proof (call_harmless fuel P t i h (fun _ g => g) HP (fun _ g => harmless_refl _ g)) as H. cbv zeta in *.
  assert (E : forall s seen g, drive (fun _ g => g) seen s g = let '(g', (l, e)) := drain s g in (g', (seen ++ l, e))).
  { induction s as [|e|j k IH|f k IH]; intros seen g; cbn [drive drain]; [rewrite app_nil_r; reflexivity|rewrite app_nil_r; reflexivity| |apply IH]. rewrite IH. destruct (drain k g) as [g' [l e]]. rewrite <- app_assoc. reflexivity. }
  rewrite E in H. destruct (drain (call fuel P t i) h) as [g' [l e]]. exact H.
Qed.
Theorem traverse_plain n P t i h : it_post (P t) = PostNone ->
  drain (traverse (S n) P t i) h = for_each (fun x => drain (flow (traverse n P) (it_cons (P t)) x)) (transform_of (call n P) (it_tr (P t)) i) h.
Proof. intros E. cbn [traverse]. rewrite E. cbn [run_post]. rewrite drain_sfor. reflexivity. Qed.
Lemma pred_desc d h i b : eval_pred (PDesc d) h i = Ok b -> b = true <-> f_desc (n_f (nd h i)) = Some d.
Proof.
  cbn. intros [= <-]. destruct (f_desc (n_f (nd h i))) as [x|]; [|split; discriminate]. destruct (eqb_str x d) eqn:E.
  - apply eqb_str_eq in E. subst. split; reflexivity.
  - split; [discriminate|]. intros [= ->]. rewrite (proj2 (eqb_str_eq d d) eq_refl) in E. discriminate E.
Qed.
Lemma pred_none h i b : eval_pred PNoDesc h i = Ok b -> b = true <-> f_desc (n_f (nd h i)) = None.
Proof. cbn. intros [= <-]. destruct (f_desc (n_f (nd h i))); split; congruence. Qed.
Lemma hier_fuel_ok h : (2 * length h <= hier_fuel h)%nat.
Proof. unfold hier_fuel. lia. Qed.
Theorem split_none_gaps zero A B sp : sp <> [] -> ordered A sp B ->
  let g := map snd (split_result RNone zero A B sp) in
  StronglySorted (fun x y => snd x <= fst y) g /\ Forall (fun x => A <= fst x < snd x /\ snd x <= B) g /\
  (forall k, A <= k < B -> ((exists x, In x g /\ fst x <= k < snd x) <-> ~ covered sp k)).
Proof.
  intros N H. destruct sp as [|x r]; [congruence|]. unfold split_result. rewrite map_snd_piece. destruct (gaps_maximal A B (x :: r) H) as (G1 & G2 & G3 & _). cbv zeta. auto.
Qed.
