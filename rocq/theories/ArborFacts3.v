(** Proofs: Split and Invert (C54, C55). *)
From Verif Require Export ArborFacts2 CombinFacts2 AxisFacts AxisFacts2 AxisFacts3.

(** -- the boundaries stay what they are -------------------------------------- *)
(** any object keeps its string and span *)
Definition same_spans (h h' : heap) : Prop :=
  (length h <= length h')%nat /\ forall j, (j < length h)%nat -> h_string h' j = h_string h j /\ h_start h' j = h_start h j /\ h_stop h' j = h_stop h j.
Lemma same_spans_refl h : same_spans h h. Proof. split; auto. Qed.
Lemma same_spans_trans a b c : same_spans a b -> same_spans b c -> same_spans a c.
Proof. intros [A1 A2] [B1 B2]. split; [lia|]. intros j Hj. destruct (A2 j Hj) as (X & Y & Z). destruct (B2 j ltac:(lia)) as (U & V & W). rewrite U, V, W. auto. Qed.
Lemma extends_spans h h' : extends h h' -> same_spans h h'.
Proof. intros [A B]. split; [exact A|]. intros j Hj. unfold h_string, h_start, h_stop. rewrite B by exact Hj. auto. Qed.
Lemma extends_nd h h' j : extends h h' -> (j < length h)%nat -> nd h' j = nd h j.
Proof. intros [_ H]. apply H. Qed.

Lemma ordered_le sp : forall a b, ordered a sp b -> a <= b.
Proof. induction sp as [|[x y] r IH]; intros a b; cbn; [auto|]. intros (H1 & H2 & H3). specialize (IH _ _ H3). lia. Qed.

Section Split.
Variables (h0 : heap) (i : nat) (d : option pystr).
Hypothesis Hi : (i < length h0)%nat.
Hypothesis Hf : fwf (n_f (nd h0 i)).
Let A := h_start h0 i.
Let B := h_stop h0 i.

Definition piece_node (a b : Z) : node := Nd (FI (h_string h0 i) a b d (f_vf (n_f (nd h0 i)))) None [].
Lemma split_clone_eq h a b : extends h0 h -> A <= a <= b -> b <= B ->
  split_clone i d (a, b) h = if wide (a, b) then (h ++ [piece_node a b], Ok [length h]) else (h, Ok []).
Proof.
  intros He Ha Hb. unfold split_clone, wide. cbn [fst snd]. destruct (Z.eqb_spec a b) as [E|E]; destruct (Z.ltb_spec a b) as [L|L]; try lia; [reflexivity|].
  unfold clone_of, depth_fuel. rewrite clone_false. cbn [obind]. rewrite (extends_nd h0 h i He Hi). destruct Hf as (F1 & F2).
  unfold A, B, h_start, h_stop in *. rewrite clone_f_in; cbn [odflt]; [reflexivity|split; assumption|lia|lia].
Qed.
Lemma whole_clone_eq h : extends h0 h -> clone_of i None None (Some d) false h = (h ++ [piece_node A B], Ok (length h)).
Proof.
  intros He. unfold clone_of, depth_fuel. rewrite clone_false. rewrite (extends_nd h0 h i He Hi). destruct Hf as (F1 & F2). rewrite clone_f_in; cbn [odflt]; [reflexivity|split; assumption|lia|lia].
Qed.

(** the result from a state of the loop on *)
Definition first_span (br : retention) (prior : option (Z * Z)) (x : Z * Z) : Z * Z :=
  match prior with
  | None => match br with RLeading => (A, A) | RNone | RAll => (A, fst x) | RTrailing => (A, snd x) end
  | Some p => match br with RNone | RAll => (snd p, fst x) | RLeading => (fst p, fst x) | RTrailing => (snd p, snd x) end
  end.
Definition marked (l : list (Z * Z)) : list (bool * (Z * Z)) := map piece (filter wide l).
Fixpoint rest_of (br : retention) (zero : bool) (prior : option (Z * Z)) (sp : list (Z * Z)) : list (bool * (Z * Z)) :=
  match sp with
  | [] => match prior with
          | None => if zero then [(false, (A, B))] else []
          | Some p => match br with RTrailing => [] | RNone | RAll => marked [(snd p, B)] | RLeading => marked [(fst p, B)] end
          end
  | x :: r => marked [first_span br prior x] ++ (match br with RAll => if wide x then [(true, x)] else [] | _ => [] end) ++ rest_of br zero (Some x) r
  end.
Lemma rest_of_prior br zero p sp : rest_of br zero (Some p) sp = match br with
  | RNone => marked (gaps (snd p) sp B)
  | RAll => filter (fun x => wide (snd x)) (cut_all (snd p) sp B)
  | RLeading => marked (from_to (fst p :: map fst sp ++ [B]))
  | RTrailing => marked (from_to (snd p :: map snd sp))
  end.
Proof.
  revert p. induction sp as [|[a b] r IH]; intros [pa pb].
  - cbn. unfold marked. cbn [filter fst snd]. destruct br; try reflexivity. unfold wide at 1 2. cbn [fst snd filter]. destruct (pb <? B); reflexivity.
  - cbn [rest_of first_span fst snd]. rewrite IH. destruct br; cbn [gaps cut_all map app]; unfold marked.
    + cbn [filter fst snd]. destruct (wide (pb, a)); reflexivity.
    + destruct r as [|[a2 b2] r]; cbn [map app from_to filter fst snd]; destruct (wide (pa, a)); reflexivity.
    + destruct r as [|[a2 b2] r]; cbn [map app from_to filter fst snd]; destruct (wide (pb, b)); reflexivity.
    + cbn [filter fst snd]. destruct (wide (pb, a)), (wide (a, b)); reflexivity.
Qed.
Lemma rest_of_split br zero sp : rest_of br zero None sp = split_result br zero A B sp.
Proof.
  destruct sp as [|[a b] r]; [reflexivity|]. cbn [rest_of split_result]. rewrite rest_of_prior. destruct br; cbn [gaps cut_all map app first_span fst snd]; unfold marked.
  - cbn [filter]. destruct (wide (A, a)); reflexivity.
  - replace (wide (A, A)) with false by (unfold wide; cbn; rewrite Z.ltb_irrefl; reflexivity). cbn [filter]. replace (wide (A, A)) with false by (unfold wide; cbn; rewrite Z.ltb_irrefl; reflexivity). reflexivity.
  - cbn [filter from_to]. destruct (wide (A, b)); reflexivity.
  - cbn [filter fst snd]. destruct (wide (A, a)), (wide (a, b)); reflexivity.
Qed.

(** the pieces found so far *)
Definition good (alien : nat -> Prop) (h : heap) (res : list (bool * (Z * Z))) (rv : list nat) : Prop :=
  Forall2 (fun x j => is_piece h0 i d h x j /\ (j < length h)%nat /\ (fst x = false -> alien j)) res rv.
Lemma good_keep (al al' : nat -> Prop) h h' res rv : (forall j, al j -> al' j) -> (forall j, (j < length h)%nat -> al j -> nd h' j = nd h j) -> same_spans h h' -> good al h res rv -> good al' h' res rv.
Proof.
  intros S K [L W] G. unfold good. induction G as [|x j res rv (H1 & H2 & H3) G IH]; [constructor|]. constructor; [|exact IH].
  split; [|split; [lia|intros E; exact (S j (H3 E))]]. unfold is_piece in *. destruct (fst x) eqn:E.
  - destruct (W j H2) as (_ & -> & ->). exact H1.
  - rewrite (K j H2 (H3 eq_refl)). exact H1.
Qed.
Lemma good_pieces al h res rv : good al h res rv -> Forall2 (is_piece h0 i d h) res rv.
Proof. intros G. induction G as [|x j res rv H G IH]; constructor; [apply H|exact IH]. Qed.

Definition prior_is (h : heap) (prior : option nat) (p : option (Z * Z)) : Prop :=
  match prior, p with
  | None, None => True
  | Some j, Some x => (j < length h)%nat /\ (h_start h j, h_stop h j) = x
  | _, _ => False
  end.
Lemma prior_keep h h' pr p : same_spans h h' -> prior_is h pr p -> prior_is h' pr p.
Proof. intros [L W]. destruct pr as [j|], p as [x|]; cbn; auto. intros [H1 H2]. split; [lia|]. destruct (W j H1) as (_ & -> & ->). exact H2. Qed.
Definition floor_of (p : option (Z * Z)) : Z := match p with None => A | Some x => snd x end.
Definition prior_ok (p : option (Z * Z)) : Prop := match p with None => True | Some x => A <= fst x /\ fst x <= snd x end.
Definition left (limit : option Z) (count : Z) (sp : list (Z * Z)) : list (Z * Z) :=
  match limit with None => sp | Some n => firstn (Z.to_nat (n - count)) sp end.

Lemma piece_good (al : nat -> Prop) h res rv a b : extends h0 h -> A <= a <= b -> b <= B -> good al h res rv -> (forall j, (j < length h0)%nat -> al j) ->
  forall h1 l, split_clone i d (a, b) h = (h1, Ok l) -> extends h h1 /\ good (fun j => al j \/ (length h <= j < length h1)%nat) h1 (res ++ marked [(a, b)]) (rv ++ l).
Proof.
  intros He Ha Hb G Hal h1 l E. rewrite split_clone_eq in E by assumption. unfold marked. cbn [filter]. destruct (wide (a, b)).
  - injection E as <- <-. split; [apply extends_new|]. apply Forall2_app.
    + refine (good_keep al _ h _ res rv _ _ _ G); [tauto| |apply extends_spans, extends_new]. intros j Hj _. exact (extends_nd _ _ _ (extends_new h _) Hj).
    + constructor; [|constructor]. rewrite app_length. cbn [length]. split; [|split; [lia|intros _; right; lia]]. unfold is_piece, piece. cbn [fst snd]. split; [destruct He; lia|]. rewrite nd_app, Nat.eqb_refl. reflexivity.
  - injection E as <- <-. split; [apply extends_refl|]. cbn [map]. rewrite !app_nil_r. refine (good_keep al _ h h res rv _ _ _ G); auto using same_spans_refl.
Qed.
Lemma split_clone_ok h a b : extends h0 h -> A <= a <= b -> b <= B -> exists h1 l, split_clone i d (a, b) h = (h1, Ok l).
Proof. intros He Ha Hb. rewrite split_clone_eq by assumption. destruct (wide (a, b)); eauto. Qed.


Lemma split_end_ok br zero (al : nat -> Prop) h prior p rv res : extends h0 h -> (forall j, (j < length h0)%nat -> al j) -> prior_is h prior p -> prior_ok p -> floor_of p <= B ->
  good al h res rv -> (p = None -> rv = [] /\ res = []) ->
  exists h' l, drain (split_end br zero d i prior rv) h = (h', (l, None)) /\ extends h0 h' /\ Forall2 (is_piece h0 i d h') (res ++ rest_of br zero p []) l.
Proof.
  intros He Hal Hp Hok Hfl G Hn. destruct prior as [j|], p as [[pa pb]|]; try contradiction Hp.
  - destruct Hp as [Hj Ej]. cbn in Hok, Hfl. cbn [split_end rest_of fst snd].
    assert (HB : h_stop h i = B) by (unfold B, h_stop; rewrite (extends_nd h0 h i He Hi); reflexivity).
    assert (T : forall a, A <= a <= B -> exists h' l, drain (act (fun h => split_clone i d (a, h_stop h i) h) (fun l => of_list (rv ++ l))) h = (h', (l, None)) /\ extends h0 h' /\ Forall2 (is_piece h0 i d h') (res ++ marked [(a, B)]) l).
    { intros a Ha. destruct (split_clone_ok h a B He ltac:(lia) ltac:(lia)) as (h1 & l & E). destruct (piece_good al h res rv a B He ltac:(lia) ltac:(lia) G Hal h1 l E) as [E1 G1].
      exists h1, (rv ++ l). rewrite drain_act, HB, E, drain_of_list. split; [reflexivity|]. split; [exact (extends_trans _ _ _ He E1)|exact (good_pieces _ _ _ _ G1)]. }
    injection Ej as Ea Eb. destruct br.
    + destruct (T pb ltac:(lia)) as (h' & l & X & Y & Z). exists h', l. rewrite drain_act in *. rewrite Eb. auto.
    + destruct (T pa ltac:(lia)) as (h' & l & X & Y & Z). exists h', l. rewrite drain_act in *. rewrite Ea. auto.
    + exists h, rv. rewrite drain_of_list, app_nil_r. split; [reflexivity|]. split; [exact He|exact (good_pieces _ _ _ _ G)].
    + destruct (T pb ltac:(lia)) as (h' & l & X & Y & Z). exists h', l. rewrite drain_act in *. rewrite Eb. auto.
  - destruct (Hn eq_refl) as [-> ->]. cbn [split_end rest_of app length Nat.eqb]. rewrite andb_true_r. destruct zero.
    + rewrite drain_act, whole_clone_eq by exact He. rewrite drain_of_list. exists (h ++ [piece_node A B]), [length h]. split; [reflexivity|]. split; [exact (extends_trans _ _ _ He (extends_new _ _))|].
      constructor; [|constructor]. unfold is_piece. cbn [fst snd]. split; [destruct He; lia|]. rewrite nd_app, Nat.eqb_refl. reflexivity.
    + rewrite drain_of_list. exists h, []. auto.
Qed.

Lemma split_loop_ok limit br zero : forall s (al : nat -> Prop) h sp count prior p rv res,
  extends h0 h -> (forall j, (j < length h0)%nat -> al j) -> bounds al s h sp -> ordered (floor_of p) sp B -> prior_is h prior p -> prior_ok p ->
  good al h res rv -> (p = None -> rv = [] /\ res = []) ->
  exists h' l, drain (itor_split_loop limit br zero d i count prior rv s) h = (h', (l, None)) /\ extends h0 h' /\
    Forall2 (is_piece h0 i d h') (res ++ rest_of br zero p (left limit count sp)) l.
Proof.
  induction s as [|e|cur k IH|g k IH]; intros al h sp count prior p rv res He Hal Hb Ho Hp Hok G Hn.
  - cbn in Hb. subst sp. replace (left limit count []) with (@nil (Z * Z)) by (unfold left; destruct limit; [rewrite firstn_nil|]; reflexivity).
    cbn [itor_split_loop]. apply (split_end_ok br zero al h prior p rv res); try assumption.
  - contradiction Hb.
  - cbn [itor_split_loop]. destruct (under_limit limit count) eqn:U.
    2: { replace (left limit count sp) with (@nil (Z * Z)); [apply (split_end_ok br zero al h prior p rv res); try assumption; exact (ordered_le _ _ _ Ho)|].
      unfold left. unfold under_limit in U. destruct limit as [n|]; [|discriminate U]. apply Z.ltb_ge in U. replace (Z.to_nat (n - count)) with O by lia. reflexivity. }
    cbn [bounds] in Hb. destruct sp as [|[a b] r]; [contradiction|]. destruct Hb as (Hc & Ec & Hk). cbn [ordered] in Ho. destruct Ho as (O1 & O2 & O3). pose proof (ordered_le _ _ _ O3) as O4.
    assert (EL : left limit count ((a, b) :: r) = (a, b) :: left limit (count + 1) r).
    { unfold left. unfold under_limit in U. destruct limit as [n|]; [|reflexivity]. apply Z.ltb_lt in U. replace (Z.to_nat (n - count)) with (S (Z.to_nat (n - (count + 1)))) by lia. reflexivity. }
    rewrite EL. cbn [rest_of].
    assert (Ei : h_start h i = A) by (unfold A, h_start; rewrite (extends_nd h0 h i He Hi); reflexivity).
    injection Ec as Ea Eb. assert (HA0 : 0 <= A) by (destruct Hf; unfold A, h_start; lia).
    assert (S1 : exists h1 l1, split_clone i d (split_piece br h i prior cur) h = (h1, Ok l1) /\ extends h h1 /\ good (fun j => al j \/ (length h <= j < length h1)%nat) h1 (res ++ marked [first_span br p (a, b)]) (rv ++ l1)).
    { assert (T : forall x y, A <= x <= y -> y <= B -> (x, y) = first_span br p (a, b) -> split_piece br h i prior cur = (x, y) \/ (split_piece br h i prior cur = (0, 0) /\ x = y) -> exists h1 l1, split_clone i d (split_piece br h i prior cur) h = (h1, Ok l1) /\ extends h h1 /\ good (fun j => al j \/ (length h <= j < length h1)%nat) h1 (res ++ marked [first_span br p (a, b)]) (rv ++ l1)).
      { intros x y Hx Hy Ef Es. rewrite <- Ef. destruct (split_clone_ok h x y He Hx Hy) as (h1 & l1 & E). pose proof (piece_good al h res rv x y He Hx Hy G Hal h1 l1 E) as Q. exists h1, l1. destruct Es as [->|[-> ->]]; [auto|]. split; [|exact Q].
        rewrite split_clone_eq in E by (try assumption; lia). unfold wide in E. cbn [fst snd] in E. rewrite Z.ltb_irrefl in E. exact E. }
      destruct prior as [j|], p as [[pa pb]|]; try contradiction Hp.
      - destruct Hp as [Hj Ej]. injection Ej as Ja Jb. cbn [floor_of snd prior_ok fst] in *.
        destruct br; cbn [first_span split_piece fst snd] in *; rewrite ?Ja, ?Jb, ?Ea, ?Eb in *; refine (T _ _ _ _ eq_refl _); auto; lia.
      - cbn [floor_of prior_ok] in *.
        destruct br; cbn [first_span split_piece fst snd] in *; rewrite ?Ei, ?Ea, ?Eb in *; refine (T _ _ _ _ eq_refl _); auto; lia. }
    destruct S1 as (h1 & l1 & E1 & X1 & G1). specialize (Hk h1 X1). destruct (extends_spans _ _ X1) as [XL XS]. destruct (XS cur Hc) as (_ & XA & XB).
    rewrite drain_act, E1. cbv beta iota delta [obind fst snd]. rewrite XA, XB, Ea, Eb.
    set (extra := match br with RAll => if a <? b then [cur] else [] | _ => [] end).
    set (more := match br with RAll => if wide (a, b) then [(true, (a, b))] else [] | _ => [] end).
    destruct (IH (fun j => al j \/ (length h <= j < length h1)%nat) h1 r (count + 1) (Some cur) (Some (a, b)) (rv ++ l1 ++ extra) (res ++ marked [first_span br p (a, b)] ++ more)) as (h' & l & D & X & P).
    + exact (extends_trans _ _ _ He X1).
    + intros j Hj. left. auto.
    + exact Hk.
    + exact O3.
    + cbn. split; [lia|]. rewrite XA, XB, Ea, Eb. reflexivity.
    + cbn. split; [|exact O2]. unfold floor_of, prior_ok in *. destruct p as [[pa pb]|]; cbn in *; lia.
    + rewrite !app_assoc. apply Forall2_app; [exact G1|]. unfold extra, more, wide. cbn [fst snd]. destruct br; try constructor. destruct (a <? b); constructor; [|constructor]. split; [|split; [lia|discriminate]]. unfold is_piece. cbn [fst snd]. rewrite XA, XB, Ea, Eb. reflexivity.
    + discriminate.
    + exists h', l. split; [exact D|]. split; [exact X|]. rewrite <- !app_assoc in P. exact P.
  - cbn [itor_split_loop drain]. cbn [bounds] in Hb. destruct Hb as (B1 & B2 & B3 & B4).
    assert (SS : same_spans h (g h)) by (split; assumption).
    apply (IH h al (g h) sp count prior p rv res); try assumption.
    + split; [destruct He; lia|]. intros j Hj. rewrite B2 by (apply Hal; exact Hj). exact (extends_nd _ _ _ He Hj).
    + exact (prior_keep _ _ _ _ SS Hp).
    + refine (good_keep al al h (g h) res rv _ _ SS G); auto.
Qed.
End Split.

Theorem split_total limit br zero d s h i sp : (i < length h)%nat -> fwf (n_f (nd h i)) -> bounds (fun j => (j < length h)%nat) s h sp -> ordered (h_start h i) sp (h_stop h i) ->
  exists h' l, drain (split_transform limit br zero d s i) h = (h', (l, None)) /\ extends h h' /\
    Forall2 (is_piece h i d h') (split_result br zero (h_start h i) (h_stop h i) (used limit sp)) l.
Proof.
  intros Hi Hf Hb Ho. unfold split_transform. destruct (match limit with Some n => n =? 0 | None => false end && zero) eqn:E.
  - apply andb_true_iff in E. destruct E as [E ->]. destruct limit as [n|]; [|discriminate E]. apply Z.eqb_eq in E. subst n. cbn [used Z.to_nat firstn split_result].
    rewrite drain_act, (whole_clone_eq h i d Hi Hf h (extends_refl h)). cbn [drain]. exists (h ++ [piece_node h i d (h_start h i) (h_stop h i)]), [length h]. split; [reflexivity|]. split; [apply extends_new|].
    constructor; [|constructor]. unfold is_piece. cbn [fst snd]. split; [lia|]. rewrite nd_app, Nat.eqb_refl. reflexivity.
  - destruct (split_loop_ok h i d Hi Hf limit br zero s (fun j => (j < length h)%nat) h sp 0 None None [] []) as (h' & l & D & X & P); auto; try exact I; try apply extends_refl; [constructor|].
    exists h', l. split; [exact D|]. split; [exact X|]. cbn [app] in P. rewrite rest_of_split in P. unfold left, used in *. destruct limit; [rewrite Z.sub_0_r in P|]; exact P.
Qed.

(** -- tiling ----------------------------------------------------------------- *)
Lemma tiles_app l r : forall A B C, tiles_from A l B -> tiles_from B r C -> tiles_from A (l ++ r) C.
Proof. induction l as [|[a b] l IH]; intros A B C H1 H2; [cbn in H1; subst; exact H2|]. cbn in *. destruct H1 as (X & Y & Z). split; [exact X|]. split; [exact Y|]. exact (IH b B C Z H2). Qed.
Lemma tiles_one a b : a <= b -> tiles_from a (filter wide [(a, b)]) b.
Proof. intros H. cbn [filter]. unfold wide. cbn [fst snd]. destruct (Z.ltb_spec a b); cbn; [auto|lia]. Qed.
Lemma tiles_cons a b r B : a <= b -> tiles_from b (filter wide r) B -> tiles_from a (filter wide ((a, b) :: r)) B.
Proof. intros H T. exact (tiles_app (filter wide [(a, b)]) (filter wide r) a b B (tiles_one a b H) T) || (change (filter wide ((a, b) :: r)) with (filter wide ([(a, b)] ++ r)); rewrite filter_app; exact (tiles_app _ _ a b B (tiles_one a b H) T)). Qed.
Lemma filter_snd_wide (l : list (bool * (Z * Z))) : map snd (filter (fun x => wide (snd x)) l) = filter wide (map snd l).
Proof. induction l as [|x l IH]; [reflexivity|]. cbn. destruct (wide (snd x)); cbn; rewrite IH; reflexivity. Qed.
Lemma all_tiles sp : forall A B, ordered A sp B -> tiles_from A (filter wide (map snd (cut_all A sp B))) B.
Proof.
  induction sp as [|[a b] r IH]; intros A B H; cbn [ordered] in H; cbn [cut_all map snd].
  - apply tiles_one. exact H.
  - destruct H as (H1 & H2 & H3). apply tiles_cons; [exact H1|]. apply tiles_cons; [exact H2|]. apply IH. exact H3.
Qed.
Lemma leading_tiles sp : forall A B p, ordered A sp B -> p <= A -> tiles_from p (filter wide (from_to (p :: map fst sp ++ [B]))) B.
Proof.
  induction sp as [|[a b] r IH]; intros A B p H Hp; cbn [ordered] in H.
  - cbn [map app from_to]. apply tiles_one. lia.
  - destruct H as (H1 & H2 & H3). change (from_to (p :: map fst ((a, b) :: r) ++ [B])) with ((p, a) :: from_to (a :: map fst r ++ [B])). apply tiles_cons; [lia|]. apply (IH b); assumption.
Qed.
Lemma trailing_tiles sp : forall A B, ordered A sp B -> tiles_from A (filter wide (from_to (A :: map snd sp))) (last (map snd sp) A).
Proof.
  induction sp as [|[a b] r IH]; intros A B H; cbn [ordered] in H; [reflexivity|].
  destruct H as (H1 & H2 & H3). change (from_to (A :: map snd ((a, b) :: r))) with ((A, b) :: from_to (b :: map snd r)).
  replace (last (map snd ((a, b) :: r)) A) with (last (map snd r) b). 2: { cbn [map snd]. destruct (map snd r) as [|x l]; [reflexivity|]. cbn [last]. clear. revert x. induction l as [|y l IH]; intros x; [reflexivity|]. cbn [last] in *. apply IH. }
  apply tiles_cons; [lia|]. exact (IH b B H3).
Qed.
Lemma ordered_used limit sp : forall A B, ordered A sp B -> ordered A (used limit sp) B.
Proof.
  destruct limit as [n|]; [|auto]. cbn [used]. generalize (Z.to_nat n). clear n. induction sp as [|[a b] r IH]; intros n A B H; [rewrite firstn_nil; exact H|].
  destruct n; cbn [firstn]; [cbn in *; destruct H as (H1 & H2 & H3); pose proof (ordered_le r _ _ H3); lia|]. cbn in *. destruct H as (H1 & H2 & H3). auto.
Qed.
Lemma map_snd_piece l : map snd (map piece l) = l.
Proof. rewrite map_map. apply map_id. Qed.
Theorem split_all_tiles zero A B sp : sp <> [] -> ordered A sp B -> tiles_from A (map snd (split_result RAll zero A B sp)) B.
Proof. intros N H. destruct sp as [|x r]; [congruence|]. unfold split_result. rewrite filter_snd_wide. apply all_tiles. exact H. Qed.
Theorem split_leading_tiles zero A B a b sp : ordered A ((a, b) :: sp) B -> tiles_from a (map snd (split_result RLeading zero A B ((a, b) :: sp))) B.
Proof. intros (H1 & H2 & H3). unfold split_result. rewrite map_snd_piece. cbn [map app fst]. exact (leading_tiles sp b B a H3 H2). Qed.
Theorem split_trailing_tiles zero A B sp : sp <> [] -> ordered A sp B -> tiles_from A (map snd (split_result RTrailing zero A B sp)) (last (map snd sp) A).
Proof. intros N H. destruct sp as [|x r]; [congruence|]. unfold split_result. rewrite map_snd_piece. exact (trailing_tiles _ A B H). Qed.
(** gaps: exactly the uncovered positions, in maximal segments *)
Lemma gaps_ge sp : forall A B x, ordered A sp B -> In x (gaps A sp B) -> A <= fst x.
Proof.
  induction sp as [|[a b] r IH]; intros A B x H; cbn in *; [intros [<-|[]]; cbn; lia|]. destruct H as (H1 & H2 & H3). intros [<-|Hx]; [cbn; lia|]. specialize (IH b B x H3 Hx). lia.
Qed.
Lemma gaps_sorted sp : forall A B, ordered A sp B -> StronglySorted (fun x y => snd x <= fst y) (gaps A sp B).
Proof.
  induction sp as [|[a b] r IH]; intros A B H; cbn in *; [repeat constructor|]. destruct H as (H1 & H2 & H3). constructor; [apply IH; exact H3|]. apply Forall_forall. intros x Hx. cbn. pose proof (gaps_ge r b B x H3 Hx). lia.
Qed.
Lemma gaps_cover sp : forall A B k, ordered A sp B -> A <= k < B -> ((exists x, In x (gaps A sp B) /\ fst x <= k < snd x) <-> ~ covered sp k).
Proof.
  induction sp as [|[a b] r IH]; intros A B k H Hk; cbn [ordered gaps] in *.
  - split; [intros _ (n & [] & _)|]. intros _. exists (A, B). split; [left; reflexivity|exact Hk].
  - destruct H as (H1 & H2 & H3). pose proof (ordered_le r _ _ H3) as H4. split.
    + intros (x & [<-|Hx] & Hkx) (n & Hn & Hkn).
      * cbn in Hkx. destruct Hn as [<-|Hn]; [cbn in Hkn; lia|]. enough (b <= fst n) by lia.
        clear - H3 Hn. revert b H3. induction r as [|[c d0] r IH]; intros b H3; [destruct Hn|]. cbn in H3. destruct H3 as (X & Y & Z). destruct Hn as [<-|Hn]; [cbn; lia|]. specialize (IH Hn d0 Z). lia.
      * pose proof (gaps_ge r b B x H3 Hx) as G. destruct Hn as [<-|Hn]; [cbn in Hkn; lia|]. assert (Hkb : b <= k < B) by lia. apply (proj1 (IH b B k H3 Hkb)); [exists x; auto|exists n; auto].
    + intros Hc. destruct (Z.lt_ge_cases k a) as [L|L]; [exists (A, a); split; [left; reflexivity|cbn; lia]|].
      destruct (Z.lt_ge_cases k b) as [L2|L2]; [exfalso; apply Hc; exists (a, b); split; [left; reflexivity|cbn; lia]|].
      assert (Hc2 : ~ covered r k) by (intros (n & Hn & Hkn); apply Hc; exists n; split; [right; exact Hn|exact Hkn]).
      assert (Hkb : b <= k < B) by lia. destruct (proj2 (IH b B k H3 Hkb) Hc2) as (x & Hx & Hkx). exists x. split; [right; exact Hx|exact Hkx].
Qed.
Lemma gaps_ends sp : forall A B, Forall (fun x => (fst x = A \/ In (fst x) (map snd sp)) /\ (snd x = B \/ In (snd x) (map fst sp))) (gaps A sp B).
Proof.
  induction sp as [|[a b] r IH]; intros A B; cbn; [constructor; [cbn; auto|constructor]|]. constructor; [cbn; auto|]. eapply Forall_impl; [|apply (IH b B)]. cbn. intros x [[H1|H1] [H2|H2]]; auto.
Qed.
(** the maximal nonempty segments of A..B that no span of sp covers, in order *)
Theorem gaps_maximal A B sp : ordered A sp B ->
  let g := filter wide (gaps A sp B) in
  StronglySorted (fun x y => snd x <= fst y) g /\ Forall (fun x => A <= fst x < snd x /\ snd x <= B) g /\
  (forall k, A <= k < B -> ((exists x, In x g /\ fst x <= k < snd x) <-> ~ covered sp k)) /\
  Forall (fun x => (fst x = A \/ In (fst x) (map snd sp)) /\ (snd x = B \/ In (snd x) (map fst sp))) g.
Proof.
  intros H g. assert (Hin : forall x, In x g -> In x (gaps A sp B) /\ fst x < snd x).
  { intros x Hx. apply filter_In in Hx. destruct Hx as [Hx Hw]. split; [exact Hx|]. apply Z.ltb_lt. exact Hw. }
  split; [apply SS_filter; exact (gaps_sorted sp A B H)|]. split; [|split].
  - apply Forall_forall. intros x Hx. destruct (Hin x Hx) as [G W]. split; [split; [exact (gaps_ge sp A B x H G)|exact W]|].
    pose proof (gaps_ends sp A B) as E. rewrite Forall_forall in E. destruct (E x G) as [_ [->|E2]]; [lia|]. apply in_map_iff in E2. destruct E2 as ([a b] & <- & Hn). cbn.
    clear - H Hn. revert A H. induction sp as [|[c d0] r IH]; intros A H; [destruct Hn|]. cbn in H. destruct H as (X & Y & Z). destruct Hn as [[= -> ->]|Hn]; [|exact (IH Hn d0 Z)]. pose proof (ordered_le r _ _ Z). lia.
  - intros k Hk. rewrite <- (gaps_cover sp A B k H Hk). split; intros (x & Hx & Hkx); exists x; (split; [|exact Hkx]); [exact (proj1 (Hin x Hx))|]. apply filter_In. split; [exact Hx|]. apply Z.ltb_lt. lia.
  - apply Forall_forall. intros x Hx. pose proof (gaps_ends sp A B) as E. rewrite Forall_forall in E. exact (E x (proj1 (Hin x Hx))).
Qed.
(** ALL without its boundaries is NONE *)
Lemma none_of_all zero A B sp : split_result RNone zero A B sp = filter (fun x => negb (fst x)) (split_result RAll zero A B sp).
Proof.
  destruct sp as [|x r]; [cbn; destruct zero; reflexivity|]. unfold split_result. generalize (x :: r). clear. intros sp. revert A.
  induction sp as [|[a b] r IH]; intros A; cbn [gaps cut_all filter snd]; [destruct (wide (A, B)); reflexivity|].
  destruct (wide (A, a)), (wide (a, b)); cbn [map filter negb fst]; rewrite IH; reflexivity.
Qed.
(** texts of spans that tile A..B make up the text from A to B *)
Lemma tiles_text (s : pystr) l : forall A B, 0 <= A -> B <= zlen s -> tiles_from A l B -> concat (map (fun x => zsub s (fst x) (snd x)) l) = zsub s A B.
Proof.
  induction l as [|[a b] r IH]; intros A B HA HB H; cbn [tiles_from map concat fst snd] in *.
  - subst. unfold zsub. rewrite Z.sub_diag. reflexivity.
  - destruct H as (-> & H1 & H2). rewrite (IH b B) by (try assumption; lia). assert (b <= B). { clear - H2. revert b H2. induction r as [|[c d0] r IH]; intros b H; cbn in H; [lia|]. destruct H as (X & Y & Z). specialize (IH d0 Z). lia. }
    apply zsub_app_split; lia.
Qed.
