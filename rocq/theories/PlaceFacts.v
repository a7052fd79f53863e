(** Proofs for C132: positions of the pieces. *)
From Verif Require Export ItoStrFacts5 SpecPlace PyChar.

Lemma cut_zsub i j : fwf i -> within j i -> cut_off (zsub (f_str i) (f_start i) (f_start j)) j (zsub (f_str i) (f_stop j) (f_stop i)) i.
Proof.
  intros H (E & Hs & He). pose proof H as [H1 H2]. assert (Hj : fwf j) by (unfold fwf; rewrite E; lia).
  unfold cut_off. rewrite !zsub_len by lia. rewrite (ito_str_zsub _ H), (ito_str_zsub _ Hj), E.
  split; [reflexivity|]. split; [lia|]. split; [lia|].
  rewrite !zsub_app_split by lia. reflexivity.
Qed.

(** the text fixes the piece once one end is known *)
Lemma cut_left i j : fwf i -> within j i -> f_stop j = f_stop i -> exists a, cut_off a j [] i /\ zlen a = ito_len i - ito_len j.
Proof.
  intros H W E. pose proof (cut_zsub i j H W) as C. rewrite E in C. rewrite (zsub_nil _ (f_stop i) (f_stop i)) in C by lia.
  eexists. split; [exact C|]. destruct W as (?&?&?), H. rewrite zsub_len by lia. unfold ito_len. lia.
Qed.
Lemma cut_right i j : fwf i -> within j i -> f_start j = f_start i -> exists b, cut_off [] j b i /\ zlen b = ito_len i - ito_len j.
Proof.
  intros H W E. pose proof (cut_zsub i j H W) as C. rewrite E in C. rewrite (zsub_nil _ (f_start i) (f_start i)) in C by lia.
  eexists. split; [exact C|]. destruct W as (?&?&?), H. rewrite zsub_len by lia. unfold ito_len. lia.
Qed.

Lemma tail_place i x y : fwf i -> 0 <= x <= y -> y <= ito_len i ->
  let j := deref i (getitem_tail i (f_start i + x, f_start i + y)) in f_start j = f_start i + x /\ f_stop j = f_start i + y.
Proof.
  intros H Hx Hy. unfold ito_len in Hy. cbv zeta. unfold getitem_tail; cbn [fst snd].
  destruct (Z.eqb_spec (f_start i) (f_start i + x)), (Z.eqb_spec (f_stop i) (f_start i + y)); cbn [andb deref];
    [split; congruence|..];
    (destruct (clone_f_seg i (f_start i + x) (f_start i + y) None H) as (Ec&_&_&_); [lia|lia|]; rewrite Ec; split; reflexivity).
Qed.

Lemma from_indices_clipped n a b : 0 <= n ->
  from_indices n a b = (clipped n 0 a, Z.max (clipped n 0 a) (clipped n n b)).
Proof.
  intros H. unfold from_indices, clipped. destruct a as [a|], b as [b|];
  repeat match goal with |- context [?x <=? ?y] => destruct (Z.leb_spec x y) | |- context [?x <? ?y] => destruct (Z.ltb_spec x y) end; f_equal; lia.
Qed.

Lemma slice_place i a b r : fwf i -> getitem_slice i a b None = Ok r ->
  exists x y, cut_off x (deref i r) y i /\
    zlen x = clipped (ito_len i) 0 a /\ zlen y = ito_len i - Z.max (clipped (ito_len i) 0 a) (clipped (ito_len i) (ito_len i) b).
Proof.
  intros H Hr. pose proof (getitem_slice_facts i a b H) as (r' & Er & W & _). rewrite Er in Hr. injection Hr as ->.
  pose proof (window_ok i a b H) as Hw. unfold window in Hw. unfold getitem_slice in Er. rewrite Hw in Er. cbn [bind] in Er. apply (f_equal (fun q => match q with Ok v => v | Err _ => RSelf end)) in Er. cbv beta iota in Er.
  pose proof (from_indices_range (ito_len i) a b (ito_len_nonneg i H)) as Hg.
  pose proof (from_indices_clipped (ito_len i) a b (ito_len_nonneg i H)) as Hc.
  destruct (tail_place i (fst (from_indices (ito_len i) a b)) (snd (from_indices (ito_len i) a b)) H) as [P Q]; [lia|lia|].
  rewrite Er in P, Q. rewrite Hc in P, Q, Hg. cbn [fst snd] in P, Q, Hg.
  do 2 eexists. split; [apply cut_zsub; [exact H|exact W]|]. destruct H as [H1 H2]. destruct W as (?&?&?).
  rewrite !zsub_len by lia. unfold ito_len in *. lia.
Qed.

Lemma int_place i k r : fwf i -> 0 <= k < ito_len i -> getitem_int i k = Ok r ->
  exists x y, cut_off x (deref i r) y i /\ zlen x = k /\ zlen y = ito_len i - k - 1.
Proof.
  intros H Hk Er. destruct (getitem_int_nonneg i k H Hk) as (r' & c & Er' & W & _). rewrite Er' in Er. injection Er as ->.
  unfold getitem_int in Er'. destruct (Z.leb_spec 0 k); [|lia]. destruct (Z.ltb_spec k (ito_len i)); [|lia]. cbn [andb] in Er'.
  pose proof (window_ok i (Some k) (Some (k + 1)) H) as Hw. unfold window in Hw. rewrite Hw in Er'. cbn [bind] in Er'.
  rewrite from_indices_id in Er' by lia. cbn [fst snd] in Er'. injection Er' as Er'.
  destruct (tail_place i k (k + 1) H) as [P Q]; [lia|lia|]. rewrite Er' in P, Q.
  do 2 eexists. split; [apply cut_zsub; [exact H|exact W]|]. destruct H as [Hs1 Hs2]. destruct W as (?&?&?).
  rewrite !zsub_len by lia. unfold ito_len in *. lia.
Qed.

(** strip *)
Lemma lstrip_stop isspace i chars : fwf i -> f_stop (deref i (str_lstrip isspace i chars)) = f_stop i.
Proof.
  intros H. pose proof H as [H1 H2]. unfold str_lstrip.
  destruct (up_while_spec i (eff_set isspace chars) (f_stop i) (f_c_in isspace i chars)
             (f_c_in_eff isspace i chars) H2 (Z.to_nat (f_stop i - f_start i)) (f_start i)) as [Hk Ht]; [lia|lia|].
  set (k := up_while _ _ _ _) in *. destruct (k =? f_start i); [reflexivity|]. cbn [deref].
  rewrite clone_f_dstop by exact H. destruct (clone_f_seg i k (f_stop i) None H) as (Ec&_); [lia|lia|]. rewrite Ec. reflexivity.
Qed.
Lemma rstrip_start isspace i chars : fwf i -> f_start (deref i (str_rstrip isspace i chars)) = f_start i.
Proof.
  intros H. pose proof H as [H1 H2]. unfold str_rstrip.
  destruct (down_while_spec i (eff_set isspace chars) (f_c_in isspace i chars)
             (f_c_in_eff isspace i chars) (Z.to_nat (f_stop i)) (f_stop i - 1)) as [Hk Ht]; [lia|lia|].
  set (k := down_while _ _ _) in *. destruct (k =? f_stop i - 1); [reflexivity|]. cbn [deref].
  rewrite clone_f_stop_clamp by (try exact H; lia).
  destruct (clone_f_seg i (f_start i) (Z.max (f_start i) (k + 1)) None H) as (Ec&_); [lia|lia|]. rewrite Ec. reflexivity.
Qed.

Lemma all_of_fb p s : all_of p s <-> forallb p s = true.
Proof. unfold all_of. rewrite forallb_forall. reflexivity. Qed.
Lemma take_while_all p s : all_of p (take_while p s).
Proof. induction s as [|c s IH]; cbn [take_while]; [intros ? []|]. destruct (p c) eqn:E; [|intros ? []]. intros x [<-|Hx]; [exact E|exact (IH x Hx)]. Qed.

Lemma lstrip_place isspace i chars : fwf i -> exists a, cut_off a (deref i (str_lstrip isspace i chars)) [] i /\
  all_of (eff_set isspace chars) a /\ begins_out (eff_set isspace chars) (ito_str (deref i (str_lstrip isspace i chars))).
Proof.
  intros H. destruct (str_lstrip_eff isspace i chars H) as [(W & Hf & Ht) _].
  destruct (cut_left i _ H W (lstrip_stop isspace i chars H)) as (a & C & L). exists a. split; [exact C|].
  destruct C as (_ & _ & _ & C). rewrite app_nil_r in C. rewrite Ht in *.
  set (p := eff_set isspace chars) in *. rewrite (drop_while_split p (ito_str i)) in C at 1.
  apply app_inv_tail in C. split; [rewrite <- C; apply take_while_all|].
  intros c r E. exact (drop_while_hd _ _ _ _ E).
Qed.
Lemma rstrip_place isspace i chars : fwf i -> exists b, cut_off [] (deref i (str_rstrip isspace i chars)) b i /\
  all_of (eff_set isspace chars) b /\ ends_out (eff_set isspace chars) (ito_str (deref i (str_rstrip isspace i chars))).
Proof.
  intros H. destruct (str_rstrip_eff isspace i chars H) as [(W & Hf & Ht) _].
  destruct (cut_right i _ H W (rstrip_start isspace i chars H)) as (b & C & L). exists b. split; [exact C|].
  destruct C as (_ & _ & _ & C). cbn [app] in C. rewrite Ht in *.
  set (p := eff_set isspace chars) in *. pose proof (drop_while_split p (rev (ito_str i))) as D.
  apply (f_equal (@rev Z)) in D. rewrite rev_involutive, rev_app_distr in D. rewrite D in C at 1.
  apply app_inv_head in C. split.
  - rewrite <- C. intros c Hc. apply in_rev in Hc. exact (take_while_all _ _ c Hc).
  - intros c r E. apply (f_equal (@rev Z)) in E. rewrite rev_involutive, rev_app_distr in E. exact (drop_while_hd _ _ _ _ E).
Qed.
Lemma cut_trans a j b i c k d : cut_off a j b i -> cut_off c k d j -> cut_off (a ++ c) k (d ++ b) i.
Proof.
  intros (E1 & S1 & T1 & X1) (E2 & S2 & T2 & X2). unfold cut_off. rewrite !zlen_app.
  split; [congruence|]. split; [lia|]. split; [lia|]. rewrite X1, X2, !app_assoc. reflexivity.
Qed.
Lemma begins_cut p k b j : cut_off [] k b j -> begins_out p (ito_str j) -> begins_out p (ito_str k).
Proof. intros (_ & _ & _ & X) B c r E. cbn [app] in X. rewrite E in X. exact (B c (r ++ b) X). Qed.
Lemma strip_place isspace i chars : fwf i -> exists a b, cut_off a (deref i (str_strip isspace i chars)) b i /\
  all_of (eff_set isspace chars) a /\ all_of (eff_set isspace chars) b /\
  begins_out (eff_set isspace chars) (ito_str (deref i (str_strip isspace i chars))) /\
  ends_out (eff_set isspace chars) (ito_str (deref i (str_strip isspace i chars))).
Proof.
  intros H. destruct (lstrip_place isspace i chars H) as (a & C & A & BO). destruct (str_lstrip_eff isspace i chars H) as [(W & Hf & _) _].
  unfold str_strip. destruct (str_lstrip isspace i chars) as [|j]; cbn [deref] in *.
  - destruct (rstrip_place isspace i chars H) as (b & D & B & N). exists a, b.
    split; [|split; [exact A|split; [exact B|split; [exact (begins_cut _ _ _ _ D BO)|exact N]]]]. pose proof (cut_trans _ _ _ _ _ _ _ C D) as X. rewrite !app_nil_r in X. exact X.
  - destruct (rstrip_place isspace j chars Hf) as (b & D & B & N). exists a, b.
    split; [|split; [exact A|split; [exact B|split; [exact (begins_cut _ _ _ _ D BO)|exact N]]]]. pose proof (cut_trans _ _ _ _ _ _ _ C D) as X. rewrite !app_nil_r in X. exact X.
Qed.

(** removeprefix, removesuffix *)
Lemma removeprefix_place i p : fwf i -> exists r, str_removeprefix i p = Ok r /\
  ((exists t, ito_str i = p ++ t) -> cut_off p (deref i r) [] i) /\ ((forall t, ito_str i <> p ++ t) -> r = RSelf).
Proof.
  intros H. unfold str_removeprefix. rewrite str_startswith_eq; [|exact H|right; exact I]. cbn [bind py_startswith]. rewrite py_startswith1_default.
  destruct (prefixb p (ito_str i)) eqn:E.
  - pose proof (proj1 (prefixb_spec _ _) E) as (t & Et). pose proof (prefixb_len _ _ E) as L. rewrite (ito_str_len i H) in L. pose proof (zlen_nonneg p).
    rewrite (ito_of_ito_ok i (Some (zlen p)) None (f_desc i) H). cbn [bind]. eexists. split; [reflexivity|]. split; [intros _|intros N; exfalso; exact (N t Et)].
    rewrite from_indices_clipped by (apply ito_len_nonneg; exact H). cbn [deref fst snd]. unfold clipped.
    destruct (Z.ltb_spec (zlen p) 0); [lia|]. replace (Z.min (zlen p) (ito_len i)) with (zlen p) by lia. replace (Z.max (zlen p) (ito_len i)) with (ito_len i) by lia.
    destruct (seg_facts i (zlen p) (ito_len i) (f_desc i) None H) as (W & In & T); [lia|lia|].
    unfold cut_off. cbn [f_str f_start f_stop]. rewrite zlen_nil, T, app_nil_r.
    split; [reflexivity|]. split; [reflexivity|]. split; [unfold ito_len; lia|]. rewrite Et.
    assert (Lt : ito_len i = zlen p + zlen t) by (rewrite <- (ito_str_len i H), Et, zlen_app; reflexivity).
    rewrite zsub_app_r by lia. replace (zlen p - zlen p) with 0 by lia. replace (ito_len i - zlen p) with (zlen t) by lia. rewrite zsub_full. reflexivity.
  - eexists. split; [reflexivity|]. split; [|reflexivity]. intros (t & Et). exfalso. assert (X : prefixb p (ito_str i) = true) by (apply prefixb_spec; exists t; exact Et). congruence.
Qed.
Lemma removesuffix_place i p : fwf i -> p <> [] -> exists r, str_removesuffix i p = Ok r /\
  ((exists t, ito_str i = t ++ p) -> cut_off [] (deref i r) p i) /\ ((forall t, ito_str i <> t ++ p) -> r = RSelf).
Proof.
  intros H Hp. unfold str_removesuffix. rewrite str_endswith_eq; [|exact H|right; exact I]. cbn [bind py_endswith]. rewrite py_endswith1_default.
  destruct (prefixb (rev p) (rev (ito_str i))) eqn:E.
  - pose proof (proj1 (prefixb_spec _ _) E) as (t' & Et'). apply (f_equal (@rev Z)) in Et'. rewrite rev_involutive, rev_app_distr, rev_involutive in Et'.
    set (t := rev t') in *. pose proof (nonempty_zlen p Hp). pose proof (zlen_nonneg t).
    assert (Lt : ito_len i = zlen t + zlen p) by (rewrite <- (ito_str_len i H), Et', zlen_app; reflexivity).
    rewrite (ito_of_ito_ok i None (Some (- zlen p)) (f_desc i) H). cbn [bind]. eexists. split; [reflexivity|]. split; [intros _|intros N; exfalso; exact (N t Et')].
    rewrite from_indices_clipped by (apply ito_len_nonneg; exact H). cbn [deref fst snd]. unfold clipped.
    destruct (Z.ltb_spec (- zlen p) 0); [|lia]. replace (Z.max 0 (Z.max 0 (- zlen p + ito_len i))) with (zlen t) by lia.
    destruct (seg_facts i 0 (zlen t) (f_desc i) None H) as (W & In & T); [lia|lia|].
    unfold cut_off. cbn [f_str f_start f_stop app]. change (@zlen Z []) with 0. rewrite T.
    split; [reflexivity|]. split; [reflexivity|]. split; [unfold ito_len in Lt; lia|]. rewrite Et'.
    rewrite zsub_app_l by lia. rewrite zsub_full. reflexivity.
  - eexists. split; [reflexivity|]. split; [|reflexivity]. intros (t & Et). exfalso.
    assert (X : prefixb (rev p) (rev (ito_str i)) = true) by (apply prefixb_spec; exists (rev t); rewrite Et; apply rev_app_distr). congruence.
Qed.

(** white space splitting *)
Lemma strewn_le p s : forall l a b, strewn p s a b l -> a <= b.
Proof. intros [|x l] a b; cbn [strewn]; [tauto|]. intros (_ & ? & ? & _). lia. Qed.
Lemma strewn_snoc p s x b : f_str x = s -> f_start x < f_stop x -> f_stop x <= b -> all_of p (zsub s (f_stop x) b) ->
  forall l a, strewn p s a (f_start x) l -> strewn p s a b (l ++ [x]).
Proof.
  intros E L M A. induction l as [|y l IH]; intros a; cbn [strewn app].
  - intros [Q R]. repeat (split; [assumption || lia|]). assumption.
  - intros (Y1 & Y2 & Y3 & Y4 & Y5). split; [exact Y1|]. split; [exact Y2|]. split; [lia|]. split; [exact Y4|]. exact (IH _ Y5).
Qed.

Lemma drop_while_gap isspace s i e : 0 <= i <= e -> e <= zlen s ->
  all_of isspace (zsub s i (e - zlen (drop_while isspace (zsub s i e)))) /\ zlen (drop_while isspace (zsub s i e)) <= e - i.
Proof.
  intros H1 H2. pose proof (drop_while_len isspace (zsub s i e)) as L. rewrite zsub_len in L by lia.
  pose proof (drop_while_split isspace (zsub s i e)) as D. split; [|lia]. 
  pose proof (zlen_nonneg (drop_while isspace (zsub s i e))).
  assert (E : zsub s i (e - zlen (drop_while isspace (zsub s i e))) = take_while isspace (zsub s i e)).
  { set (d := drop_while isspace (zsub s i e)) in *. set (t := take_while isspace (zsub s i e)) in *.
    assert (Lt : zlen t + zlen d = e - i) by (apply (f_equal zlen) in D; rewrite zlen_app, zsub_len in D by lia; lia).
    transitivity (zsub (zsub s i e) 0 (zlen t)); [rewrite zsub_zsub by lia; f_equal; lia|].
    rewrite D, zsub_app_l by lia. apply zsub_full. }
  rewrite E. apply take_while_all.
Qed.

Lemma wsplit_loop_place isspace self : fwf self -> f_start self = 0 ->
  forall n i m ps m', 0 <= i <= f_stop self -> wsplit_loop n isspace self i m = Ok (ps, m') ->
    i <= last_stop i ps <= f_stop self /\
    (forall tl, strewn isspace (f_str self) (last_stop i ps) (f_stop self) tl -> strewn isspace (f_str self) i (f_stop self) (ps ++ tl)) /\
    (m' <> 0 -> strewn isspace (f_str self) (last_stop i ps) (f_stop self) []).
Proof.
  intros H Z0. pose proof H as [H1 H2]. induction n as [|n IH]; intros i m ps m' Hi; cbn [wsplit_loop]; [discriminate|].
  unfold nearest_non_ws. rewrite Z0, Z.add_0_r. rewrite nn_skip by (auto; lia).
  pose proof (drop_while_gap isspace (f_str self) i (f_stop self) Hi H2) as [G L].
  destruct (drop_while isspace (zsub (f_str self) i (f_stop self))) as [|c r] eqn:Ed.
  - cbn [bind]. intros [= <- <-]. unfold last_stop; cbn [rev app]. rewrite zlen_nil, Z.sub_0_r in G.
    split; [lia|]. split; [auto|]. intros _. cbn [strewn]. split; [lia|exact G].
  - cbn [bind]. set (d := c :: r) in *. 
    pose proof (take_while_len (fun c => negb (isspace c)) d) as Htl.
    assert (Hd1 : 1 <= zlen (take_while (fun c => negb (isspace c)) d)).
    { apply take_while_nonempty; [subst d; discriminate|]. intros c' r' E'. unfold d in E'. inversion E'; subst. eapply drop_while_hd; exact Ed. }
    set (w := take_while (fun c => negb (isspace c)) d) in *. set (a := f_stop self - zlen d) in *.
    destruct (Z.eqb_spec m 0) as [->|Em].
    + intros [= <- <-]. unfold last_stop; cbn [rev app]. split; [lia|]. split; [auto|]. congruence.
    + destruct (clone_f_seg self a (a + zlen w) None H) as (Ec&_&_&_); [unfold a; lia|unfold a; lia|]. rewrite Ec. cbn [f_stop].
      destruct (wsplit_loop n isspace self (a + zlen w) (m - 1)) as [[ps1 m1]|] eqn:El; cbn [bind]; [|discriminate]. cbn [fst snd]. intros [= <- <-].
      destruct (IH (a + zlen w) (m - 1) ps1 m1) as (J1 & J2 & J3); [unfold a; lia|exact El|]. rewrite last_stop_cons. cbn [f_stop].
      split; [unfold a in *; lia|]. split; [|exact J3].
      intros tl T. cbn [app strewn f_str f_start f_stop]. split; [reflexivity|]. split; [unfold a in *; lia|]. split; [unfold a; lia|]. split; [exact G|]. exact (J2 tl T).
Qed.

Lemma wsplit_place isspace self m fuel rs : fwf self -> f_start self = 0 -> str_wsplit fuel isspace self m = Ok rs ->
  strewn isspace (f_str self) (f_start self) (f_stop self) rs.
Proof.
  intros H Z0. pose proof H as [H1 H2]. unfold str_wsplit. destruct (f_str self) as [|c0 s0] eqn:Es.
  - intros [= <-]. cbn [strewn]. rewrite zlen_nil in H2. split; [lia|]. rewrite zsub_nil by lia. intros ? [].
  - rewrite <- Es in *. clear Es. destruct (wsplit_loop fuel isspace self 0 m) as [[ps m']|] eqn:El; cbn [bind]; [|discriminate].
    destruct (wsplit_loop_place isspace self H Z0 fuel 0 m ps m' ltac:(lia) El) as (J1 & J2 & J3).
    rewrite Z0. assert (Hls' : match rev ps with [] => 0 | s :: _ => f_stop s end = last_stop 0 ps) by reflexivity. rewrite Hls'.
    destruct (Z.eqb_spec m' 0) as [_|N].
    2:{ intros [= <-]. specialize (J2 [] (J3 N)). rewrite app_nil_r in J2. exact J2. }
    set (a := last_stop 0 ps) in *.
    rewrite clone_f_dstop by exact H. destruct (clone_f_seg self a (f_stop self) None H) as (Ec&Hw&In&_); [lia|lia|].
    set (cl := clone_f self (Some a) (Some (f_stop self)) None) in *.
    destruct (lstrip_place isspace cl None Hw) as (x & (C1 & C2 & C3 & C4) & A & _). cbn [eff_set] in A.
    destruct (str_lstrip_eff isspace cl None Hw) as [(Wt & Hwt & _) _].
    set (tl := deref cl (str_lstrip isspace cl None)) in *.
    rewrite Ec in C1, C2, C3. cbn [f_str f_start f_stop] in C1, C2, C3. rewrite zlen_nil in C3. pose proof (zlen_nonneg x) as Lx.
    assert (Hx : x = zsub (f_str self) a (f_start tl)).
    { destruct Wt as (?&W2&W3). rewrite Ec in W2, W3. cbn [f_start f_stop] in W2, W3.
      rewrite (ito_str_zsub _ Hw), (ito_str_zsub _ Hwt), app_nil_r, C1, Ec in C4. cbn [f_str f_start f_stop] in C4.
      rewrite <- (zsub_app_split (f_str self) a (f_start tl) (f_stop self)) in C4 by lia.
      replace (f_stop tl) with (f_stop self) in C4 by lia. apply app_inv_tail in C4. symmetry. exact C4. }
    destruct Wt as (_&W2&W3). rewrite Ec in W2, W3. cbn [f_start f_stop] in W2, W3. rewrite Hx in A.
    intros [= <-]. unfold ito_len. destruct (Z.ltb_spec 0 (f_stop tl - f_start tl)).
    + apply J2. cbn [strewn]. split; [congruence|]. split; [lia|]. split; [lia|]. split; [exact A|]. split; [lia|]. rewrite zsub_nil by lia. intros ? [].
    + specialize (J2 []). rewrite app_nil_r in J2. apply J2. cbn [strewn]. split; [lia|]. replace (f_stop self) with (f_start tl) by lia. exact A.
Qed.

Lemma rdrop_gap isspace s b : 0 <= b <= zlen s ->
  all_of isspace (zsub s (zlen (drop_while isspace (rev (zsub s 0 b)))) b).
Proof.
  intros Hb. destruct (drop_while_rev_prefix isspace s b Hb) as [P L]. pose proof (drop_while_split isspace (rev (zsub s 0 b))) as D.
  set (d := drop_while isspace (rev (zsub s 0 b))) in *. set (t := take_while isspace (rev (zsub s 0 b))) in *. pose proof (zlen_nonneg d).
  apply (f_equal (@rev Z)) in D. rewrite rev_involutive, rev_app_distr in D. rewrite P in D at 1. rewrite rev_involutive in D.
  rewrite <- (zsub_app_split s 0 (zlen d) b) in D by lia. apply app_inv_head in D. rewrite D.
  intros c Hc. apply in_rev in Hc. exact (take_while_all _ _ c Hc).
Qed.

Lemma rwsplit_loop_place isspace self : fwf self -> f_start self = 0 ->
  forall n i m rv l m', -1 <= i < f_stop self -> rwsplit_loop n isspace self i m rv = Ok (l, m') ->
    exists ps, l = ps ++ rv /\ 0 <= first_start (i + 1) ps <= i + 1 /\
    (forall hd, strewn isspace (f_str self) 0 (first_start (i + 1) ps) hd -> strewn isspace (f_str self) 0 (i + 1) (hd ++ ps)) /\
    (m' <> 0 -> strewn isspace (f_str self) 0 (first_start (i + 1) ps) []).
Proof.
  intros H Z0. pose proof H as [H1 H2]. induction n as [|n IH]; intros i m rv l m' Hi; cbn [rwsplit_loop]; [discriminate|].
  unfold nearest_non_ws. rewrite Z0, Z.add_0_r. replace (0 - 1) with (-1) by lia. rewrite rnn_skip by (auto; lia).
  destruct (drop_while_rev_prefix isspace (f_str self) (i + 1) ltac:(lia)) as [_ Hdl].
  pose proof (rdrop_gap isspace (f_str self) (i + 1) ltac:(lia)) as G.
  destruct (drop_while isspace (rev (zsub (f_str self) 0 (i + 1)))) as [|c r] eqn:Ed.
  - cbn [bind]. intros [= <- <-]. exists []. unfold first_start; cbn [app]. rewrite zlen_nil in G.
    split; [reflexivity|]. split; [lia|]. split; [intros hd T; rewrite app_nil_r; exact T|]. intros _. cbn [strewn]. split; [lia|exact G].
  - cbn [bind]. set (d := c :: r) in *. 
    pose proof (take_while_len (fun c => negb (isspace c)) d) as Htl.
    assert (Hd1 : 1 <= zlen (take_while (fun c => negb (isspace c)) d)).
    { apply take_while_nonempty; [subst d; discriminate|]. intros c' r' E'. unfold d in E'. inversion E'; subst. eapply drop_while_hd; exact Ed. }
    set (w := take_while (fun c => negb (isspace c)) d) in *. set (a := zlen d - zlen w) in *.
    destruct (Z.eqb_spec m 0) as [->|Em].
    + intros [= <- <-]. exists []. unfold first_start; cbn [app]. split; [reflexivity|]. split; [lia|]. split; [intros hd T; rewrite app_nil_r; exact T|]. congruence.
    + destruct (clone_f_seg self a (zlen d) None H) as (Ec&_&_&_); [unfold a; lia|unfold a; lia|]. rewrite Ec. cbn [f_start].
      set (p := FI (f_str self) a (zlen d) (odflt None (f_desc self)) (f_vf self)) in *. intros El.
      destruct (IH (a - 1) (m - 1) (p :: rv) l m') as (ps & -> & J1 & J2 & J3); [unfold a; lia|exact El|]. replace (a - 1 + 1) with a in * by lia.
      exists (ps ++ [p]). rewrite <- app_assoc. split; [reflexivity|].
      assert (Hfs : first_start (i + 1) (ps ++ [p]) = first_start a ps) by (destruct ps; reflexivity). rewrite Hfs.
      split; [unfold a in *; lia|]. split; [|exact J3].
      intros hd T. rewrite app_assoc. apply strewn_snoc; [reflexivity|unfold p, a; cbn [f_start f_stop]; lia|unfold p; cbn [f_stop]; lia|exact G|]. exact (J2 hd T).
Qed.

Lemma rwsplit_place isspace self m fuel rs : fwf self -> f_start self = 0 -> str_rwsplit fuel isspace self m = Ok rs ->
  strewn isspace (f_str self) (f_start self) (f_stop self) rs.
Proof.
  intros H Z0. pose proof H as [H1 H2]. unfold str_rwsplit. destruct (f_str self) as [|c0 s0] eqn:Es.
  - intros [= <-]. cbn [strewn]. rewrite zlen_nil in H2. split; [lia|]. rewrite zsub_nil by lia. intros ? [].
  - rewrite <- Es in *. clear Es. destruct (rwsplit_loop fuel isspace self (ito_len self - 1) m []) as [[l m']|] eqn:El; cbn [bind]; [|discriminate].
    destruct (rwsplit_loop_place isspace self H Z0 fuel (ito_len self - 1) m [] l m' ltac:(unfold ito_len; lia) El) as (ps & -> & J1 & J2 & J3).
    rewrite app_nil_r. replace (ito_len self - 1 + 1) with (f_stop self) in * by (unfold ito_len; lia).
    assert (Hls' : match ps with [] => f_stop self | s :: _ => f_start s end = first_start (f_stop self) ps) by reflexivity. rewrite Hls'.
    rewrite Z0. destruct (Z.eqb_spec m' 0) as [_|N].
    2:{ intros [= <-]. exact (J2 [] (J3 N)). }
    set (a := first_start (f_stop self) ps) in *.
    rewrite clone_f_dstart by exact H. destruct (clone_f_seg self (f_start self) a None H) as (Ec&Hw&In&_); [lia|lia|].
    set (cl := clone_f self (Some (f_start self)) (Some a) None) in *.
    destruct (rstrip_place isspace cl None Hw) as (x & (C1 & C2 & C3 & C4) & A & _). cbn [eff_set] in A.
    destruct (str_rstrip_eff isspace cl None Hw) as [(Wt & Hwt & _) _].
    set (hd := deref cl (str_rstrip isspace cl None)) in *.
    rewrite Ec in C1, C2, C3. cbn [f_str f_start f_stop] in C1, C2, C3. rewrite zlen_nil in C2. rewrite Z0 in *.
    destruct Wt as (_&W2&W3). rewrite Ec in W2, W3. cbn [f_start f_stop] in W2, W3.
    assert (Hx : x = zsub (f_str self) (f_stop hd) a).
    { rewrite (ito_str_zsub _ Hw), (ito_str_zsub _ Hwt), C1, Ec in C4. cbn [f_str f_start f_stop app] in C4.
      rewrite <- (zsub_app_split (f_str self) 0 (f_stop hd) a) in C4 by lia.
      replace (f_start hd) with 0 in C4 by lia. apply app_inv_head in C4. symmetry. exact C4. }
    rewrite Hx in A. intros [= <-]. unfold ito_len. destruct (Z.ltb_spec 0 (f_stop hd - f_start hd)).
    + apply (J2 [hd]). cbn [strewn]. split; [congruence|]. split; [lia|]. split; [lia|]. split; [rewrite zsub_nil by lia; intros ? []|]. split; [lia|exact A].
    + apply (J2 []). cbn [strewn]. split; [lia|]. replace 0 with (f_stop hd) by lia. exact A.
Qed.

(** lines *)
Lemma lines_loop self d1 d2 : fwf self -> forall n' n i, f_start self <= i <= f_stop self ->
  (Z.to_nat (f_stop self - i) <= n)%nat -> (Z.to_nat (f_stop self - i) <= n')%nat ->
  let ms := linebreak_matches n (f_str self) i (f_stop self) in
  let rt := split_iter_loop self ms 0 0 true d1 i in
  let rf := split_iter_loop self ms 0 0 false d2 i in
  snd rf = snd rt /\ i <= snd rt <= f_stop self /\ Forall2 line_of (fst rt) (fst rf) /\
  (forall tl, tiles (f_str self) (snd rt) (f_stop self) tl -> tiles (f_str self) i (f_stop self) (fst rt ++ tl)) /\
  (forall c, In c (zsub (f_str self) (snd rt) (f_stop self)) -> ~ boundary c).
Proof.
  intros H. pose proof H as [H1 H2]. induction n' as [|n' IH]; intros n i Hi Hn Hn'; cbv zeta.
  - assert (i = f_stop self) by lia. subst i. rewrite (lb_take_line _ _ n) by lia. rewrite zsub_nil by lia.
    cbn [take_line split_iter_loop fst snd app]. split; [reflexivity|]. split; [lia|]. split; [constructor|]. split; [auto|]. rewrite zsub_nil by lia. intros ? [].
  - rewrite (lb_take_line _ _ n) by lia.
    destruct (list_eq_dec Z.eq_dec (zsub (f_str self) i (f_stop self)) []) as [Ez|Nz].
    { rewrite Ez. cbn [take_line split_iter_loop fst snd app]. split; [reflexivity|]. split; [lia|]. split; [constructor|]. split; [auto|]. rewrite Ez. intros ? []. }
    pose proof (take_line_char _ Nz) as T. destruct (take_line (zsub (f_str self) i (f_stop self))) as [[b e] r]. destruct T as (Ht & Hb & D).
    assert (Hlen : zlen b + (zlen e + zlen r) = f_stop self - i).
    { apply (f_equal zlen) in Ht. rewrite !zlen_app, zsub_len in Ht by lia. lia. }
    pose proof (zlen_nonneg b). pose proof (zlen_nonneg r).
    destruct e as [|e0 e'].
    { destruct D as [(_ & -> & _)|D]; [|exfalso; destruct D as [D|(c & D & _)]; discriminate]. rewrite !app_nil_r in Ht.
      cbn [split_iter_loop fst snd app]. split; [reflexivity|]. split; [lia|]. split; [constructor|]. split; [auto|]. rewrite Ht. exact Hb. }
    assert (De : line_end (e0 :: e')).
    { destruct D as [(D & _)|[D|(c & D & B & _)]]; [discriminate|right; left; exact D|right; right; exists c; split; [exact D|exact B]]. }
    set (e := e0 :: e') in *. assert (He1 : 1 <= zlen e) by (unfold e; rewrite zlen_cons; pose proof (zlen_nonneg e'); lia).
    cbn [split_iter_loop Z.eqb negb andb fst snd].
    destruct (IH n (i + zlen b + zlen e)) as (J1 & J2 & J3 & J4 & J5); [lia|lia|lia|].
    destruct (clone_f_seg self i (i + zlen b + zlen e) (Some d1) H) as (Ek&Wk&_&_); [lia|lia|].
    destruct (clone_f_seg self i (i + zlen b) (Some d2) H) as (En&Wn&_&_); [lia|lia|].
    split; [exact J1|]. split; [lia|]. split; [|split; [|exact J5]].
    + constructor; [|exact J3].
      assert (Hsub : forall x y, 0 <= x <= y -> y <= f_stop self - i -> zsub (f_str self) (i + x) (i + y) = zsub (b ++ e ++ r) x y).
      { intros x y Hx Hy. rewrite <- Ht. rewrite zsub_zsub by lia. reflexivity. }
      exists e. split; [|split; [exact De|]].
      * pose proof (cut_zsub (clone_f self (Some i) (Some (i + zlen b + zlen e)) (Some d1)) (clone_f self (Some i) (Some (i + zlen b)) (Some d2)) Wk) as C.
        rewrite Ek, En in *. cbn [f_str f_start f_stop] in C. rewrite (zsub_nil _ i i) in C by lia.
        replace (zsub (f_str self) (i + zlen b) (i + zlen b + zlen e)) with e in C.
        2:{ replace (i + zlen b + zlen e) with (i + (zlen b + zlen e)) by lia. rewrite Hsub by lia. rewrite zsub_app_r by lia.
            replace (zlen b - zlen b) with 0 by lia. replace (zlen b + zlen e - zlen b) with (zlen e) by lia. rewrite zsub_app_l by lia. symmetry. apply zsub_full. }
        apply C. unfold within; cbn [f_str f_start f_stop]. repeat split; lia.
      * rewrite (ito_str_zsub _ Wn), En. cbn [f_str f_start f_stop].
        replace (zsub (f_str self) i (i + zlen b)) with b; [exact Hb|]. 
        pose proof (Hsub 0 (zlen b) ltac:(lia) ltac:(lia)) as E. rewrite Z.add_0_r in E. rewrite E. rewrite zsub_app_l by lia. symmetry. apply zsub_full.
    + intros tl Q. cbn [app tiles]. rewrite Ek. cbn [f_str f_start f_stop]. split; [reflexivity|]. split; [reflexivity|]. split; [lia|]. exact (J4 tl Q).
Qed.

Lemma Forall2_snoc {A B} (R : A -> B -> Prop) l l' x y : Forall2 R l l' -> R x y -> Forall2 R (l ++ [x]) (l' ++ [y]).
Proof. intros F X. apply Forall2_app; [exact F|constructor; [exact X|constructor]]. Qed.

Lemma lines_place self d1 d2 : fwf self ->
  tiles (f_str self) (f_start self) (f_stop self) (str_splitlines self true d1) /\
  Forall2 line_of (str_splitlines self true d1) (str_splitlines self false d2).
Proof.
  intros H. pose proof H as [H1 H2]. unfold str_splitlines, split_iter.
  destruct (lines_loop self d1 d2 H (Z.to_nat (f_stop self - f_start self)) (Z.to_nat (f_stop self - f_start self)) (f_start self)) as (J1 & J2 & J3 & J4 & J5); [lia|lia|lia|].
  set (rt := split_iter_loop _ _ _ _ true _ _) in *. set (rf := split_iter_loop _ _ _ _ false _ _) in *. rewrite J1.
  destruct (clone_f_seg self (snd rt) (f_stop self) (Some d1) H) as (E1&W1&I1&_); [lia|lia|].
  destruct (clone_f_seg self (snd rt) (f_stop self) (Some d2) H) as (E2&W2&I2&_); [lia|lia|].
  destruct (Z.ltb_spec (snd rt) (f_stop self)).
  - rewrite !rev_app_distr. cbn [rev app]. rewrite !(clone_f_dstop self (snd rt)) by exact H.
    unfold ito_len. rewrite E1, E2. cbn [f_start f_stop]. destruct (Z.eqb_spec (f_stop self - snd rt) 0); [lia|].
    split.
    + apply J4. cbn [tiles f_str f_start f_stop]. repeat split; lia.
    + apply Forall2_snoc; [exact J3|]. rewrite <- E1, <- E2. exists []. split; [|split; [left; reflexivity|]].
      * pose proof (cut_zsub _ (clone_f self (Some (snd rt)) (Some (f_stop self)) (Some d2)) W1) as C. rewrite E1, E2 in *. cbn [f_str f_start f_stop] in C.
        rewrite !zsub_nil in C by lia. apply C. unfold within; cbn [f_str f_start f_stop]. repeat split; lia.
      * rewrite (ito_str_zsub _ W2), E2. cbn [f_str f_start f_stop]. exact J5.
  - assert (E : snd rt = f_stop self) by lia. rewrite E in *. rewrite Z.eqb_refl, !rev_app_distr. cbn [rev app].
    unfold ito_len. rewrite E1, E2. cbn [f_start f_stop]. rewrite Z.sub_diag, Z.eqb_refl, !rev_involutive. split; [|exact J3].
    specialize (J4 [] eq_refl). rewrite app_nil_r in J4. exact J4.
Qed.

(** descriptor and value function *)
Lemma sib_refl i : sibling i i. Proof. repeat split. Qed.
Lemma sib_clone i a b : sibling i (clone_f i a b None). Proof. repeat split. Qed.
Lemma sib_trans i j k : sibling i j -> sibling j k -> sibling i k.
Proof. intros (A1 & A2 & A3) (B1 & B2 & B3). unfold sibling. repeat split; congruence. Qed.
Lemma sib_tail i sp : sibling i (deref i (getitem_tail i sp)).
Proof. unfold getitem_tail. destruct (_ && _); [apply sib_refl|apply sib_clone]. Qed.
Lemma sib_slice i a b c r : getitem_slice i a b c = Ok r -> sibling i (deref i r).
Proof.
  unfold getitem_slice. intros Hr.
  assert (D : exists sp, r = getitem_tail i sp).
  { revert Hr. destruct c as [[|[]|]|]; try discriminate; destruct (offset _ _); cbn [bind]; try discriminate; intros [= <-]; eauto. }
  destruct D as (sp & ->). apply sib_tail.
Qed.
Lemma sib_int i k r : getitem_int i k = Ok r -> sibling i (deref i r).
Proof.
  unfold getitem_int. destruct (_ && _).
  - destruct (offset _ _) as [sp|]; cbn [bind]; [|discriminate]. intros E. apply (f_equal (fun q => match q with Ok v => v | Err _ => RSelf end)) in E. cbv beta iota in E. rewrite <- E. apply sib_tail.
  - destruct (_ && _); [|discriminate]. destruct (offset _ _) as [sp|]; cbn [bind]; [|discriminate].
    intros E. apply (f_equal (fun q => match q with Ok v => v | Err _ => RSelf end)) in E. cbv beta iota in E. rewrite <- E. apply sib_tail.
Qed.
Lemma sib_iter i : Forall (fun r => sibling i (deref i r)) (ito_iter i).
Proof.
  unfold ito_iter. destruct (_ =? _); [repeat constructor|]. destruct (_ <? _); [|constructor].
  apply Forall_forall. intros r I. apply in_map_iff in I. destruct I as (k & <- & _). apply sib_clone.
Qed.
Lemma sib_lstrip isspace i chars : sibling i (deref i (str_lstrip isspace i chars)).
Proof. unfold str_lstrip. destruct (_ =? _); [apply sib_refl|apply sib_clone]. Qed.
Lemma sib_rstrip isspace i chars : sibling i (deref i (str_rstrip isspace i chars)).
Proof. unfold str_rstrip. destruct (_ =? _); [apply sib_refl|apply sib_clone]. Qed.
Lemma sib_strip isspace i chars : sibling i (deref i (str_strip isspace i chars)).
Proof.
  pose proof (sib_lstrip isspace i chars) as L. unfold str_strip. destruct (str_lstrip isspace i chars) as [|j]; [apply sib_rstrip|].
  cbn [deref] in *. exact (sib_trans _ _ _ L (sib_rstrip isspace j chars)).
Qed.
Lemma sib_split_loop self sep : forall n i m ps k, split_loop n self sep i m = Ok (ps, k) -> Forall (sibling self) ps.
Proof.
  induction n as [|n IH]; intros i m ps k; cbn [split_loop]; [discriminate|]. destruct (_ && _).
  - destruct (split_loop n self sep _ _) as [[ps1 k1]|] eqn:E; cbn [bind fst snd]; [|discriminate]. intros [= <- <-].
    constructor; [apply sib_clone|exact (IH _ _ _ _ E)].
  - intros [= <- <-]. constructor.
Qed.
Lemma sib_rsplit_loop self sep : forall n i m rv ps k, Forall (sibling self) rv -> rsplit_loop n self sep i m rv = Ok (ps, k) -> Forall (sibling self) ps.
Proof.
  induction n as [|n IH]; intros i m rv ps k F; cbn [rsplit_loop]; [discriminate|]. destruct (_ && _).
  - apply IH. constructor; [apply sib_clone|exact F].
  - intros [= <- <-]. exact F.
Qed.
Lemma sib_new self ps : Forall (sibling self) ps -> Forall (fun r => sibling self (deref self r)) (map RNew ps).
Proof. intros F. rewrite Forall_map. exact F. Qed.
Lemma sib_split self sep m rs : str_split self sep m = Ok rs -> Forall (fun r => sibling self (deref self r)) rs.
Proof.
  unfold str_split. destruct sep as [|c sep]; [discriminate|]. destruct (m =? 0); [intros [= <-]; repeat constructor|].
  destruct (split_loop _ _ _ _ _) as [[ps k]|] eqn:E; cbn [bind fst snd]; [|discriminate]. apply sib_split_loop in E.
  destruct ps as [|p ps]; intros [= <-]; [repeat constructor|].
  apply (Forall_app (fun r => sibling self (deref self r)) (map RNew (p :: ps))). split; [apply sib_new, E|]. constructor; [|constructor]. destruct (k =? f_start self); [apply sib_refl|apply sib_clone].
Qed.
Lemma sib_rsplit self sep m rs : str_rsplit self sep m = Ok rs -> Forall (fun r => sibling self (deref self r)) rs.
Proof.
  unfold str_rsplit. destruct sep as [|c sep]; [discriminate|]. destruct (m =? 0); [intros [= <-]; repeat constructor|].
  destruct (rsplit_loop _ _ _ _ _ _) as [[ps k]|] eqn:E; cbn [bind fst snd]; [|discriminate]. apply sib_rsplit_loop in E; [|constructor].
  destruct ps as [|p ps]; intros [= <-]; [repeat constructor|].
  constructor; [destruct (k =? f_stop self); [apply sib_refl|apply sib_clone]|]. apply (sib_new self (p :: ps)), E.
Qed.
Lemma sib_nn isspace self step : forall ks nw last s, nn_loop isspace self step ks nw last = Ok (Some s) -> sibling self s.
Proof.
  assert (F : forall nw i s, Ok (Some (if step =? 1 then clone_f self (Some nw) (Some i) None else clone_f self (Some (i + 1)) (Some (nw + 1)) None)) = Ok (Some s) -> sibling self s).
  { intros nw i s [= <-]. destruct (step =? 1); apply sib_clone. }
  induction ks as [|k ks IH]; intros nw last s; cbn [nn_loop].
  - destruct nw; [apply F|discriminate].
  - destruct (char_at self k); [|discriminate]. destruct nw; [destruct (isspace z); [apply F|apply IH]|destruct (isspace z); apply IH].
Qed.
Lemma sib_near isspace self i b s : nearest_non_ws isspace self i b = Ok (Some s) -> sibling self s.
Proof. unfold nearest_non_ws. destruct b; apply sib_nn. Qed.
Lemma sib_wloop isspace self : forall n i m ps k, wsplit_loop n isspace self i m = Ok (ps, k) -> Forall (sibling self) ps.
Proof.
  induction n as [|n IH]; intros i m ps k; cbn [wsplit_loop]; [discriminate|].
  destruct (nearest_non_ws isspace self i false) as [[s|]|] eqn:E; cbn [bind]; [|intros [= <- <-]; constructor|discriminate].
  destruct (m =? 0); [intros [= <- <-]; constructor|].
  destruct (wsplit_loop n isspace self _ _) as [[ps1 k1]|] eqn:El; cbn [bind fst snd]; [|discriminate]. intros [= <- <-].
  constructor; [exact (sib_near _ _ _ _ _ E)|exact (IH _ _ _ _ El)].
Qed.
Lemma sib_rwloop isspace self : forall n i m rv ps k, Forall (sibling self) rv -> rwsplit_loop n isspace self i m rv = Ok (ps, k) -> Forall (sibling self) ps.
Proof.
  induction n as [|n IH]; intros i m rv ps k F; cbn [rwsplit_loop]; [discriminate|].
  destruct (nearest_non_ws isspace self i true) as [[s|]|] eqn:E; cbn [bind]; [|intros [= <- <-]; exact F|discriminate].
  destruct (m =? 0); [intros [= <- <-]; exact F|]. apply IH. constructor; [exact (sib_near _ _ _ _ _ E)|exact F].
Qed.
Lemma sib_wsplit isspace self m fuel rs : str_wsplit fuel isspace self m = Ok rs -> Forall (sibling self) rs.
Proof.
  unfold str_wsplit. destruct (f_str self); [intros [= <-]; constructor|].
  destruct (wsplit_loop fuel isspace self 0 m) as [[ps k]|] eqn:E; cbn [bind]; [|discriminate]. apply sib_wloop in E.
  destruct (k =? 0); [|intros [= <-]; exact E]. destruct (0 <? _); intros [= <-]; [|exact E].
  apply Forall_app. split; [exact E|]. constructor; [|constructor]. exact (sib_trans _ _ _ (sib_clone self _ None) (sib_lstrip _ _ _)).
Qed.
Lemma sib_rwsplit isspace self m fuel rs : str_rwsplit fuel isspace self m = Ok rs -> Forall (sibling self) rs.
Proof.
  unfold str_rwsplit. destruct (f_str self); [intros [= <-]; constructor|].
  destruct (rwsplit_loop fuel isspace self _ m []) as [[ps k]|] eqn:E; cbn [bind]; [|discriminate]. apply sib_rwloop in E; [|constructor].
  destruct (k =? 0); [|intros [= <-]; exact E]. destruct (0 <? _); intros [= <-]; [|exact E].
  constructor; [|exact E]. exact (sib_trans _ _ _ (sib_clone self None _) (sib_rstrip _ _ _)).
Qed.
Lemma remove_desc i p r : str_removeprefix i p = Ok r \/ str_removesuffix i p = Ok r ->
  f_str (deref i r) = f_str i /\ f_desc (deref i r) = f_desc i /\ (r = RSelf \/ f_vf (deref i r) = None).
Proof.
  unfold str_removeprefix, str_removesuffix, ito_of_ito. intros [E|E]; revert E.
  - destruct (str_startswith i (AStr p) None None) as [[]|]; cbn [bind]; [|intros [= <-]; cbn [deref]; auto|discriminate].
    destruct (offset _ _); cbn [bind]; [|discriminate]. intros [= <-]. cbn [deref f_str f_desc f_vf]. auto.
  - destruct (str_endswith i (AStr p) None None) as [[]|]; cbn [bind]; [|intros [= <-]; cbn [deref]; auto|discriminate].
    destruct (offset _ _); cbn [bind]; [|discriminate]. intros [= <-]. cbn [deref f_str f_desc f_vf]. auto.
Qed.
