(** Proofs about the strip and split families, removeprefix/suffix,
    from_substrings and to_line_col. *)
From Verif Require Export ItoStrFacts.

(** -- strip -- *)
Definition eff_set (isspace : Z -> bool) (chars : option pystr) : Z -> bool :=
  match chars with None | Some [] => isspace | Some cs => fun c => mem_char c cs end.
Lemma f_c_in_eff isspace i chars k : f_c_in isspace i chars k = test_at i (eff_set isspace chars) k.
Proof. destruct chars as [[|c cs]|]; reflexivity. Qed.
Lemma eff_set_strip isspace chars : chars <> Some [] -> eff_set isspace chars = strip_set isspace chars.
Proof. destruct chars as [[|c cs]|]; cbn; congruence. Qed.

Lemma up_while_spec i p stop f : (forall k, f k = test_at i p k) -> stop <= zlen (f_str i) ->
  forall fuel k, 0 <= k <= stop -> (Z.to_nat (stop - k) <= fuel)%nat ->
  let k' := up_while fuel f k stop in
  k <= k' <= stop /\ zsub (f_str i) k' stop = drop_while p (zsub (f_str i) k stop).
Proof.
  intros Hf Hs. induction fuel as [|n IH]; intros k Hk Hn; cbn [up_while]; cbv zeta.
  - split; [lia|]. rewrite zsub_nil by lia. reflexivity.
  - destruct (Z.ltb_spec k stop); cbn [andb].
    + rewrite Hf. unfold test_at, char_at. destruct (zget_some (f_str i) k) as [c Hc]; [lia|]. rewrite Hc.
      rewrite (zsub_step _ _ _ _ Hc) by lia. cbn [drop_while]. destruct (p c).
      * destruct (IH (k + 1)) as [H1 H2]; [lia|lia|]. split; [lia|exact H2].
      * split; [lia|]. apply zsub_step; auto.
    + split; [lia|]. rewrite zsub_nil by lia. reflexivity.
Qed.

Definition strip_post (i : fito) (r : ref) (t : pystr) : Prop :=
  within (deref i r) i /\ fwf (deref i r) /\ ito_str (deref i r) = t.

Lemma fwf_within_refl i : fwf i -> within i i.
Proof. intros [? ?]. unfold within; repeat split; lia. Qed.
Lemma within_trans a b c : within a b -> within b c -> within a c.
Proof. intros (?&?&?) (?&?&?). unfold within. repeat split; try lia; congruence. Qed.

Lemma str_lstrip_eff isspace i chars : fwf i ->
  strip_post i (str_lstrip isspace i chars) (drop_while (eff_set isspace chars) (ito_str i)) /\
  (str_lstrip isspace i chars = RSelf <-> drop_while (eff_set isspace chars) (ito_str i) = ito_str i).
Proof.
  intros H. pose proof H as [H1 H2]. unfold str_lstrip.
  destruct (up_while_spec i (eff_set isspace chars) (f_stop i) (f_c_in isspace i chars)
             (f_c_in_eff isspace i chars) H2 (Z.to_nat (f_stop i - f_start i)) (f_start i)) as [Hk Ht]; [lia|lia|].
  set (k := up_while _ _ _ _) in *. rewrite <- (ito_str_zsub i H) in Ht. rewrite <- Ht.
  destruct (Z.eqb_spec k (f_start i)) as [E|E].
  - rewrite E. rewrite <- (ito_str_zsub i H). split; [|tauto].
    repeat split; cbn [deref]; try lia. 
  - destruct (clone_f_seg i k (f_stop i) None H) as (Ec&Hw&Hi&Htt); [lia|lia|].
    rewrite clone_f_dstop by exact H. split.
    + split; [exact Hi|]. split; [exact Hw|]. cbn [deref].
      rewrite (ito_str_zsub _ Hw), Ec. reflexivity.
    + split; [discriminate|]. intros Hx. exfalso.
      apply (f_equal zlen) in Hx. rewrite (ito_str_len i H), zsub_len in Hx by lia. unfold ito_len in Hx. lia.
Qed.

Lemma down_while_spec i p f : (forall k, f k = test_at i p k) ->
  forall fuel k, -1 <= k < zlen (f_str i) -> (Z.to_nat (k + 1) <= fuel)%nat ->
  let k' := down_while fuel f k in
  -1 <= k' <= k /\ forall a, 0 <= a <= k + 1 ->
    rev (drop_while p (rev (zsub (f_str i) a (k + 1)))) = zsub (f_str i) a (Z.max a (k' + 1)).
Proof.
  intros Hf. induction fuel as [|n IH]; intros k Hk Hn; cbn [down_while]; cbv zeta.
  - split; [lia|]. intros a Ha. rewrite !zsub_nil by lia. reflexivity.
  - destruct (Z.leb_spec 0 k); cbn [andb].
    + rewrite Hf. unfold test_at, char_at. destruct (zget_some (f_str i) k) as [c Hc]; [lia|]. rewrite Hc.
      destruct (p c) eqn:Ep.
      * destruct (IH (k - 1)) as [H1 H2]; [lia|lia|]. split; [lia|]. intros a Ha.
        destruct (Z.eq_dec a (k + 1)) as [->|Hne].
        -- rewrite !zsub_nil by lia. reflexivity.
        -- rewrite (zsub_snoc (f_str i) a k c ltac:(lia) ltac:(lia) Hc), rev_app_distr. cbn [rev app drop_while]. rewrite Ep.
           replace (k - 1 + 1) with k in H2 by lia. apply H2. lia.
      * split; [lia|]. intros a Ha. destruct (Z.eq_dec a (k + 1)) as [->|Hne].
        -- rewrite !zsub_nil by lia. reflexivity.
        -- rewrite (zsub_snoc (f_str i) a k c ltac:(lia) ltac:(lia) Hc), rev_app_distr. cbn [rev app drop_while]. rewrite Ep.
           cbn [rev]. rewrite rev_involutive. replace (Z.max a (k + 1)) with (k + 1) by lia.
           symmetry. apply zsub_snoc; auto; lia.
    + split; [lia|]. intros a Ha. rewrite !zsub_nil by lia. reflexivity.
Qed.

Lemma clone_f_stop_clamp i b : fwf i -> 0 <= b -> b <= f_stop i ->
  clone_f i None (Some b) None = clone_f i (Some (f_start i)) (Some (Z.max (f_start i) b)) None.
Proof.
  intros [H1 H2] Hb Hs. unfold clone_f, ito_of_str. cbn [odflt f_str f_start f_stop f_desc].
  rewrite (from_indices_id (zlen (f_str i)) (f_start i) (Z.max (f_start i) b)) by lia.
  assert (E : from_indices (zlen (f_str i)) (Some (f_start i)) (Some b) = (f_start i, Z.max (f_start i) b)).
  { unfold from_indices. destruct (Z.leb_spec 0 (f_start i)), (Z.leb_spec 0 b); try lia. f_equal; lia. }
  rewrite E. reflexivity.
Qed.

Lemma str_rstrip_eff isspace i chars : fwf i ->
  strip_post i (str_rstrip isspace i chars) (rev (drop_while (eff_set isspace chars) (rev (ito_str i)))) /\
  (ito_len i > 0 -> (str_rstrip isspace i chars = RSelf <-> rev (drop_while (eff_set isspace chars) (rev (ito_str i))) = ito_str i)).
Proof.
  intros H. pose proof H as [H1 H2]. unfold str_rstrip.
  destruct (down_while_spec i (eff_set isspace chars) (f_c_in isspace i chars)
             (f_c_in_eff isspace i chars) (Z.to_nat (f_stop i)) (f_stop i - 1)) as [Hk Ht]; [lia|lia|].
  set (k := down_while _ _ _) in *. specialize (Ht (f_start i) ltac:(lia)).
  replace (f_stop i - 1 + 1) with (f_stop i) in Ht by lia.
  rewrite <- (ito_str_zsub i H) in Ht. rewrite Ht.
  destruct (Z.eqb_spec k (f_stop i - 1)) as [E|E].
  - rewrite E. replace (Z.max (f_start i) (f_stop i - 1 + 1)) with (f_stop i) by lia.
    rewrite <- (ito_str_zsub i H). split; [|tauto]. repeat split; cbn [deref]; try lia.
  - rewrite clone_f_stop_clamp by (try exact H; lia).
    destruct (clone_f_seg i (f_start i) (Z.max (f_start i) (k + 1)) None H) as (Ec&Hw&Hi&Htt); [lia|lia|].
    split.
    + split; [exact Hi|]. split; [exact Hw|]. cbn [deref].
      rewrite (ito_str_zsub _ Hw), Ec. reflexivity.
    + intros Hpos. split; [discriminate|]. intros Hx. exfalso.
      apply (f_equal zlen) in Hx. rewrite (ito_str_len i H), zsub_len in Hx by lia. unfold ito_len in *. lia.
Qed.

Lemma str_strip_eff isspace i chars : fwf i ->
  strip_post i (str_strip isspace i chars)
     (rev (drop_while (eff_set isspace chars) (rev (drop_while (eff_set isspace chars) (ito_str i))))).
Proof.
  intros H. destruct (str_lstrip_eff isspace i chars H) as [(Hw & Hf & Ht) _]. unfold str_strip.
  destruct (str_lstrip isspace i chars) as [|j] eqn:E; cbn [deref] in *.
  - rewrite <- Ht. apply str_rstrip_eff; exact H.
  - destruct (str_rstrip_eff isspace j chars Hf) as [(Hw2 & Hf2 & Ht2) _]. rewrite <- Ht.
    unfold strip_post. cbn [deref]. split; [eapply within_trans; eauto|]. split; assumption.
Qed.

(** -- split on a separator -- *)
Lemma split_loop_spec self sep : fwf self -> sep <> [] ->
  forall n n' i m, f_start self <= i <= f_stop self ->
  (Z.to_nat (f_stop self - i) < n)%nat -> (Z.to_nat (f_stop self - i) < n')%nat ->
  exists ps i', split_loop n self sep i m = Ok (ps, i') /\
    i <= i' <= f_stop self /\ (ps <> [] -> i < i') /\ (ps = [] -> i' = i) /\
    map ito_str ps ++ [zsub (f_str self) i' (f_stop self)]
      = py_split_fuel n' (zsub (f_str self) i (f_stop self)) sep m /\
    laid_out (f_str self) sep i (f_stop self)
      (ps ++ [FI (f_str self) i' (f_stop self) (f_desc self) (f_vf self)]).
Proof.
  intros H Hsep. pose proof H as [H1 H2]. pose proof (nonempty_zlen sep Hsep) as Hsl.
  induction n as [|n IH]; intros n' i m Hi Hn Hn'; [lia|]. destruct n' as [|n']; [lia|].
  cbn [split_loop py_split_fuel]. rewrite py_find_abs by lia.
  assert (Hdone : exists ps i', Ok (@nil fito, i) = Ok (ps, i') /\
    i <= i' <= f_stop self /\ (ps <> [] -> i < i') /\ (ps = [] -> i' = i) /\
    map ito_str ps ++ [zsub (f_str self) i' (f_stop self)] = [zsub (f_str self) i (f_stop self)] /\
    laid_out (f_str self) sep i (f_stop self)
      (ps ++ [FI (f_str self) i' (f_stop self) (f_desc self) (f_vf self)])).
  { exists [], i. cbn [map app laid_out f_str f_start f_stop]. repeat split; intros; auto; try lia; try congruence. }
  destruct (find_in sep (zsub (f_str self) i (f_stop self))) as [k|] eqn:F.
  2:{ cbn [Z.leb Z.compare andb]. destruct (m =? 0); exact Hdone. }
  pose proof (find_in_range _ _ _ F) as Hk. rewrite zsub_len in Hk by lia.
  destruct (Z.leb_spec 0 (i + k)); [|lia]. cbn [andb].
  destruct (Z.eqb_spec m 0) as [Em|Em]; cbn [negb]; [exact Hdone|].
  destruct (IH n' (i + k + zlen sep) (m - 1)) as (ps & i' & E & Hi' & Hnn & Hnil & Ht & Hlay); [lia|lia|lia|].
  rewrite E. cbn [bind fst snd].
  destruct (clone_f_seg self i (i + k) None H) as (Ec&Hw&_&Htt); [lia|lia|].
  eexists (_ :: ps), i'. split; [reflexivity|]. split; [lia|]. split; [lia|]. split; [discriminate|].
  rewrite zsub_len by lia. rewrite !zsub_zsub by lia.
  replace (i + (f_stop self - i)) with (f_stop self) by lia.
  replace (i + (k + zlen sep)) with (i + k + zlen sep) by lia.
  split.
  - cbn [map app]. rewrite <- Ht. f_equal. rewrite (ito_str_zsub _ Hw), Ec. cbn [f_str f_start f_stop]. f_equal; lia.
  - cbn [app]. rewrite Ec.
    assert (Hsepat : zsub (f_str self) (i + k) (i + k + zlen sep) = sep).
    { apply find_in_Some in F. destruct F as [(_ & _ & F) _]. rewrite zsub_zsub in F by lia.
      rewrite <- F at 2. f_equal; lia. }
    destruct ps as [|p ps]; cbn [app laid_out f_str f_start f_stop] in *; repeat split; try lia; try exact Hsepat;
      try (apply Hlay); try (rewrite Hnil by reflexivity; lia).
Qed.

Lemma laid_out_fields s sep : forall l a b x y, f_str x = f_str y -> f_start x = f_start y -> f_stop x = f_stop y ->
  laid_out s sep a b (l ++ [x]) -> laid_out s sep a b (l ++ [y]).
Proof.
  intros l; induction l as [|p l IH]; intros a b x y E1 E2 E3; cbn [app laid_out].
  - rewrite E1, E2, E3. auto.
  - destruct (l ++ [x]) eqn:Ex; [destruct l; discriminate|].
    destruct (l ++ [y]) eqn:Ey; [destruct l; discriminate|].
    intros (?&?&?&?&?&Hl). repeat split; auto. rewrite <- Ey. apply (IH _ _ x y); auto. rewrite Ex. exact Hl.
Qed.

Lemma str_split_eq self sep m : fwf self -> sep <> [] ->
  exists rs, str_split self sep m = Ok rs /\
    texts self rs = py_split (ito_str self) sep m /\
    laid_out (f_str self) sep (f_start self) (f_stop self) (map (deref self) rs).
Proof.
  intros H Hsep. pose proof H as [H1 H2]. unfold str_split.
  destruct sep as [|c0 sep0] eqn:Esep; [congruence|]. rewrite <- Esep in *. clear Esep.
  assert (Hself : laid_out (f_str self) sep (f_start self) (f_stop self) [self]) by (cbn; repeat split; lia).
  destruct (Z.eqb_spec m 0) as [->|Em].
  - exists [RSelf]. split; [reflexivity|]. split; [reflexivity|exact Hself].
  - destruct (split_loop_spec self sep H Hsep (S (S (Z.to_nat (f_stop self - f_start self)))) (S (length (ito_str self))) (f_start self) m)
      as (ps & i' & E & Hi' & Hnn & Hnil & Ht & Hlay); [lia|lia| |].
    { pose proof (ito_str_len self H) as Hl. unfold zlen, ito_len in Hl. lia. }
    rewrite E. cbn [bind fst snd]. rewrite <- (ito_str_zsub self H) in Ht.
    destruct ps as [|p ps].
    + exists [RSelf]. split; [reflexivity|]. split; [|exact Hself].
      cbn [map app] in Ht. unfold py_split. rewrite <- Ht. unfold texts; cbn [map deref].
      rewrite (ito_str_zsub self H). rewrite Hnil by reflexivity. reflexivity.
    + assert (Hgt : f_start self < i') by (apply Hnn; discriminate).
      destruct (Z.eqb_spec i' (f_start self)); [lia|].
      eexists. split; [reflexivity|].
      destruct (clone_f_seg self i' (f_stop self) None H) as (Ec&Hw&_&Htt); [lia|lia|].
      rewrite clone_f_dstop by exact H. split.
      * unfold texts, py_split. rewrite <- Ht. rewrite map_app, map_map. cbn [map deref]. f_equal. f_equal.
        rewrite (ito_str_zsub _ Hw), Ec. reflexivity.
      * rewrite map_app, map_map. cbn [map deref]. rewrite map_id.
        eapply laid_out_fields; [| | |exact Hlay]; rewrite Ec; reflexivity.
Qed.

Lemma rsplit_loop_spec self sep : fwf self -> sep <> [] ->
  forall n n' i m rv, f_start self <= i <= f_stop self ->
  (Z.to_nat (i - f_start self) < n)%nat -> (Z.to_nat (i - f_start self) < n')%nat ->
  exists ps i', rsplit_loop n self sep i m rv = Ok (ps ++ rv, i') /\
    f_start self <= i' <= i /\ (ps <> [] -> i' < i) /\ (ps = [] -> i' = i) /\
    zsub (f_str self) (f_start self) i' :: map ito_str ps
      = py_rsplit_fuel n' (zsub (f_str self) (f_start self) i) sep m /\
    laid_out (f_str self) sep (f_start self) i
      (FI (f_str self) (f_start self) i' (f_desc self) (f_vf self) :: ps).
Proof.
  intros H Hsep. pose proof H as [H1 H2]. pose proof (nonempty_zlen sep Hsep) as Hsl.
  induction n as [|n IH]; intros n' i m rv Hi Hn Hn'; [lia|]. destruct n' as [|n']; [lia|].
  cbn [rsplit_loop py_rsplit_fuel]. rewrite py_rfind_abs by lia.
  assert (Hdone : exists ps i', Ok (rv, i) = Ok (ps ++ rv, i') /\
    f_start self <= i' <= i /\ (ps <> [] -> i' < i) /\ (ps = [] -> i' = i) /\
    zsub (f_str self) (f_start self) i' :: map ito_str ps = [zsub (f_str self) (f_start self) i] /\
    laid_out (f_str self) sep (f_start self) i
      (FI (f_str self) (f_start self) i' (f_desc self) (f_vf self) :: ps)).
  { exists [], i. cbn [map app laid_out f_str f_start f_stop]. repeat split; intros; auto; try lia; try congruence. }
  destruct (rfind_in sep (zsub (f_str self) (f_start self) i)) as [k|] eqn:F.
  2:{ cbn [Z.leb Z.compare andb]. destruct (m =? 0); exact Hdone. }
  pose proof (rfind_in_range _ _ _ F) as Hk. rewrite zsub_len in Hk by lia.
  destruct (Z.leb_spec 0 (f_start self + k)); [|lia]. cbn [andb].
  destruct (Z.eqb_spec m 0) as [Em|Em]; cbn [negb]; [exact Hdone|].
  set (p := clone_f self (Some (f_start self + k + zlen sep)) (Some i) None).
  destruct (IH n' (f_start self + k) (m - 1) (p :: rv)) as (ps & i' & E & Hi' & Hnn & Hnil & Ht & Hlay); [lia|lia|lia|].
  destruct (clone_f_seg self (f_start self + k + zlen sep) i None H) as (Ec&Hw&_&Htt); [lia|lia|]. fold p in Ec, Hw, Htt.
  exists (ps ++ [p]), i'. rewrite E, <- app_assoc. split; [reflexivity|]. split; [lia|].
  split; [lia|]. split; [destruct ps; discriminate|].
  rewrite zsub_len by lia. rewrite !zsub_zsub by lia.
  replace (f_start self + 0) with (f_start self) by lia.
  replace (f_start self + (i - f_start self)) with i by lia.
  split.
  - rewrite <- Ht. rewrite map_app. cbn [map app]. f_equal. f_equal. f_equal.
    rewrite (ito_str_zsub _ Hw), Ec. cbn [f_str f_start f_stop]. f_equal; lia.
  - assert (Hsepat : zsub (f_str self) (f_start self + k) (f_start self + k + zlen sep) = sep).
    { apply rfind_in_Some in F. destruct F as [(_ & _ & F) _]. rewrite zsub_zsub in F by lia.
      rewrite <- F at 2. f_equal; lia. }
    rewrite Ec. clear - Hlay Hsepat Hk H2 H1 Hi Hi'.
    change (FI (f_str self) (f_start self) i' (f_desc self) (f_vf self) :: ps ++ [FI (f_str self) (f_start self + k + zlen sep) i (odflt None (f_desc self)) (f_vf self)])
      with ((FI (f_str self) (f_start self) i' (f_desc self) (f_vf self) :: ps) ++ [FI (f_str self) (f_start self + k + zlen sep) i (odflt None (f_desc self)) (f_vf self)]).
    revert Hlay. generalize (FI (f_str self) (f_start self) i' (f_desc self) (f_vf self) :: ps) as l.
    generalize (f_start self) at 1 3 as a. intros a l. revert a.
    induction l as [|x l IHl]; intros a Hl; [contradiction|].
    destruct l as [|y l].
    + cbn [laid_out app] in *. destruct Hl as (?&?&?&Es). rewrite Es. repeat split; auto; try lia; cbn [f_str f_start f_stop]; try lia; reflexivity.
    + cbn [laid_out app] in Hl |- *. destruct Hl as (?&?&?&?&?&Hl). repeat split; auto. apply IHl. exact Hl.
Qed.

Lemma str_rsplit_eq self sep m : fwf self -> sep <> [] ->
  exists rs, str_rsplit self sep m = Ok rs /\
    texts self rs = py_rsplit (ito_str self) sep m /\
    laid_out (f_str self) sep (f_start self) (f_stop self) (map (deref self) rs).
Proof.
  intros H Hsep. pose proof H as [H1 H2]. unfold str_rsplit.
  destruct sep as [|c0 sep0] eqn:Esep; [congruence|]. rewrite <- Esep in *. clear Esep.
  assert (Hself : laid_out (f_str self) sep (f_start self) (f_stop self) [self]) by (cbn; repeat split; lia).
  destruct (Z.eqb_spec m 0) as [->|Em].
  - exists [RSelf]. split; [reflexivity|]. split; [reflexivity|exact Hself].
  - destruct (rsplit_loop_spec self sep H Hsep (S (S (Z.to_nat (f_stop self - f_start self)))) (S (length (ito_str self))) (f_stop self) m [])
      as (ps & i' & E & Hi' & Hnn & Hnil & Ht & Hlay); [lia|lia| |].
    { pose proof (ito_str_len self H) as Hl. unfold zlen, ito_len in Hl. lia. }
    rewrite E. rewrite app_nil_r. cbn [bind fst snd]. rewrite <- (ito_str_zsub self H) in Ht.
    destruct ps as [|p ps].
    + exists [RSelf]. split; [reflexivity|]. split; [|exact Hself].
      unfold py_rsplit. rewrite <- Ht. unfold texts; cbn [map deref].
      rewrite (ito_str_zsub self H). rewrite Hnil by reflexivity. reflexivity.
    + assert (Hgt : i' < f_stop self) by (apply Hnn; discriminate).
      destruct (Z.eqb_spec i' (f_stop self)); [lia|].
      eexists. split; [reflexivity|].
      destruct (clone_f_seg self (f_start self) i' None H) as (Ec&Hw&_&Htt); [lia|lia|].
      rewrite clone_f_dstart by exact H. split.
      * unfold texts, py_rsplit. rewrite <- Ht. cbn [map deref]. rewrite map_map. cbn [deref]. f_equal.
        rewrite (ito_str_zsub _ Hw), Ec. reflexivity.
      * cbn [map deref]. rewrite map_map. cbn [deref]. rewrite map_id. rewrite Ec. exact Hlay.
Qed.

(** -- removeprefix / removesuffix -- *)
Lemma prefixb_len p s : prefixb p s = true -> zlen p <= zlen s.
Proof. intros E. apply prefixb_zsub in E. lia. Qed.
Lemma str_removeprefix_eq i p : fwf i ->
  exists r, str_removeprefix i p = Ok r /\ within (deref i r) i /\ ito_str (deref i r) = py_removeprefix (ito_str i) p.
Proof.
  intros H. unfold str_removeprefix, py_removeprefix.
  rewrite str_startswith_eq; [|exact H|right; exact I]. cbn [bind py_startswith]. rewrite py_startswith1_default.
  destruct (prefixb p (ito_str i)) eqn:E.
  - destruct (ito_of_ito_facts i (Some (zlen p)) None (f_desc i) H) as (j & Ej & Hw & Hin & Ht & _).
    rewrite Ej. cbn [bind]. exists (RNew j). split; [reflexivity|]. split; [exact Hin|]. cbn [deref]. rewrite Ht.
    apply prefixb_len in E. rewrite py_slice_zsub. unfold from_indices; cbn [fst snd].
    pose proof (zlen_nonneg p). destruct (Z.leb_spec 0 (zlen p)); [|lia].
    replace (Z.min (zlen (ito_str i)) (zlen p)) with (zlen p) by lia.
    replace (Z.max (zlen p) (zlen (ito_str i))) with (zlen (ito_str i)) by lia.
    unfold zsub, zlen. rewrite firstn_all2; [f_equal; lia|]. rewrite skipn_length. unfold zlen in *. lia.
  - exists RSelf. split; [reflexivity|]. split; [apply fwf_within_refl; exact H|reflexivity].
Qed.

Lemma py_endswith1_default s p : py_endswith1 s p None None = prefixb (rev p) (rev s).
Proof.
  unfold py_endswith1, adj_start, adj_end.
  destruct (Z.ltb_spec (zlen s - zlen p) 0).
  - symmetry. destruct (prefixb (rev p) (rev s)) eqn:E; [|reflexivity].
    apply prefixb_len in E. rewrite !zlen_rev in E. lia.
  - pose proof (zlen_nonneg p).
    assert (Hd : s = zsub s 0 (zlen s - zlen p) ++ zsub s (zlen s - zlen p) (zlen s)).
    { rewrite zsub_app_split by lia. symmetry. apply zsub_full. }
    assert (Hlen : zlen (zsub s (zlen s - zlen p) (zlen s)) = zlen p) by (rewrite zsub_len; lia).
    set (u := zsub s 0 _) in *. set (v := zsub s (zlen s - zlen p) _) in *. clearbody u v.
    destruct (eqb_str v p) eqn:E.
    + apply eqb_str_eq in E. subst v. rewrite Hd, rev_app_distr. symmetry. apply prefixb_spec. eauto.
    + symmetry. destruct (prefixb (rev p) (rev s)) eqn:Ep; [|reflexivity].
      apply prefixb_spec in Ep. destruct Ep as [r Ep]. rewrite Hd, rev_app_distr in Ep.
      apply eqb_str_neq in E. exfalso. apply E.
      assert (Hrl : length (rev v) = length (rev p)) by (rewrite !rev_length; unfold zlen in Hlen; lia).
      apply (f_equal (firstn (length (rev v)))) in Ep. rewrite Hrl in Ep at 2.
      rewrite !firstn_app, !Nat.sub_diag, !firstn_all in Ep. cbn [firstn] in Ep. rewrite !app_nil_r in Ep.
      apply (f_equal (@rev Z)) in Ep. rewrite !rev_involutive in Ep. exact Ep.
Qed.
Lemma str_removesuffix_eq i p : fwf i -> p <> [] ->
  exists r, str_removesuffix i p = Ok r /\ within (deref i r) i /\ ito_str (deref i r) = py_removesuffix (ito_str i) p.
Proof.
  intros H Hp. unfold str_removesuffix, py_removesuffix.
  rewrite str_endswith_eq; [|exact H|right; exact I]. cbn [bind py_endswith]. rewrite py_endswith1_default.
  destruct p as [|c p'] eqn:Epp; [congruence|]. rewrite <- Epp in *. clear Epp.
  destruct (prefixb (rev p) (rev (ito_str i))) eqn:E.
  - destruct (ito_of_ito_facts i None (Some (- zlen p)) (f_desc i) H) as (j & Ej & Hw & Hin & Ht & _).
    rewrite Ej. cbn [bind]. exists (RNew j). split; [reflexivity|]. split; [exact Hin|]. cbn [deref]. rewrite Ht.
    apply prefixb_len in E. rewrite !zlen_rev in E. rewrite py_slice_zsub. unfold from_indices; cbn [fst snd].
    pose proof (nonempty_zlen p Hp). destruct (Z.leb_spec 0 (- zlen p)); [lia|].
    unfold zsub, zlen in *. cbn [skipn Z.to_nat]. change (Z.to_nat 0) with O. cbn [skipn]. f_equal. lia.
  - exists RSelf. split; [reflexivity|]. split; [apply fwf_within_refl; exact H|reflexivity].
Qed.
(** what the code does on the empty suffix *)
Lemma str_removesuffix_nil i : fwf i ->
  exists r, str_removesuffix i [] = Ok r /\ ito_str (deref i r) = [].
Proof.
  intros H. unfold str_removesuffix. rewrite str_endswith_eq; [|exact H|right; exact I].
  cbn [bind py_endswith]. rewrite py_endswith1_default. cbn [rev prefixb].
  destruct (ito_of_ito_facts i None (Some (- zlen (@nil Z))) (f_desc i) H) as (j & Ej & Hw & Hin & Ht & _).
  rewrite Ej. cbn [bind]. exists (RNew j). split; [reflexivity|]. cbn [deref]. rewrite Ht.
  rewrite py_slice_zsub. unfold from_indices; cbn [fst snd]. change (- zlen (@nil Z)) with 0. cbn [Z.leb Z.compare].
  apply zsub_nil. pose proof (zlen_nonneg (ito_str i)). lia.
Qed.
