(** Proofs about the model of util.py and of escape / descape. *)
From Verif Require Export SpecUtil ItoStrFacts.

(** -- the source as text -- *)
Lemma u_text_len u : u_wf u -> zlen (u_text u) = u_len u.
Proof. destruct u; cbn; [reflexivity|]. intros; apply ito_str_len; assumption. Qed.

Lemma u_window u a b : u_wf u ->
  exists x y, from_indices (zlen (u_text u)) a b = (x, y) /\ 0 <= x <= y /\ y <= zlen (u_text u) /\
  offset (from_indices (u_len u) a b) (u_offset u) = Ok (u_offset u + x, u_offset u + y) /\
  0 <= u_offset u /\ u_offset u + zlen (u_text u) <= zlen (u_string u) /\
  u_text u = zsub (u_string u) (u_offset u) (u_offset u + zlen (u_text u)).
Proof.
  intros H. pose proof (u_text_len u H) as HL.
  pose proof (from_indices_range (u_len u) a b) as HR.
  assert (H0 : 0 <= u_len u) by (rewrite <- HL; apply zlen_nonneg).
  specialize (HR H0). rewrite HL.
  destruct (from_indices (u_len u) a b) as [x y]; cbn [fst snd] in *.
  exists x, y. split; [reflexivity|]. split; [lia|]. split; [lia|].
  destruct u as [s|i]; cbn [u_offset u_string u_text u_len] in *.
  - split; [rewrite offset_nonneg by (cbn; lia); cbn [fst snd]; do 2 f_equal; lia|].
    split; [lia|]. split; [lia|]. rewrite Z.add_0_l, zsub_full. reflexivity.
  - destruct H as [H1 H2]. unfold ito_len in *.
    split; [rewrite offset_nonneg by (cbn; lia); cbn [fst snd]; do 2 f_equal; lia|].
    split; [lia|]. split; [lia|]. rewrite ito_str_zsub by (split; assumption).
    f_equal; lia.
Qed.

(** -- the loop as a scan of the window -- *)
Fixpoint scan (chars : pystr) (e : Z) (k : Z) (w : pystr) (esc : bool) : list Z * bool :=
  match w with
  | [] => ([], esc)
  | c :: w' => if esc then scan chars e (k + 1) w' false
               else if c =? e then scan chars e (k + 1) w' true
               else let (ys, f) := scan chars e (k + 1) w' esc in
                    if mem_char c chars then (k :: ys, f) else (ys, f)
  end.

Lemma unesc_loop_scan s off chars e b : b <= zlen s -> forall i esc, 0 <= i ->
  unesc_loop s off chars e (zrange i b) esc = scan chars e (i - off) (zsub s i b) esc.
Proof.
  intros Hb i. pattern i. apply (zrange_up _ b); clear i.
  - intros i Hi esc _. rewrite zrange_nil, zsub_nil by lia. reflexivity.
  - intros i Hi IH esc H0. rewrite zrange_cons by lia.
    destruct (zget_some s i) as [c Hc]; [lia|].
    rewrite (zsub_step _ _ _ _ Hc) by lia. cbn [unesc_loop scan]. rewrite Hc. cbn [odflt].
    rewrite !IH by lia. replace (i + 1 - off) with (i - off + 1) by lia. reflexivity.
Qed.

Lemma find_unescaped_scan u chars e a b : u_wf u -> chars <> [] ->
  let x := fst (from_indices (zlen (u_text u)) a b) in
  let y := snd (from_indices (zlen (u_text u)) a b) in
  find_unescaped u chars [e] a b =
  (fst (scan chars e x (zsub (u_text u) x y) false),
   if snd (scan chars e x (zsub (u_text u) x y) false) then Some ValueError else None).
Proof.
  intros H Hc. cbv zeta.
  destruct (u_window u a b H) as (x & y & E & Hx & Hy & Ho & H0 & HL & HT).
  rewrite E. cbn [fst snd]. unfold find_unescaped. rewrite Ho. cbn [fst snd].
  destruct chars as [|c0 cs]; [congruence|].
  rewrite unesc_loop_scan by lia.
  rewrite HT at 1 2. rewrite zsub_zsub by lia.
  replace (u_offset u + x - u_offset u) with x by lia.
  destruct (scan _ _ _ _ _); reflexivity.
Qed.

(** -- runs of escapes -- *)
Lemma esc_run_nil e : esc_run e [] = O.
Proof. reflexivity. Qed.
Lemma esc_run_snoc e w c : esc_run e (w ++ [c]) = if e =? c then S (esc_run e w) else O.
Proof. unfold esc_run. rewrite rev_app_distr. cbn. destruct (e =? c); reflexivity. Qed.

Lemma odd_S n : Nat.odd (S n) = negb (Nat.odd n).
Proof. rewrite Nat.odd_succ, <- Nat.negb_odd. reflexivity. Qed.
Lemma even_odd_false n : Nat.even n = true <-> Nat.odd n = false.
Proof. rewrite <- Nat.negb_odd. destruct (Nat.odd n); cbn; split; congruence. Qed.

Lemma mem_char_in c l : mem_char c l = true <-> In c l.
Proof.
  unfold mem_char. rewrite existsb_exists. split.
  - intros [x [Hx E]]. apply Z.eqb_eq in E. subst; exact Hx.
  - intros H. exists c. split; [exact H|apply Z.eqb_refl].
Qed.

(** scan of w after the prefix p, position base = zlen p *)
Lemma scan_spec chars e : forall w p,
  let r := scan chars e (zlen p) w (Nat.odd (esc_run e p)) in
  snd r = Nat.odd (esc_run e (p ++ w)) /\
  positions (unescaped_at e chars (p ++ w) 0) (zlen p) (zlen (p ++ w)) (fst r).
Proof.
  induction w as [|c w IH]; intros p; cbv zeta.
  - cbn [scan fst snd]. rewrite app_nil_r. split; [reflexivity|]. split; [constructor|].
    intros k. cbn. split; [tauto|]. intros [? _]. lia.
  - specialize (IH (p ++ [c])). cbv zeta in IH.
    assert (EA : p ++ c :: w = (p ++ [c]) ++ w) by (rewrite <- app_assoc; reflexivity).
    rewrite EA. rewrite zlen_app, zlen_cons, zlen_nil in IH. replace (zlen p + (1 + 0)) with (zlen p + 1) in IH by lia.
    assert (Hk : zget ((p ++ [c]) ++ w) (zlen p) = Some c).
    { rewrite <- app_assoc. rewrite zget_app2 by lia. rewrite Z.sub_diag. reflexivity. }
    assert (Hp : zsub ((p ++ [c]) ++ w) 0 (zlen p) = p).
    { rewrite <- app_assoc, zsub_app_l by lia. apply zsub_full. }
    set (t := (p ++ [c]) ++ w) in *.
    assert (HZ : zlen p + 1 <= zlen t).
    { unfold t. rewrite !zlen_app, zlen_cons, zlen_nil. pose proof (zlen_nonneg w). lia. }
    assert (skip : forall ys, ~ unescaped_at e chars t 0 (zlen p) ->
              positions (unescaped_at e chars t 0) (zlen p + 1) (zlen t) ys ->
              positions (unescaped_at e chars t 0) (zlen p) (zlen t) ys).
    { intros ys Hn [HS HP]. split; [exact HS|]. intros k. rewrite HP. split.
      - intros [? ?]; split; [lia|assumption].
      - intros [? Hu]; split; [|exact Hu]. destruct (Z.eq_dec k (zlen p)) as [->|]; [contradiction|lia]. }
    rewrite esc_run_snoc in IH. rewrite Z.eqb_sym in IH. cbn [scan].
    destruct (Nat.odd (esc_run e p)) eqn:Eo.
    + assert (Hn : ~ unescaped_at e chars t 0 (zlen p)).
      { intros (c' & _ & _ & _ & HL). rewrite Hp in HL. apply even_odd_false in HL. congruence. }
      assert (E' : Nat.odd (if c =? e then S (esc_run e p) else O) = false).
      { destruct (c =? e); [rewrite odd_S, Eo|]; reflexivity. }
      rewrite E' in IH. destruct IH as [IH1 IH2]. split; [exact IH1|apply skip; assumption].
    + destruct (Z.eqb_spec c e) as [Ece|Ece].
      * assert (Hn : ~ unescaped_at e chars t 0 (zlen p)).
        { intros (c' & Hc' & _ & Hne & HL). rewrite Hk in Hc'. congruence. }
        rewrite odd_S, Eo in IH. destruct IH as [IH1 IH2].
        split; [exact IH1|apply skip; assumption].
      * cbn [Nat.odd Nat.even negb] in IH.
        destruct (scan chars e (zlen p + 1) w false) as [ys f]. cbn [fst snd] in *.
        destruct IH as [IH1 IH2].
        destruct (mem_char c chars) eqn:Em; cbn [fst snd].
        -- split; [exact IH1|]. destruct IH2 as [HS HP]. split.
           ++ constructor; [exact HS|]. apply Forall_forall. intros k Hk'. apply HP in Hk'. lia.
           ++ intros k. cbn [In]. rewrite HP. split.
              ** intros [<-|[? ?]]; [|split; [lia|assumption]]. split; [lia|].
                 exists c. split; [exact Hk|]. split; [apply mem_char_in; exact Em|]. split; [exact Ece|].
                 unfold literal_after. rewrite Hp. apply even_odd_false. exact Eo.
              ** intros [Hb Hu]. destruct (Z.eq_dec (zlen p) k); [left; assumption|right; split; [lia|exact Hu]].
        -- split; [exact IH1|]. apply skip; [|exact IH2].
           intros (c' & Hc' & Hin & _). rewrite Hk in Hc'. injection Hc' as <-.
           apply mem_char_in in Hin. congruence.
Qed.

Lemma scan_shift chars e : forall w k d esc,
  scan chars e (k + d) w esc = (map (fun i => i + d) (fst (scan chars e k w esc)), snd (scan chars e k w esc)).
Proof.
  induction w as [|c w IH]; intros k d esc; cbn [scan]; [reflexivity|].
  replace (k + d + 1) with (k + 1 + d) by lia. rewrite !IH.
  destruct esc; [reflexivity|]. destruct (c =? e); [reflexivity|].
  destruct (scan chars e (k + 1) w false) as [ys f]; cbn [fst snd].
  destruct (mem_char c chars); reflexivity.
Qed.

Lemma strongly_sorted_map_add d ys : StronglySorted Z.lt ys -> StronglySorted Z.lt (map (fun i => i + d) ys).
Proof.
  induction 1 as [|y ys HS IH HF]; cbn; constructor; [exact IH|].
  apply Forall_map. eapply Forall_impl; [|exact HF]. cbn. intros; lia.
Qed.

(** scan of a window zsub t x y *)
Lemma scan_window chars e t x y : 0 <= x <= y -> y <= zlen t ->
  let r := scan chars e x (zsub t x y) false in
  snd r = Nat.odd (esc_run e (zsub t x y)) /\
  positions (unescaped_at e chars t x) x y (fst r).
Proof.
  intros Hx Hy. cbv zeta.
  pose proof (scan_spec chars e (zsub t x y) []) as H. cbv zeta in H.
  rewrite zlen_nil, app_nil_l in H. cbn [esc_run Nat.odd Nat.even negb rev take_while length] in H.
  change (Nat.odd (esc_run e [])) with false in H.
  pose proof (scan_shift chars e (zsub t x y) 0 x false) as HS. rewrite Z.add_0_l in HS.
  destruct H as [H1 [H2 H3]].
  split; [rewrite HS; exact H1|]. rewrite HS; cbn [fst]. split.
  - apply strongly_sorted_map_add. exact H2.
  - intros k. rewrite in_map_iff. rewrite zsub_len in H3 by lia.
    assert (conv : forall j, 0 <= j < y - x ->
              (unescaped_at e chars (zsub t x y) 0 j <-> unescaped_at e chars t x (x + j))).
    { intros j Hj. unfold unescaped_at. rewrite zget_zsub by lia. rewrite zsub_zsub by lia.
      rewrite Z.add_0_r. reflexivity. }
    split.
    + intros [j [<- Hj]]. apply H3 in Hj. destruct Hj as [Hj Hu]. split; [lia|].
      apply conv in Hu; [|lia]. rewrite Z.add_comm. exact Hu.
    + intros [Hk Hu]. exists (k - x). split; [lia|]. apply H3. split; [lia|].
      apply conv; [lia|]. replace (x + (k - x)) with k by lia. exact Hu.
Qed.

Theorem find_unescaped_spec u chars e a b : u_wf u -> chars <> [] ->
  let t := u_text u in
  let x := fst (from_indices (zlen t) a b) in
  let y := snd (from_indices (zlen t) a b) in
  let r := find_unescaped u chars [e] a b in
  positions (unescaped_at e chars t x) x y (fst r) /\
  (snd r = None \/ snd r = Some ValueError) /\
  (snd r = None <-> literal_after e (py_slice t a b)).
Proof.
  intros H Hc. cbv zeta. rewrite find_unescaped_scan by assumption. cbv zeta.
  pose proof (from_indices_range (zlen (u_text u)) a b (zlen_nonneg _)) as HR.
  rewrite py_slice_zsub.
  destruct (from_indices (zlen (u_text u)) a b) as [x y]; cbn [fst snd] in *.
  destruct (scan_window chars e (u_text u) x y) as [H1 H2]; [lia|lia|].
  cbn [fst snd]. split; [exact H2|]. rewrite H1. unfold literal_after. rewrite even_odd_false.
  destruct (Nat.odd _); split; auto; split; congruence.
Qed.

(** -- find_escapes -- *)
Fixpoint escan (e : Z) (k : Z) (w : pystr) (esc : bool) : list Z :=
  match w with
  | [] => []
  | c :: w' => if c =? e then escan e (k + 1) w' (negb esc)
               else if esc then (k - 1) :: escan e (k + 1) w' false
               else escan e (k + 1) w' esc
  end.
Lemma escapes_loop_scan s e b : b <= zlen s -> forall i esc, 0 <= i ->
  escapes_loop s e (zrange i b) esc = escan e i (zsub s i b) esc.
Proof.
  intros Hb i. pattern i. apply (zrange_up _ b); clear i.
  - intros i Hi esc _. rewrite zrange_nil, zsub_nil by lia. reflexivity.
  - intros i Hi IH esc H0. rewrite zrange_cons by lia.
    destruct (zget_some s i) as [c Hc]; [lia|].
    rewrite (zsub_step _ _ _ _ Hc) by lia. cbn [escapes_loop escan]. rewrite Hc. cbn [odflt].
    rewrite !IH by lia. reflexivity.
Qed.

Lemma escan_spec e : forall w p,
  positions (lone_escape e (p ++ w) 0 (zlen (p ++ w))) (zlen p - 1) (zlen (p ++ w))
            (escan e (zlen p) w (Nat.odd (esc_run e p))).
Proof.
  induction w as [|c w IH]; intros p.
  - cbn [escan]. rewrite app_nil_r. split; [constructor|]. intros k; cbn. split; [tauto|].
    intros [? (?&?&_)]. lia.
  - specialize (IH (p ++ [c])).
    assert (EA : p ++ c :: w = (p ++ [c]) ++ w) by (rewrite <- app_assoc; reflexivity).
    rewrite EA.
    assert (EL : zlen (p ++ [c]) = zlen p + 1) by (rewrite zlen_app; reflexivity).
    rewrite EL in IH. replace (zlen p + 1 - 1) with (zlen p) in IH by lia.
    assert (Hk : zget ((p ++ [c]) ++ w) (zlen p) = Some c).
    { rewrite <- app_assoc. rewrite zget_app2 by lia. rewrite Z.sub_diag. reflexivity. }
    assert (Hp : zsub ((p ++ [c]) ++ w) 0 (zlen p) = p).
    { rewrite <- app_assoc, zsub_app_l by lia. apply zsub_full. }
    set (t := (p ++ [c]) ++ w) in *.
    assert (HZ : zlen p + 1 <= zlen t).
    { unfold t. rewrite !zlen_app, zlen_cons, zlen_nil. pose proof (zlen_nonneg w). lia. }
    pose proof (zlen_nonneg p) as Hp0.
    assert (skip : forall ys, ~ lone_escape e t 0 (zlen t) (zlen p - 1) ->
              positions (lone_escape e t 0 (zlen t)) (zlen p) (zlen t) ys ->
              positions (lone_escape e t 0 (zlen t)) (zlen p - 1) (zlen t) ys).
    { intros ys Hn [HS HP]. split; [exact HS|]. intros k. rewrite HP. split.
      - intros [? ?]; split; [lia|assumption].
      - intros [? Hu]; split; [|exact Hu]. destruct (Z.eq_dec k (zlen p - 1)) as [->|]; [contradiction|lia]. }
    rewrite esc_run_snoc, Z.eqb_sym in IH. cbn [escan].
    idtac.
    destruct (Z.eqb_spec c e) as [Ece|Ece].
    + rewrite odd_S in IH. apply skip; [|exact IH].
      intros (_ & _ & (c' & Hc' & Hne) & _). replace (zlen p - 1 + 1) with (zlen p) in Hc' by lia. congruence.
    + cbn [Nat.odd Nat.even negb] in IH.
      destruct (Nat.odd (esc_run e p)) eqn:Eo.
      * destruct IH as [HS HP]. split.
        -- constructor; [exact HS|]. apply Forall_forall. intros k Hk'. apply HP in Hk'. lia.
        -- intros k. cbn [In]. rewrite HP. split.
           ++ intros [<-|[? ?]]; [|split; [lia|assumption]]. split; [lia|].
              (* p is not empty and ends with e *)
              destruct p as [|d p0 _] using rev_ind; [discriminate|]. clear IHp0 || idtac.
              rewrite esc_run_snoc in Eo. destruct (Z.eqb_spec e d) as [Ed|]; [subst d|discriminate].
              unfold lone_escape. rewrite zlen_app, zlen_cons, zlen_nil in *.
              replace (zlen p0 + (1 + 0) - 1) with (zlen p0) by lia.
              replace (zlen p0 + 1) with (zlen p0 + (1 + 0)) by lia.
              split.
              { unfold t. rewrite <- !app_assoc. rewrite zget_app2 by lia. rewrite Z.sub_diag. reflexivity. }
              split; [lia|]. split; [exists c; split; assumption|].
              rewrite Hp. rewrite esc_run_snoc, Z.eqb_refl. exact Eo.
           ++ intros [Hb Hu]. destruct (Z.eq_dec (zlen p - 1) k); [left; assumption|right; split; [lia|exact Hu]].
      * apply skip; [|exact IH].
        intros (_ & _ & _ & Ho). replace (zlen p - 1 + 1) with (zlen p) in Ho by lia. rewrite Hp in Ho. congruence.
Qed.
Lemma escan_shift e : forall w k d esc, escan e (k + d) w esc = map (fun i => i + d) (escan e k w esc).
Proof.
  induction w as [|c w IH]; intros k d esc; cbn [escan]; [reflexivity|].
  replace (k + d + 1) with (k + 1 + d) by lia. rewrite !IH.
  destruct (c =? e); [reflexivity|]. destruct esc; [cbn [map]; f_equal; lia|reflexivity].
Qed.

Theorem find_escapes_spec u e a b : u_wf u ->
  let x := fst (from_indices (zlen (u_text u)) a b) in
  let y := snd (from_indices (zlen (u_text u)) a b) in
  exists ys, find_escapes u [e] a b = (map (fun k => k + u_offset u) ys, None) /\
             positions (lone_escape e (u_text u) x y) x y ys.
Proof.
  intros H. cbv zeta.
  destruct (u_window u a b H) as (x & y & E & Hx & Hy & Ho & H0 & HL & HT).
  rewrite E. cbn [fst snd]. unfold find_escapes. rewrite Ho. cbn [fst snd].
  rewrite escapes_loop_scan by lia.
  assert (EZ : zsub (u_string u) (u_offset u + x) (u_offset u + y) = zsub (u_text u) x y).
  { rewrite HT. rewrite zsub_zsub by lia. reflexivity. }
  rewrite EZ. replace (u_offset u + x) with (0 + x + u_offset u) by lia. rewrite !escan_shift.
  eexists. split; [reflexivity|].
  pose proof (escan_spec e (zsub (u_text u) x y) []) as [HS HP].
  rewrite app_nil_l, zlen_nil in *. change (Nat.odd (esc_run e [])) with false in *.
  rewrite zsub_len in HP by lia.
  split; [apply strongly_sorted_map_add; exact HS|].
  assert (conv : forall j, 0 <= j < y - x -> j + 1 < y - x ->
     (lone_escape e (zsub (u_text u) x y) 0 (y - x) j <-> lone_escape e (u_text u) x y (x + j))).
  { intros j Hj Hj1. unfold lone_escape. rewrite !zget_zsub by lia. rewrite zsub_zsub by lia.
    rewrite Z.add_0_r. rewrite Z.add_assoc.
    split; intros (?&?&?&?); (split; [assumption|split; [lia|split; assumption]]). }
  intros k. rewrite in_map_iff. split.
  - intros [j [<- Hj]]. apply HP in Hj. destruct Hj as [Hj Hu].
    assert (0 <= j). { destruct Hu as (Hg & _). apply zget_bounds in Hg. lia. }
    pose proof Hu as (_ & Hlt & _).
    split; [lia|]. apply conv in Hu; [|lia|lia]. rewrite Z.add_comm. exact Hu.
  - intros [Hk Hu]. pose proof Hu as (_ & Hlt & _). exists (k - x). split; [lia|]. apply HP. split; [lia|].
    apply conv; [lia|lia|]. replace (x + (k - x)) with k by lia. exact Hu.
Qed.

(** -- split_unescaped -- *)
Lemma u_slice_text u p q : u_wf u -> 0 <= p <= q -> q <= zlen (u_text u) ->
  exists v, u_slice u (Some p) (Some q) = Ok v /\ u_text v = zsub (u_text u) p q /\ u_part v u.
Proof.
  intros H Hp Hq. destruct u as [s|i]; cbn [u_slice u_text] in *.
  - eexists. split; [reflexivity|]. cbn. split; [apply py_slice_in; lia|exact I].
  - destruct (getitem_slice_facts i (Some p) (Some q) H) as (r & E & Hin & Ht & _).
    rewrite E. cbn [bind]. eexists. split; [reflexivity|]. cbn [u_text u_part]. split; [|exact Hin].
    rewrite Ht. apply py_slice_in; lia.
Qed.
Lemma u_slice_tail u p : u_wf u -> 0 <= p <= zlen (u_text u) ->
  exists v, u_slice u (Some p) None = Ok v /\ u_text v = zsub (u_text u) p (zlen (u_text u)) /\ u_part v u.
Proof.
  intros H Hp.
  assert (ES : forall t : list Z, 0 <= p <= zlen t -> py_slice t (Some p) None = zsub t p (zlen t)).
  { intros t Ht. rewrite py_slice_zsub. unfold from_indices. cbn [fst snd].
    destruct (Z.leb_spec 0 p); [|lia]. f_equal; lia. }
  destruct u as [s|i]; cbn [u_slice u_text] in *.
  - eexists. split; [reflexivity|]. cbn. split; [apply ES; lia|exact I].
  - destruct (getitem_slice_facts i (Some p) None H) as (r & E & Hin & Ht & _).
    rewrite E. cbn [bind]. eexists. split; [reflexivity|]. cbn [u_text u_part]. split; [|exact Hin].
    rewrite Ht. apply ES; lia.
Qed.

Lemma usplit_loop_ok u ys : u_wf u -> forall cur, 0 <= cur <= zlen (u_text u) ->
  StronglySorted Z.lt ys -> Forall (fun k => cur <= k < zlen (u_text u)) ys ->
  exists ps, usplit_loop u cur ys None = (ps, None) /\ map u_text ps = cut (u_text u) cur ys /\
             Forall (fun p => u_part p u) ps.
Proof.
  intros H. induction ys as [|i ys IH]; intros cur Hc HS HF; cbn [usplit_loop cut].
  - destruct (u_slice_tail u cur H Hc) as (v & E & Ht & Hp). rewrite E. exists [v].
    split; [reflexivity|]. cbn. rewrite Ht. split; [reflexivity|]. constructor; [exact Hp|constructor].
  - inversion HS as [|? ? HS' HF']; subst. inversion HF as [|? ? Hi HF2]; subst.
    destruct (u_slice_text u cur i H) as (v & E & Ht & Hp); [lia|lia|].
    destruct (IH (i + 1)) as (ps & E2 & Ht2 & Hp2); [lia|exact HS'| |].
    { rewrite Forall_forall in *. intros k Hk. specialize (HF' k Hk). specialize (HF2 k Hk). lia. }
    rewrite E, E2. exists (v :: ps). split; [reflexivity|]. cbn [map]. rewrite Ht, Ht2.
    split; [reflexivity|]. constructor; assumption.
Qed.
Lemma usplit_loop_err u ys e : u_wf u -> forall cur, 0 <= cur <= zlen (u_text u) ->
  StronglySorted Z.lt ys -> Forall (fun k => cur <= k < zlen (u_text u)) ys ->
  snd (usplit_loop u cur ys (Some e)) = Some e.
Proof.
  intros H. induction ys as [|i ys IH]; intros cur Hc HS HF; cbn [usplit_loop]; [reflexivity|].
  inversion HS as [|? ? HS' HF']; subst. inversion HF as [|? ? Hi HF2]; subst.
  destruct (u_slice_text u cur i H) as (v & E & Ht & Hp); [lia|lia|]. rewrite E. cbn [gyield snd].
  apply IH; [lia|exact HS'|]. rewrite Forall_forall in *. intros k Hk. specialize (HF' k Hk). specialize (HF2 k Hk). lia.
Qed.

Lemma cut_join t c ys : forall cur, 0 <= cur <= zlen t ->
  StronglySorted Z.lt ys -> Forall (fun k => cur <= k /\ zget t k = Some c) ys ->
  py_join [c] (cut t cur ys) = zsub t cur (zlen t).
Proof.
  induction ys as [|i ys IH]; intros cur Hc HS HF; cbn [cut]; [reflexivity|].
  inversion HS as [|? ? HS' HF']; subst. inversion HF as [|? ? [Hi Hg] HF2]; subst.
  pose proof (zget_bounds _ _ _ Hg).
  assert (E : py_join [c] (cut t (i + 1) ys) = zsub t (i + 1) (zlen t)).
  { apply IH; [lia|exact HS'|]. rewrite Forall_forall in *. intros k Hk.
    specialize (HF' k Hk). specialize (HF2 k Hk). split; [lia|tauto]. }
  assert (Hne : cut t (i + 1) ys <> []) by (destruct ys; discriminate).
  cbn [py_join]. destruct (cut t (i + 1) ys) as [|z zs] eqn:Ez; [congruence|]. rewrite E.
  rewrite <- (zsub_app_split t cur i (zlen t)) by lia.
  rewrite (zsub_step _ _ (zlen t) _ Hg) by lia. reflexivity.
Qed.

(** between two consecutive positions nothing is unescaped *)
Lemma esc_run_app0 e p w : esc_run e p = O -> esc_run e (p ++ w) = esc_run e w.
Proof.
  intros Hp. induction w as [|c w IH] using rev_ind; [rewrite app_nil_r; exact Hp|].
  rewrite app_assoc, !esc_run_snoc, IH. reflexivity.
Qed.
Lemma cut_clean e chars t ys : forall cur, 0 <= cur <= zlen t ->
  esc_run e (zsub t 0 cur) = O ->
  positions (unescaped_at e chars t 0) cur (zlen t) ys ->
  Forall (fun p => forall k, ~ unescaped_at e chars p 0 k) (cut t cur ys).
Proof.
  induction ys as [|i ys IH]; intros cur Hc H0 [HS HP]; cbn [cut].
  - constructor; [|constructor]. intros k Hu.
    assert (Hk : 0 <= k < zlen t - cur).
    { destruct Hu as (c & Hg & _). apply zget_bounds in Hg. rewrite zsub_len in Hg by lia. lia. }
    apply (in_nil (a := cur + k)). apply HP. split; [lia|].
    destruct Hu as (c & Hg & Hin & Hne & HL). exists c.
    rewrite zget_zsub in Hg by lia. split; [exact Hg|]. split; [exact Hin|]. split; [exact Hne|].
    unfold literal_after in *. rewrite zsub_zsub in HL by lia. rewrite Z.add_0_r in HL.
    rewrite <- (zsub_app_split t 0 cur (cur + k)) by lia. rewrite esc_run_app0 by exact H0. exact HL.
  - pose proof (proj1 (HP i) (or_introl eq_refl)) as [Hi (c0 & Hg0 & Hin0 & Hne0 & HL0)].
    inversion HS as [|? ? HS' HF']; subst. constructor.
    + intros k Hu.
      assert (Hk : 0 <= k < i - cur).
      { destruct Hu as (c & Hg & _). apply zget_bounds in Hg. rewrite zsub_len in Hg by lia. lia. }
      assert (Hx : In (cur + k) (i :: ys)).
      { apply HP. split; [lia|].
        destruct Hu as (c & Hg & Hin & Hne & HL). exists c.
        rewrite zget_zsub in Hg by lia. split; [exact Hg|]. split; [exact Hin|]. split; [exact Hne|].
        unfold literal_after in *. rewrite zsub_zsub in HL by lia. rewrite Z.add_0_r in HL.
        rewrite <- (zsub_app_split t 0 cur (cur + k)) by lia. rewrite esc_run_app0 by exact H0. exact HL. }
      destruct Hx as [Hx|Hx]; [lia|]. rewrite Forall_forall in HF'. specialize (HF' _ Hx). lia.
    + apply IH; [lia| |].
      * rewrite (zsub_snoc t 0 i c0) by (try assumption; lia). rewrite esc_run_snoc.
        destruct (Z.eqb_spec e c0); [congruence|reflexivity].
      * split; [exact HS'|]. intros k. split.
        -- intros Hk. rewrite Forall_forall in HF'. pose proof (HF' _ Hk).
           pose proof (proj1 (HP k) (or_intror Hk)) as [? ?]. split; [lia|assumption].
        -- intros [Hk Hu]. assert (Hk2 : cur <= k < zlen t) by lia.
           destruct (proj2 (HP k) (conj Hk2 Hu)) as [?|?]; [lia|assumption].
Qed.

Theorem split_unescaped_pieces u c e a b : u_wf u ->
  let t := u_text u in
  let ys := fst (find_unescaped u [c] [e] a b) in
  let r := split_unescaped u [c] [e] a b in
  (literal_after e (py_slice t a b) -> snd r = None /\ map u_text (fst r) = cut t 0 ys) /\
  (~ literal_after e (py_slice t a b) -> snd r = Some ValueError) /\
  (literal_after e (py_slice t a b) -> Forall (fun p => u_part p u) (fst r)).
Proof.
  intros H. cbv zeta. pose proof (find_unescaped_spec u [c] e a b H ltac:(discriminate)) as HS.
  cbv zeta in HS. unfold split_unescaped.
  pose proof (from_indices_range (zlen (u_text u)) a b (zlen_nonneg _)) as HR.
  destruct (find_unescaped u [c] [e] a b) as [ys err]. cbn [fst snd] in *.
  destruct HS as [[HS HP] [Herr Hiff]].
  assert (HF : Forall (fun k => 0 <= k < zlen (u_text u)) ys).
  { apply Forall_forall. intros k Hk. apply HP in Hk. lia. }
  pose proof (zlen_nonneg (u_text u)).
  split; [|split].
  - intros HL. apply Hiff in HL. subst err.
    destruct (usplit_loop_ok u ys H 0) as (ps & E & Ht & Hp); [lia|exact HS|exact HF|].
    rewrite E. auto.
  - intros HN. destruct Herr as [->| ->]; [exfalso; apply HN, Hiff; reflexivity|].
    apply usplit_loop_err; auto. lia.
  - intros HL. apply Hiff in HL. subst err.
    destruct (usplit_loop_ok u ys H 0) as (ps & E & Ht & Hp); [lia|exact HS|exact HF|].
    rewrite E. exact Hp.
Qed.

Theorem split_unescaped_join u c e a b : u_wf u -> literal_after e (py_slice (u_text u) a b) ->
  py_join [c] (map u_text (fst (split_unescaped u [c] [e] a b))) = u_text u.
Proof.
  intros H HL. destruct (split_unescaped_pieces u c e a b H) as [H1 _].
  destruct (H1 HL) as [_ E]. rewrite E.
  pose proof (find_unescaped_spec u [c] e a b H ltac:(discriminate)) as [[HS HP] _].
  pose proof (from_indices_range (zlen (u_text u)) a b (zlen_nonneg _)) as HR.
  rewrite cut_join; [apply zsub_full|pose proof (zlen_nonneg (u_text u)); lia|exact HS|].
  apply Forall_forall. intros k Hk. apply HP in Hk. destruct Hk as [Hb (c' & Hg & [->|[]] & _)].
  split; [lia|exact Hg].
Qed.

Theorem split_unescaped_clean u c e : u_wf u -> literal_after e (u_text u) ->
  Forall (fun p => forall k, ~ unescaped_at e [c] (u_text p) 0 k) (fst (split_unescaped u [c] [e] None None)).
Proof.
  intros H HL.
  assert (EF : from_indices (zlen (u_text u)) None None = (0, zlen (u_text u))).
  { unfold from_indices. pose proof (zlen_nonneg (u_text u)). f_equal; lia. }
  assert (HL' : literal_after e (py_slice (u_text u) None None)).
  { rewrite py_slice_zsub, EF. cbn [fst snd]. rewrite zsub_full. exact HL. }
  destruct (split_unescaped_pieces u c e None None H) as [H1 _].
  destruct (H1 HL') as [_ E].
  pose proof (find_unescaped_spec u [c] e None None H ltac:(discriminate)) as [HP _].
  rewrite EF in HP. cbn [fst snd] in HP.
  pose proof (cut_clean e [c] (u_text u) _ 0 ltac:(pose proof (zlen_nonneg (u_text u)); lia) eq_refl HP) as HC.
  rewrite <- E in HC. rewrite Forall_map in HC. exact HC.
Qed.
