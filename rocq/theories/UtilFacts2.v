(** Proofs about find_balanced and about escape / descape. *)
From Verif Require Export UtilFacts.

(** -- the stack machine on marked delimiters -- *)
Fixpoint bl (items : list (Z * bool)) (err : option exn) (lefts : list Z) : gen (Z * Z) :=
  match items with
  | [] => match err with
          | Some e => graise e
          | None => match lefts with [] => ([], None) | _ => graise ValueError end
          end
  | (k, true) :: t => bl t err (k :: lefts)
  | (k, false) :: t => match lefts with
                       | [] => graise ValueError
                       | [p] => gyield (p, k + 1) (bl t err [])
                       | _ :: lefts' => bl t err lefts'
                       end
  end.
Lemma bal_loop_bl s off l r err : l <> r -> forall items lefts,
  Forall (fun it : Z * bool => zget s (off + fst it) = Some (if snd it then l else r)) items ->
  bal_loop s off l r (map fst items) err lefts = bl items err lefts.
Proof.
  intros Hlr. induction items as [|[k b] items IH]; intros lefts HF; cbn [map bal_loop bl fst]; [reflexivity|].
  inversion HF as [|? ? H1 H2]; subst. cbn [fst snd] in H1. rewrite H1. cbn [odflt].
  destruct (Z.eqb_spec l r); [contradiction|]. cbn [negb orb]. rewrite andb_true_r.
  destruct b.
  - rewrite Z.eqb_refl. apply IH; exact H2.
  - destruct (Z.eqb_spec r l); [congruence|].
    destruct lefts as [|p [|p2 lefts]]; [reflexivity| |apply IH; exact H2].
    rewrite IH by exact H2. reflexivity.
Qed.

Lemma bl_bal u : balanced u -> forall rest err lefts, lefts <> [] -> bl (u ++ rest) err lefts = bl rest err lefts.
Proof.
  induction 1 as [|p u q v Hu IHu Hv IHv]; intros rest err lefts Hl; [reflexivity|].
  cbn [app bl]. rewrite <- app_assoc, IHu by discriminate. cbn [app bl].
  destruct lefts as [|x lefts]; [congruence|]. apply IHv. discriminate.
Qed.
Lemma bl_out items segs : outermost items segs ->
  bl items None [] = (map (fun s => (fst s, snd s + 1)) segs, None).
Proof.
  induction 1 as [|p u q v segs Hu Hv IH]; [reflexivity|].
  cbn [bl]. rewrite bl_bal by (try exact Hu; discriminate). cbn [bl]. rewrite IH. reflexivity.
Qed.

Fixpoint closes (lefts : list Z) (items : list (Z * bool)) (segs : list (Z * Z)) : Prop :=
  match lefts with
  | [] => outermost items segs
  | p :: l' => exists u q rest, balanced u /\ items = u ++ (q, false) :: rest /\
      match l' with
      | [] => exists segs', segs = (p, q) :: segs' /\ outermost rest segs'
      | _ => closes l' rest segs
      end
  end.
Lemma bl_closes : forall items lefts, snd (bl items None lefts) = None -> exists segs, closes lefts items segs.
Proof.
  induction items as [|[k b] items IH]; intros lefts H; cbn [bl] in H.
  - destruct lefts; [|discriminate]. exists []. constructor.
  - destruct b.
    + apply IH in H. destruct H as [segs (u & q & rest & Hu & E & H)]. exists segs.
      destruct lefts as [|p l'].
      * destruct H as (segs' & -> & Ho). cbn [closes]. subst items. constructor; assumption.
      * destruct H as (u2 & q2 & rest2 & Hu2 & E2 & H2). cbn [closes].
        exists ((k, true) :: u ++ (q, false) :: u2), q2, rest2. split; [constructor; assumption|].
        split; [subst items rest; cbn [app]; rewrite <- app_assoc; reflexivity|exact H2].
    + destruct lefts as [|p [|p2 l']]; [discriminate| |].
      * cbn [gyield snd] in H. apply (IH []) in H. destruct H as [segs H]. exists ((p, k) :: segs).
        exists [], k, items. split; [constructor|]. split; [reflexivity|]. exists segs. split; [reflexivity|exact H].
      * apply IH in H. destruct H as [segs H]. exists segs. exists [], k, items.
        split; [constructor|]. split; [reflexivity|exact H].
Qed.
Lemma bl_err_kind : forall items err lefts, (err = None \/ err = Some ValueError) ->
  snd (bl items err lefts) = None \/ snd (bl items err lefts) = Some ValueError.
Proof.
  induction items as [|[k b] items IH]; intros err lefts He; cbn [bl].
  - destruct He as [->| ->]; [destruct lefts; auto|auto].
  - destruct b; [apply IH; exact He|]. destruct lefts as [|p [|p2 l']]; [right; reflexivity| |apply IH; exact He].
    cbn [gyield snd]. apply IH; exact He.
Qed.
Lemma bl_err : forall items lefts, snd (bl items (Some ValueError) lefts) = Some ValueError.
Proof.
  induction items as [|[k b] items IH]; intros lefts; cbn [bl]; [reflexivity|].
  destruct b; [apply IH|]. destruct lefts as [|p [|p2 l']]; [reflexivity| |apply IH].
  cbn [gyield snd]. apply IH.
Qed.

(** -- positions of the segments -- *)
Lemma ss_app_lt (x y : list Z) a b : StronglySorted Z.lt (x ++ y) -> In a x -> In b y -> a < b.
Proof.
  induction x as [|z x IH]; cbn; intros HS Ha Hb; [tauto|].
  inversion HS as [|? ? HS' HF]; subst. destruct Ha as [->|Ha]; [|apply IH; assumption].
  rewrite Forall_forall in HF. apply HF. apply in_or_app. right; exact Hb.
Qed.
Lemma ss_app_r (x y : list Z) : StronglySorted Z.lt (x ++ y) -> StronglySorted Z.lt y.
Proof. induction x; cbn; intros H; [exact H|]. inversion H; auto. Qed.

Lemma outermost_facts items segs : outermost items segs -> StronglySorted Z.lt (map fst items) ->
  Forall (fun s => fst s < snd s /\ In (fst s, true) items /\ In (snd s, false) items) segs /\
  StronglySorted (fun s1 s2 => snd s1 < fst s2) segs.
Proof.
  induction 1 as [|p u q v segs Hu Hv IH]; intros HS; [split; constructor|].
  assert (HS2 : StronglySorted Z.lt ((p :: map fst u ++ [q]) ++ map fst v)).
  { cbn [map fst] in HS. rewrite map_app in HS. cbn [map fst] in HS. cbn [app]. rewrite <- app_assoc. exact HS. }
  destruct (IH (ss_app_r _ _ HS2)) as [H1 H2].
  assert (Hpq : p < q).
  { cbn [app] in HS2. inversion HS2 as [|? ? _ HF]; subst. rewrite Forall_forall in HF. apply HF.
    apply in_or_app; left. apply in_or_app; right; left; reflexivity. }
  split.
  - constructor.
    + cbn [fst snd]. split; [exact Hpq|]. split; [left; reflexivity|].
      right. apply in_or_app. right; left; reflexivity.
    + eapply Forall_impl; [|exact H1]. cbn beta. intros [a b] (Ha & Hb & Hc). split; [exact Ha|].
      split; right; apply in_or_app; right; right; assumption.
  - constructor; [exact H2|]. eapply Forall_impl; [|exact H1]. cbn beta. intros [a b] (Ha & Hb & Hc).
    cbn [fst snd] in *. apply (ss_app_lt _ _ q a HS2).
    + right. apply in_or_app; right; left; reflexivity.
    + apply (in_map fst) in Hb. exact Hb.
Qed.

(** -- slicing -- *)
Lemma slice_all_ok u err : u_wf u -> forall segs,
  Forall (fun s => 0 <= fst s <= snd s /\ snd s < zlen (u_text u)) segs ->
  let r := slice_all u (map (fun s => (fst s, snd s + 1)) segs) err in
  snd r = err /\ map u_text (fst r) = map (fun s => zsub (u_text u) (fst s) (snd s + 1)) segs /\
  Forall (fun p => u_part p u) (fst r).
Proof.
  intros H. cbv zeta. induction segs as [|[p q] segs IH]; intros HF; cbn [map slice_all fst snd].
  - split; [reflexivity|]. split; [reflexivity|constructor].
  - inversion HF as [|? ? [Hp Hq] HF']; subst. cbn [fst snd] in *.
    destruct (u_slice_text u p (q + 1) H) as (v & E & Ht & Hpart); [lia|lia|].
    rewrite E. destruct (IH HF') as (E1 & E2 & E3). cbn [gyield fst snd map].
    split; [exact E1|]. rewrite E2, Ht. split; [reflexivity|]. constructor; assumption.
Qed.
Lemma u_slice_total u a b : u_wf u -> exists v, u_slice u a b = Ok v.
Proof.
  intros H. destruct u as [s|i]; cbn [u_slice]; [eauto|].
  destruct (getitem_slice_facts i a b H) as (r & E & _). rewrite E. cbn [bind]. eauto.
Qed.
Lemma slice_all_snd u err ps : u_wf u -> snd (slice_all u ps err) = err.
Proof.
  intros H. induction ps as [|[a b] ps IH]; cbn [slice_all]; [reflexivity|].
  destruct (u_slice_total u (Some a) (Some b) H) as [v E]. rewrite E. exact IH.
Qed.

(** marking *)
Lemma mark_items (t : pystr) (l r : Z) ys : l <> r -> Forall (fun k => zget t k = Some l \/ zget t k = Some r) ys ->
  exists items, map fst items = ys /\ Forall (fun it : Z * bool => zget t (fst it) = Some (if snd it then l else r)) items.
Proof.
  intros Hlr HF. induction HF as [|k ys Hk HF IH]; [exists []; split; [reflexivity|constructor]|].
  destruct IH as (items & E & HI). destruct Hk as [Hk|Hk].
  - exists ((k, true) :: items). cbn. rewrite E. split; [reflexivity|]. constructor; assumption.
  - exists ((k, false) :: items). cbn. rewrite E. split; [reflexivity|]. constructor; assumption.
Qed.

Lemma u_text_get u k : u_wf u -> 0 <= k < zlen (u_text u) -> zget (u_text u) k = zget (u_string u) (u_offset u + k).
Proof.
  intros H Hk. destruct (u_window u None None H) as (x & y & _ & _ & _ & _ & H0 & HL & HT).
  rewrite HT at 1. apply zget_zsub; lia.
Qed.

Theorem find_balanced_spec u l r e a b : u_wf u -> l <> r ->
  let t := u_text u in
  let x := fst (from_indices (zlen t) a b) in
  let y := snd (from_indices (zlen t) a b) in
  let res := find_balanced u [l] [r] [e] a b in
  exists items, delimiters e l r t x y items /\
    (snd res = None \/ snd res = Some ValueError) /\
    (snd res = None <-> literal_after e (py_slice t a b) /\ exists segs, outermost items segs) /\
    (forall segs, snd res = None -> outermost items segs ->
       map u_text (fst res) = map (fun s => zsub t (fst s) (snd s + 1)) segs /\
       Forall (fun p => u_part p u) (fst res) /\
       Forall (fun s => fst s < snd s /\ zget t (fst s) = Some l /\ zget t (snd s) = Some r) segs /\
       StronglySorted (fun s1 s2 => snd s1 < fst s2) segs).
Proof.
  intros H Hlr. cbv zeta.
  pose proof (find_unescaped_spec u [l; r] e a b H ltac:(discriminate)) as HS. cbv zeta in HS.
  pose proof (from_indices_range (zlen (u_text u)) a b (zlen_nonneg _)) as HR.
  unfold find_balanced. destruct (find_unescaped u [l; r] [e] a b) as [ys err]. cbn [fst snd] in HS.
  destruct HS as [HP [Herr Hiff]].
  destruct (mark_items (u_text u) l r ys Hlr) as (items & EI & HI).
  { apply Forall_forall. intros k Hk. apply HP in Hk. destruct Hk as [_ (c & Hg & [->|[->|[]]] & _)]; auto. }
  exists items. split; [split; [rewrite EI; exact HP|exact HI]|].
  assert (HI2 : Forall (fun it : Z * bool => zget (u_string u) (u_offset u + fst it) = Some (if snd it then l else r)) items).
  { eapply Forall_impl; [|exact HI]. cbn beta. intros it Hit. rewrite <- u_text_get; [exact Hit|exact H|].
    apply zget_bounds in Hit. exact Hit. }
  rewrite <- EI. rewrite bal_loop_bl by assumption.
  destruct (bl items err []) as [ps err'] eqn:EB.
  assert (Epp : snd (bl items err []) = err') by (rewrite EB; reflexivity).
  rewrite slice_all_snd by exact H.
  split; [rewrite <- Epp; apply bl_err_kind; exact Herr|].
  split.
  - rewrite <- Epp, <- Hiff. split.
    + intros HN. destruct Herr as [->| ->]; [|rewrite bl_err in HN; discriminate].
      split; [reflexivity|]. apply (bl_closes items []) in HN. exact HN.
    + intros [-> [segs Ho]]. rewrite (bl_out _ _ Ho). reflexivity.
  - intros segs -> Ho.
    assert (err = None). { destruct Herr as [->| ->]; [reflexivity|]. rewrite bl_err in Epp; discriminate. } subst err.
    rewrite (bl_out _ _ Ho) in EB. injection EB as <-.
    destruct (outermost_facts _ _ Ho) as [F1 F2]; [rewrite EI; apply HP|].
    assert (F3 : Forall (fun s => fst s < snd s /\ zget (u_text u) (fst s) = Some l /\ zget (u_text u) (snd s) = Some r) segs).
    { eapply Forall_impl; [|exact F1]. cbn beta. intros s (Hs & Ha & Hb). rewrite Forall_forall in HI.
      apply HI in Ha. apply HI in Hb. auto. }
    destruct (slice_all_ok u None H segs) as (_ & T1 & T2).
    { eapply Forall_impl; [|exact F3]. cbn beta. intros s (Hs & Ha & Hb).
      apply zget_bounds in Ha. apply zget_bounds in Hb. lia. }
    auto.
Qed.

(** equal delimiters *)
Lemma bal_loop_pairs s off l err : forall ys, Forall (fun k => zget s (off + k) = Some l) ys ->
  (err = None \/ err = Some ValueError) ->
  let r := bal_loop s off l l ys err [] in
  (snd r = None \/ snd r = Some ValueError) /\
  (snd r = None <-> err = None /\ exists segs, paired ys segs) /\
  (forall segs, snd r = None -> paired ys segs -> fst r = map (fun s => (fst s, snd s + 1)) segs).
Proof.
  intros ys. remember (length ys) as n eqn:En. revert ys En.
  induction n as [n IH] using lt_wf_ind. intros ys En HF He. cbv zeta.
  destruct ys as [|p [|q ys]]; cbn [bal_loop].
  - destruct He as [->| ->]; cbn.
    + split; [auto|]. split; [split; [intros _; split; [reflexivity|exists []; constructor]|auto]|].
      intros segs _ HP. inversion HP. reflexivity.
    + split; [auto|]. split; [split; [discriminate|intros [? _]; discriminate]|]. discriminate.
  - inversion HF as [|? ? H1 _]; subst. rewrite H1. cbn [odflt]. rewrite Z.eqb_refl. cbn [negb orb andb].
    assert (Hn : ~ exists segs, paired [p] segs) by (intros [segs HP]; inversion HP).
    destruct He as [->| ->]; cbn; (split; [auto|]; split; [split; [discriminate|intros [_ HP]; contradiction]|discriminate]).
  - inversion HF as [|? ? H1 HF']; subst. inversion HF' as [|? ? H2 HF2]; subst.
    rewrite H1, H2. cbn [odflt]. rewrite Z.eqb_refl. cbn [negb orb andb].
    destruct (IH (length ys)) with (ys := ys) as (I1 & I2 & I3); [cbn; lia|reflexivity|exact HF2|exact He|].
    cbn [gyield fst snd]. split; [exact I1|]. split.
    + rewrite I2. split; intros [HE [segs HP]]; (split; [exact HE|]).
      * exists ((p, q) :: segs). constructor; exact HP.
      * inversion HP; subst. eauto.
    + intros segs HN HP. inversion HP as [|? ? ? segs' HP']; subst. cbn [map fst snd].
      rewrite (I3 segs' HN HP'). reflexivity.
Qed.
Lemma paired_facts ys segs : paired ys segs -> StronglySorted Z.lt ys ->
  Forall (fun s => fst s < snd s /\ In (fst s) ys /\ In (snd s) ys) segs /\
  StronglySorted (fun s1 s2 => snd s1 < fst s2) segs.
Proof.
  induction 1 as [|p q v segs Hv IH]; intros HS; [split; constructor|].
  inversion HS as [|? ? HS1 HF1]; subst. inversion HS1 as [|? ? HS2 HF2]; subst.
  destruct (IH HS2) as [A B]. split.
  - constructor.
    + cbn [fst snd]. inversion HF1; subst. split; [assumption|]. split; [left; reflexivity|right; left; reflexivity].
    + eapply Forall_impl; [|exact A]. cbn beta. intros s (?&?&?). split; [assumption|]. split; right; right; assumption.
  - constructor; [exact B|]. eapply Forall_impl; [|exact A]. cbn beta. intros s (?&Hs&?). cbn [snd].
    rewrite Forall_forall in HF2. apply HF2. exact Hs.
Qed.

Theorem find_balanced_same u l e a b : u_wf u ->
  let t := u_text u in
  let x := fst (from_indices (zlen t) a b) in
  let y := snd (from_indices (zlen t) a b) in
  let res := find_balanced u [l] [l] [e] a b in
  exists ys, positions (unescaped_at e [l] t x) x y ys /\
    (snd res = None \/ snd res = Some ValueError) /\
    (snd res = None <-> literal_after e (py_slice t a b) /\ exists segs, paired ys segs) /\
    (forall segs, snd res = None -> paired ys segs ->
       map u_text (fst res) = map (fun s => zsub t (fst s) (snd s + 1)) segs /\
       Forall (fun p => u_part p u) (fst res) /\
       Forall (fun s => fst s < snd s /\ zget t (fst s) = Some l /\ zget t (snd s) = Some l) segs /\
       StronglySorted (fun s1 s2 => snd s1 < fst s2) segs).
Proof.
  intros H. cbv zeta.
  pose proof (find_unescaped_spec u [l; l] e a b H ltac:(discriminate)) as HS. cbv zeta in HS.
  pose proof (from_indices_range (zlen (u_text u)) a b (zlen_nonneg _)) as HR.
  unfold find_balanced. destruct (find_unescaped u [l; l] [e] a b) as [ys err]. cbn [fst snd] in HS.
  destruct HS as [HP [Herr Hiff]]. exists ys.
  assert (HP' : positions (unescaped_at e [l] (u_text u) (fst (from_indices (zlen (u_text u)) a b)))
     (fst (from_indices (zlen (u_text u)) a b)) (snd (from_indices (zlen (u_text u)) a b)) ys).
  { destruct HP as [A B]. split; [exact A|]. intros k. rewrite B. unfold unescaped_at. cbn [In].
    split; intros [? (c & ? & ? & ?)]; (split; [assumption|]; exists c; tauto). }
  split; [exact HP'|].
  assert (HF : Forall (fun k => zget (u_text u) k = Some l) ys).
  { apply Forall_forall. intros k Hk. apply HP' in Hk. destruct Hk as [_ (c & Hg & [->|[]] & _)]. exact Hg. }
  assert (HF2 : Forall (fun k => zget (u_string u) (u_offset u + k) = Some l) ys).
  { eapply Forall_impl; [|exact HF]. cbn beta. intros k Hk. rewrite <- u_text_get; [exact Hk|exact H|].
    apply zget_bounds in Hk. exact Hk. }
  destruct (bal_loop_pairs (u_string u) (u_offset u) l err ys HF2 Herr) as (P1 & P2 & P3).
  destruct (bal_loop (u_string u) (u_offset u) l l ys err []) as [ps err']. cbn [fst snd] in *.
  rewrite slice_all_snd by exact H. split; [exact P1|]. split; [rewrite P2, Hiff; reflexivity|].
  intros segs -> HPa. rewrite (P3 segs eq_refl HPa).
  destruct (paired_facts _ _ HPa) as [F1 F2]; [apply HP|].
  assert (F3 : Forall (fun s => fst s < snd s /\ zget (u_text u) (fst s) = Some l /\ zget (u_text u) (snd s) = Some l) segs).
  { eapply Forall_impl; [|exact F1]. cbn beta. intros s (Hs & Ha & Hb). rewrite Forall_forall in HF. auto. }
  destruct (slice_all_ok u None H segs) as (_ & T1 & T2).
  { eapply Forall_impl; [|exact F3]. cbn beta. intros s (Hs & Ha & Hb).
    apply zget_bounds in Ha. apply zget_bounds in Hb. lia. }
  auto.
Qed.

(** -- escape / descape -- *)
Definition esc1 (x : Z) : pystr := if mem_char x must_escape then [92; x] else [x].
Lemma replace_flat_map c r (f : Z -> pystr) v :
  py_replace_char c r (flat_map f v) = flat_map (fun x => py_replace_char c r (f x)) v.
Proof.
  unfold py_replace_char. induction v as [|x v IH]; cbn; [reflexivity|]. rewrite flat_map_app, IH. reflexivity.
Qed.
Lemma flat_map_ext' (f g : Z -> pystr) v : (forall x, f x = g x) -> flat_map f v = flat_map g v.
Proof. intros H. induction v as [|x v IH]; cbn; [reflexivity|]. rewrite H, IH. reflexivity. Qed.
Lemma escape_flat v : escape v = flat_map esc1 v.
Proof.
  unfold escape. change (filter (fun c => negb (c =? 92)) must_escape) with [91; 93; 47; 44; 123; 125].
  cbn [fold_left]. change (py_replace_char 92 [92; 92] v) with (flat_map (fun x => if x =? 92 then [92; 92] else [x]) v).
  rewrite !replace_flat_map. apply flat_map_ext'. intros x.
  destruct (Z.eqb_spec x 92) as [->|H1]; [reflexivity|].
  destruct (Z.eqb_spec x 91) as [->|H2]; [reflexivity|].
  destruct (Z.eqb_spec x 93) as [->|H3]; [reflexivity|].
  destruct (Z.eqb_spec x 47) as [->|H4]; [reflexivity|].
  destruct (Z.eqb_spec x 44) as [->|H5]; [reflexivity|].
  destruct (Z.eqb_spec x 123) as [->|H6]; [reflexivity|].
  destruct (Z.eqb_spec x 125) as [->|H7]; [reflexivity|].
  unfold esc1, must_escape. cbn [lit mem_char existsb].
  unfold py_replace_char. cbn [flat_map app].
  repeat (match goal with |- context [?a =? ?b] => destruct (Z.eqb_spec a b); [cbn in *; lia|] end; cbn [flat_map app]).
  reflexivity.
Qed.
Lemma mem_92 : mem_char 92 must_escape = true.
Proof. reflexivity. Qed.

Lemma descape_loop_escape v : forall rest acc,
  descape_loop (flat_map esc1 v ++ rest) acc false = descape_loop rest (acc ++ v) false.
Proof.
  induction v as [|x v IH]; intros rest acc; cbn [flat_map app]; [rewrite app_nil_r; reflexivity|].
  unfold esc1 at 1. destruct (mem_char x must_escape) eqn:E; cbn [app descape_loop].
  - cbn [orb Z.eqb Pos.eqb negb]. rewrite IH, <- app_assoc. reflexivity.
  - destruct (Z.eqb_spec x 92) as [->|]; [rewrite mem_92 in E; discriminate|]. cbn [orb negb].
    rewrite IH, <- app_assoc. reflexivity.
Qed.
Theorem descape_escape v : descape (escape v) = Ok v.
Proof.
  unfold descape. rewrite escape_flat, <- (app_nil_r (flat_map esc1 v)), descape_loop_escape. reflexivity.
Qed.

(** scanning an escaped text sees nothing *)
Lemma scan_escaped chars v : (forall c, In c chars -> In c must_escape) -> forall k rest,
  scan chars 92 k (flat_map esc1 v ++ rest) false = scan chars 92 (k + zlen (flat_map esc1 v)) rest false.
Proof.
  intros Hc. induction v as [|x v IH]; intros k rest; cbn [flat_map app].
  - f_equal. rewrite zlen_nil. lia.
  - unfold esc1 at 1 3. destruct (mem_char x must_escape) eqn:E; cbn [app scan].
    + cbn [Z.eqb Pos.eqb]. rewrite IH. f_equal. rewrite !zlen_cons. lia.
    + destruct (Z.eqb_spec x 92) as [->|]; [rewrite mem_92 in E; discriminate|].
      assert (Em : mem_char x chars = false).
      { destruct (mem_char x chars) eqn:E2; [|reflexivity]. apply mem_char_in in E2. apply Hc in E2.
        apply mem_char_in in E2. congruence. }
      rewrite Em. rewrite IH.
      replace (k + zlen (x :: flat_map esc1 v)) with (k + 1 + zlen (flat_map esc1 v)) by (rewrite zlen_cons; lia).
      destruct (scan chars 92 _ rest false); reflexivity.
Qed.

Theorem escape_clean v : 
  (forall k, ~ unescaped_at 92 must_escape (escape v) 0 k) /\ literal_after 92 (escape v).
Proof.
  pose proof (scan_window must_escape 92 (escape v) 0 (zlen (escape v))) as H.
  pose proof (zlen_nonneg (escape v)).
  destruct H as [H1 [_ H2]]; [lia|lia|].
  rewrite zsub_full in *.
  assert (E : scan must_escape 92 0 (escape v) false = ([], false)).
  { rewrite escape_flat. rewrite <- (app_nil_r (flat_map esc1 v)). rewrite scan_escaped by auto. reflexivity. }
  rewrite E in *. cbn [fst snd] in *. split.
  - intros k Hu. apply (in_nil (a := k)). apply H2. split; [|exact Hu].
    destruct Hu as (c & Hg & _). apply zget_bounds in Hg. lia.
  - unfold literal_after. apply even_odd_false. symmetry. exact H1.
Qed.

Lemma cut_shift p t ys : forall cur, 0 <= cur -> Forall (fun k => 0 <= k) ys ->
  cut (p ++ t) (zlen p + cur) (map (fun k => k + zlen p) ys) = cut t cur ys.
Proof.
  induction ys as [|i ys IH]; intros cur Hc HF; cbn [map cut].
  - rewrite zsub_app_r by lia. rewrite zlen_app. do 2 f_equal; lia.
  - inversion HF; subst. rewrite zsub_app_r by lia. f_equal; [f_equal; lia|].
    replace (i + zlen p + 1) with (zlen p + (i + 1)) by lia. apply IH; [lia|assumption].
Qed.

Lemma scan_join vs : vs <> [] ->
  let t := py_join [44] (map escape vs) in
  snd (scan [44] 92 0 t false) = false /\ cut t 0 (fst (scan [44] 92 0 t false)) = map escape vs /\
  Forall (fun k => 0 <= k) (fst (scan [44] 92 0 t false)).
Proof.
  cbv zeta. assert (Hc : forall c, In c [44] -> In c must_escape).
  { intros c [<-|[]]. cbn. tauto. }
  induction vs as [|v vs IH]; [congruence|]. intros _. destruct vs as [|v2 vs].
  - cbn [map py_join]. rewrite escape_flat. rewrite <- (app_nil_r (flat_map esc1 v)) at 1 3 5.
    rewrite scan_escaped by exact Hc. cbn [scan fst snd cut]. split; [reflexivity|].
    split; [rewrite zsub_full; reflexivity|constructor].
  - specialize (IH ltac:(discriminate)). set (t := py_join [44] (map escape (v2 :: vs))) in *.
    assert (ET : py_join [44] (map escape (v :: v2 :: vs)) = (escape v ++ [44]) ++ t).
    { rewrite <- app_assoc. reflexivity. }
    rewrite ET. destruct IH as (I1 & I2 & I3).
    assert (ES : scan [44] 92 0 ((escape v ++ [44]) ++ t) false =
       (zlen (escape v) :: map (fun k => k + zlen (escape v ++ [44])) (fst (scan [44] 92 0 t false)), false)).
    { rewrite <- app_assoc. rewrite escape_flat at 1. rewrite scan_escaped by exact Hc.
      rewrite <- escape_flat. rewrite Z.add_0_l. cbn [app scan Z.eqb Pos.eqb mem_char existsb orb].
      replace (zlen (escape v) + 1) with (0 + zlen (escape v ++ [44])).
      2:{ rewrite zlen_app. change (zlen [44]) with 1. lia. }
      rewrite scan_shift, I1. reflexivity. }
    rewrite ES. cbn [fst snd]. split; [reflexivity|]. pose proof (zlen_nonneg (escape v)). split.
    + cbn [cut]. cbn [map]. f_equal.
      * rewrite <- app_assoc, zsub_app_l by lia. apply zsub_full.
      * replace (zlen (escape v) + 1) with (zlen (escape v ++ [44]) + 0).
        2:{ rewrite zlen_app. change (zlen [44]) with 1. lia. }
        rewrite cut_shift by (try lia; exact I3). exact I2.
    + constructor; [lia|]. apply Forall_map. eapply Forall_impl; [|exact I3]. cbn beta. intros k Hk.
      pose proof (zlen_nonneg (escape v ++ [44])). lia.
Qed.

Theorem escape_list_round vs : vs <> [] ->
  exists ps, split_unescaped (UStr (py_join [44] (map escape vs))) [44] [92] None None = (ps, None) /\
             map (fun p => descape (u_text p)) ps = map Ok vs.
Proof.
  intros Hv. destruct (scan_join vs Hv) as (E1 & E2 & E3). set (t := py_join [44] (map escape vs)) in *.
  pose proof (split_unescaped_pieces (UStr t) 44 92 None None I) as (P1 & _ & _).
  pose proof (find_unescaped_scan (UStr t) [44] 92 None None I ltac:(discriminate)) as EF.
  cbv zeta in *. cbn [u_text] in *.
  assert (EI : from_indices (zlen t) None None = (0, zlen t)).
  { unfold from_indices. pose proof (zlen_nonneg t). f_equal; lia. }
  rewrite EI in EF. cbn [fst snd] in EF. rewrite zsub_full in EF.
  pose proof (find_unescaped_spec (UStr t) [44] 92 None None I ltac:(discriminate)) as (_ & _ & HL).
  cbn [u_text] in HL. rewrite EF in HL. cbn [snd] in HL. rewrite E1 in HL.
  destruct (P1 (proj1 HL eq_refl)) as [Q1 Q2].
  rewrite EF in Q2. cbn [fst] in Q2. rewrite E2 in Q2.
  destruct (split_unescaped (UStr t) [44] [92] None None) as [ps er]. cbn [fst snd] in *. subst er.
  exists ps. split; [reflexivity|].
  rewrite <- (map_map u_text descape), Q2, map_map. apply map_ext. intros v. apply descape_escape.
Qed.

Lemma descape_loop_acc v : forall rv esc, descape_loop v rv esc = match descape_loop v [] esc with Ok w => Ok (rv ++ w) | Err e => Err e end.
Proof.
  induction v as [|c v IH]; intros rv esc; cbn [descape_loop].
  - destruct esc; [reflexivity|]. rewrite app_nil_r. reflexivity.
  - destruct (esc || negb (c =? 92)); [|apply IH].
    rewrite (IH (rv ++ [c])), (IH ([] ++ [c])). destruct (descape_loop v [] false); [|reflexivity]. cbn [app]. rewrite <- app_assoc. reflexivity.
Qed.
Lemma descape_err v : forall rv esc e, descape_loop v rv esc = Err e -> e = ValueError.
Proof. induction v as [|c v IH]; intros rv esc e; cbn [descape_loop]; [destruct esc; [intros [= <-]; reflexivity|discriminate]|]. destruct (_ || _); apply IH. Qed.
Lemma descape_cons c v : descape (c :: v) =
  if c =? 92 then match v with [] => Err ValueError | d :: v' => match descape v' with Ok w => Ok (d :: w) | Err e => Err e end end
  else match descape v with Ok w => Ok (c :: w) | Err e => Err e end.
Proof.
  unfold descape. cbn [descape_loop orb]. destruct (c =? 92); cbn [negb].
  - destruct v as [|d v]; [reflexivity|]. cbn [descape_loop orb]. rewrite descape_loop_acc. reflexivity.
  - rewrite descape_loop_acc. reflexivity.
Qed.
Theorem descape_exact v : (forall w, descape v = Ok w <-> unescapes 92 v w) /\
  (descape v = Err ValueError <-> forall w, ~ unescapes 92 v w).
Proof.
  assert (A : forall n v, (length v <= n)%nat -> forall w, descape v = Ok w <-> unescapes 92 v w).
  { clear v. induction n as [|n IH]; intros v L w.
    - destruct v; [|cbn in L; lia]. cbn. split; [intros [= <-]; constructor|intros H; inversion H; reflexivity].
    - destruct v as [|c v]; [apply (IH [] ltac:(cbn; lia))|]. cbn in L. rewrite descape_cons. destruct (Z.eqb_spec c 92) as [->|Hc].
      + destruct v as [|d v]; [split; [discriminate|intros H; inversion H; congruence]|].
        cbn in L. assert (Lv : (length v <= n)%nat) by lia. specialize (IH v Lv).
        destruct (descape v) as [w'|e] eqn:E.
        * split; [intros [= <-]; constructor; apply IH; reflexivity|]. intros H. inversion H as [|? ? ? Hn _|? ? w0 H0]; subst; [congruence|].
          apply IH in H0. congruence.
        * split; [discriminate|]. intros H. inversion H as [|? ? ? Hn _|? ? w0 H0]; subst; [congruence|]. apply IH in H0. discriminate.
      + assert (Lv : (length v <= n)%nat) by lia. specialize (IH v Lv). destruct (descape v) as [w'|e] eqn:E.
        * split; [intros [= <-]; constructor; [exact Hc|apply IH; reflexivity]|]. intros H. inversion H as [|? ? w0 Hn H0|? ? w0 H0]; subst; [|congruence].
          apply IH in H0. congruence.
        * split; [discriminate|]. intros H. inversion H as [|? ? w0 Hn H0|? ? w0 H0]; subst; [|congruence]. apply IH in H0. discriminate. }
  split; [apply (A (length v) v (le_n _))|]. split.
  - intros E w H. apply (A (length v) v (le_n _)) in H. congruence.
  - intros H. destruct (descape v) as [w|e] eqn:E; [destruct (H w); apply (A (length v) v (le_n _)); exact E|].
    f_equal. exact (descape_err v [] false e E).
Qed.
