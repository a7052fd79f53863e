(** Proofs: item assignment, acyclicity, ancestry. *)
From Verif Require Export HeapFacts2.
From Coq Require Import Arith.

(** ** item assignment *)

Lemma kids_put_spec h p i c : hwf h -> (p < length h)%nat -> (c < length h)%nat -> n_par (nd h c) = None ->
  nonempty h c -> Forall (nonempty h) (n_kids (nd h p)) ->
  let r := kids_put h p i c in
  hwf (fst r) /\ length (fst r) = length h /\ (forall j, n_f (nd (fst r) j) = n_f (nd h j)) /\
  ((exists e, snd r = Err e /\ fst r = h) \/
   (snd r = Ok tt /\ (i <= length (n_kids (nd h p)))%nat /\
    (forall j, n_kids (nd (fst r) j) = if (j =? p)%nat then insert_at i c (n_kids (nd h p)) else n_kids (nd h j)) /\
    (forall j, n_par (nd (fst r) j) = if (j =? c)%nat then Some p else n_par (nd h j)))).
Proof.
  intros H Hp Hc Hn Hne Hks. cbv zeta. unfold kids_put.
  destruct (Nat.ltb_spec (length (n_kids (nd h p))) i) as [Hlt|Hle]; [cbn [fst snd]; split; [exact H|split; [reflexivity|split; [auto|left; eauto]]]|].
  destruct (between_ok _ _ i (h_start h c) (h_stop h c)) eqn:Eb; cbn [negb].
  2:{ cbn [fst snd]. split; [exact H|split; [reflexivity|split; [auto|left; eauto]]]. }
  destruct (set_parent_ok h c p) eqn:Es; cbn [negb].
  2:{ cbn [fst snd]. split; [exact H|split; [reflexivity|split; [auto|left; eauto]]]. }
  apply set_parent_ok_iff in Es. destruct Es as [Hf Hcp].
  rewrite kids_set_par. destruct (split_at (n_kids (nd h p)) i Hle) as (l & r & Ek & Li). rewrite Ek.
  rewrite insert_at_split by lia. cbn [fst snd].
  assert (Hw := hwf_span h H). pose proof (hwf_sorted h H p) as Hs. 
  assert (Hkl : length (n_kids (nd h p)) = (length l + length r)%nat) by (rewrite Ek, app_length; reflexivity).
  unfold between_ok in Eb. unfold starts_of in Eb at 1 2. rewrite !map_length in Eb. fold (starts_of h (n_kids (nd h p))) in Eb.
  apply andb_true_iff in Eb. destruct Eb as [B1 B2]. rewrite negb_true_iff in B1, B2. unfold nonempty in *.
  assert (Hl : Forall (fun k => h_before h k c) l).
  { apply Forall_forall. intros k Hk. rewrite Forall_forall in Hks. assert (Hkn := Hks k ltac:(rewrite Ek; apply in_or_app; left; exact Hk)).
    apply (In_nth _ _ 0%nat) in Hk. destruct Hk as (m & Hm & Em).
    assert (Ei : (i =? 0)%nat = false) by lia. assert (El : (length (n_kids (nd h p)) =? 0)%nat = false) by lia.
    rewrite Ei, El in B1. cbn [negb andb] in B1. rewrite key_stops in B1 by lia.
    pose proof (key_at_le _ m (i - 1) (sorted_stops _ _ Hw Hs)) as Hkk. rewrite !key_stops in Hkk by lia. unfold stops_of in Hkk. rewrite map_length in Hkk.
    specialize (Hkk ltac:(lia)). replace (nth m (n_kids (nd h p)) 0%nat) with k in Hkk by (rewrite Ek, app_nth1 by lia; symmetry; exact Em).
    unfold h_before. lia. }
  assert (Hr : Forall (h_before h c) r).
  { apply Forall_forall. intros k Hk. apply (In_nth _ _ 0%nat) in Hk. destruct Hk as (m & Hm & Em).
    assert (Ei : (i =? length (n_kids (nd h p)))%nat = false) by lia. rewrite Ei in B2. cbn [negb andb] in B2. rewrite key_starts in B2 by lia.
    pose proof (key_at_le _ i (i + m) (sorted_lt_le _ (sorted_starts _ _ Hs))) as Hkk. rewrite !key_starts in Hkk by lia. unfold starts_of in Hkk. rewrite map_length in Hkk.
    specialize (Hkk ltac:(lia)). replace (nth (i + m) (n_kids (nd h p)) 0%nat) with k in Hkk.
    2:{ rewrite Ek, app_nth2 by lia. replace (i + m - length l)%nat with m by lia. symmetry. exact Em. }
    unfold h_before. lia. }
  destruct (hwf_insert h p c l r H Hp Hc Hn Hf Hcp Ek Hl Hr) as (H1 & L1 & D1).
  split; [exact H1|]. split; [exact L1|]. split; [exact D1|]. right. split; [reflexivity|]. split; [rewrite app_length; lia|]. split.
  - intros j. rewrite kids_set_kids by (rewrite set_par_length; exact Hp). rewrite ?kids_set_par, ?insert_at_split by lia. reflexivity.
  - intros j. rewrite par_set_kids. apply par_set_par. exact Hc.
Qed.
Lemma Forall_insert_at {A} (P : A -> Prop) i x l : P x -> Forall P l -> Forall P (insert_at i x l).
Proof.
  intros Hx Hl. unfold insert_at. apply Forall_app. rewrite <- (firstn_skipn i l) in Hl. apply Forall_app in Hl. destruct Hl. split; auto.
Qed.
Lemma nonempty_data h h' i : n_f (nd h' i) = n_f (nd h i) -> nonempty h i -> nonempty h' i.
Proof. unfold nonempty, h_start, h_stop. intros ->. auto. Qed.
Lemma kids_put_all_inv p : forall cs h i, hwf h -> (p < length h)%nat -> Forall (fun c => (c < length h)%nat) cs -> NoDup cs ->
  Forall (fun c => n_par (nd h c) = None /\ nonempty h c) cs -> Forall (nonempty h) (n_kids (nd h p)) ->
  let h' := fst (kids_put_all h p i cs) in
  hwf h' /\ length h' = length h /\ (forall j, n_f (nd h' j) = n_f (nd h j)).
Proof.
  induction cs as [|c cs IH]; intros h i H Hp Hcs Hnd Hn Hks; cbv zeta; cbn [kids_put_all]; [auto|].
  inversion Hcs; subst. inversion Hnd; subst. inversion Hn as [|? ? [Hcn Hce] Hn']; subst.
  destruct (kids_put_spec h p i c H Hp) as (H1 & L1 & D1 & Hr); auto.
  destruct (kids_put h p i c) as [h1 r1]. cbn [fst snd] in *. unfold obind. cbn [fst snd].
  destruct Hr as [(e & -> & ->)|(-> & Hi & K & P)]; [auto|].
  destruct (IH h1 (S i)) as (H2' & L2 & D2); auto; try lia.
  - rewrite L1. assumption.
  - rewrite Forall_forall in *. intros x Hx. destruct (Hn' x Hx) as [Hx1 Hx2]. split.
    + rewrite P. destruct (Nat.eqb_spec x c) as [->|]; [contradiction|exact Hx1].
    + apply (nonempty_data h); auto.
  - rewrite K, Nat.eqb_refl. apply Forall_insert_at; [apply (nonempty_data h); auto|].
    eapply Forall_impl; [|exact Hks]. intros a. apply nonempty_data. apply D1.
  - split; [exact H2'|]. split; [lia|]. intros j. rewrite D2. apply D1.
Qed.
Lemma kids_set_slice_inv h p a b st cs : hwf h -> (p < length h)%nat -> Forall (fun c => (c < length h)%nat) cs -> NoDup cs ->
  Forall (nonempty h) (n_kids (nd h p)) ->
  Forall (fun c => nonempty h c /\ n_par (nd (fst (kids_del_slice h p a b st)) c) = None) cs ->
  hwf (fst (kids_set_slice h p a b st cs)) /\ length (fst (kids_set_slice h p a b st cs)) = length h /\
  (forall j, n_f (nd (fst (kids_set_slice h p a b st cs)) j) = n_f (nd h j)).
Proof.
  intros H Hp Hcs Hnd Hks Hn. unfold kids_set_slice. set (start := fst (from_indices _ _ _)).
  destruct (kids_del_slice_inv h p a b st H Hp) as (H1 & L1 & D1).
  assert (K1 : Forall (nonempty h) (n_kids (nd (fst (kids_del_slice h p a b st)) p))).
  { unfold kids_del_slice. destruct (slice_positions _ a b st) as [pos|e] eqn:E; [|exact Hks]. cbn [fst].
    apply slice_positions_bound in E. destruct (kids_del_at_spec h p pos H Hp E) as (_&_&_&K&_&I). rewrite K, Nat.eqb_refl.
    apply Forall_forall. intros x Hx. apply I in Hx. rewrite Forall_forall in Hks. apply Hks. apply Hx. }
  destruct (kids_del_slice h p a b st) as [h1 [[]|e]]; cbn [fst snd] in *; unfold obind; cbn [fst snd]; [|auto].
  destruct (kids_put_all_inv p cs h1 (Z.to_nat start)) as (H2 & L2 & D2); auto; try lia.
  - rewrite L1. exact Hcs.
  - eapply Forall_impl; [|exact Hn]. intros c [Hc1 Hc2]. split; [exact Hc2|]. apply (nonempty_data h); auto.
  - eapply Forall_impl; [|exact K1]. intros c. apply nonempty_data. apply D1.
  - split; [exact H2|]. split; [lia|]. intros j. rewrite D2. apply D1.
Qed.
Lemma kids_set_int_inv h p k c : hwf h -> (p < length h)%nat -> (c < length h)%nat ->
  Forall (nonempty h) (n_kids (nd h p)) -> nonempty h c -> 
  (n_par (nd h c) = None \/ py_index (n_kids (nd h p)) (fst (from_indices (zlen (n_kids (nd h p))) (Some k) None)) = Ok c) ->
  hwf (fst (kids_set_int h p k c)) /\ length (fst (kids_set_int h p k c)) = length h /\
  (forall j, n_f (nd (fst (kids_set_int h p k c)) j) = n_f (nd h j)).
Proof.
  intros H Hp Hc Hks Hn Hpar. unfold kids_set_int.
  change (Z.of_nat (length (n_kids (nd h p)))) with (zlen (n_kids (nd h p))). set (start := fst (from_indices _ _ _)) in *.
  destruct (kids_del_int_inv h p start H Hp) as (H1 & L1 & D1).
  assert (K1 : Forall (nonempty h) (n_kids (nd (fst (kids_del_int h p start)) p)) /\
               (snd (kids_del_int h p start) = Ok tt -> n_par (nd (fst (kids_del_int h p start)) c) = None)).
  { unfold kids_del_int. destruct (py_pos _ start) as [m|e] eqn:E; [|split; [exact Hks|intros [=]]]. cbn [fst snd].
    pose proof (py_pos_ok _ _ _ E) as Hm. destruct (kids_del_at_spec h p [m] H Hp) as (_&_&_&K&P&I); [constructor; auto|].
    split; [rewrite K, Nat.eqb_refl; apply Forall_forall; intros x Hx; apply I in Hx; rewrite Forall_forall in Hks; apply Hks; apply Hx|].
    intros _. rewrite P. cbn [removed_at map existsb]. rewrite orb_false_r.
    destruct (Nat.eqb_spec c (nth m (n_kids (nd h p)) 0%nat)) as [|Hne]; [reflexivity|]. destruct Hpar as [Hpar|Hpar]; [exact Hpar|].
    exfalso. apply Hne. unfold py_pos in E. unfold py_index, zget, zlen in Hpar. set (k' := if start <? 0 then _ else _) in *.
    destruct ((0 <=? k') && (k' <? Z.of_nat (length (n_kids (nd h p))))) eqn:E3; [|discriminate]. injection E as <-.
    destruct (Z.ltb_spec k' 0); [lia|]. destruct (nth_error (n_kids (nd h p)) (Z.to_nat k')) eqn:E4; [|discriminate]. injection Hpar as ->.
    symmetry. apply nth_error_nth. exact E4. }
  destruct K1 as [K1 P1].
  destruct (kids_del_int h p start) as [h1 [[]|e]]; cbn [fst snd] in *; unfold obind; cbn [fst snd]; [|auto].
  destruct (kids_put_spec h1 p (Z.to_nat start) c) as (H2 & L2 & D2 & _); auto; try lia.
  - apply (nonempty_data h); auto.
  - eapply Forall_impl; [|exact K1]. intros x. apply nonempty_data. apply D1.
  - split; [exact H2|]. split; [lia|]. intros j. rewrite D2. apply D1.
Qed.

(** ** ancestry *)
Lemma anc_trans h a b c : anc h a b -> anc h b c -> anc h a c.
Proof. intros Hab Hbc. induction Hbc as [i Hi|i p Hi Hp IH]; [apply (anc_up h a i b); auto|apply (anc_up h a i p); auto]. Qed.
Lemma anc_bound h a i : hwf h -> anc h a i -> (a < length h)%nat /\ (i < length h)%nat.
Proof.
  intros H Ha. induction Ha as [i Hi|i p Hi Hp IH].
  - destruct (hwf_par h H a i Hi) as [Hin ?]. apply (hwf_kid h H) in Hin. tauto.
  - destruct (hwf_par h H p i Hi) as [Hin ?]. apply (hwf_kid h H) in Hin. tauto.
Qed.
Lemma anc_span h a i : hwf h -> anc h a i -> fits h i a.
Proof.
  intros H Ha. induction Ha as [i Hi|i p Hi Hp IH].
  - apply (hwf_par h H) in Hi. destruct Hi as [Hin _]. apply (hwf_kid h H) in Hin. tauto.
  - apply (hwf_par h H) in Hi. destruct Hi as [Hin _]. apply (hwf_kid h H) in Hin. destruct Hin as (_ & Hf & _).
    unfold fits in *. destruct Hf as (?&?&?), IH as (?&?&?). split; [congruence|lia].
Qed.
Lemma cycle_span h a b : hwf h -> anc h a b -> anc h b a -> h_start h a = h_start h b /\ h_stop h a = h_stop h b /\ h_string h a = h_string h b.
Proof. intros H Hab Hba. apply (anc_span h) in Hab, Hba; auto. unfold fits in *. intuition lia. Qed.

Lemma add_acyclic h p c l r : hwf h -> acyclic h -> (p < length h)%nat -> (c < length h)%nat -> n_par (nd h c) = None -> c <> p ->
  let h' := set_kids (set_par h c (Some p)) p (l ++ c :: r) in
  (acyclic h' <-> ~ anc h c p).
Proof.
  intros H Ha Hp Hc Hn Hne. cbv zeta. set (h' := set_kids _ p _).
  assert (P : forall j, n_par (nd h' j) = if (j =? c)%nat then Some p else n_par (nd h j)).
  { intros j. unfold h'. rewrite par_set_kids. apply par_set_par. exact Hc. }
  clearbody h'.
  assert (M : forall a i, anc h a i -> anc h' a i).
  { intros a i Hai. induction Hai as [i Hi|i q Hi Hq IH].
    - apply anc_parent. rewrite P. destruct (Nat.eqb_spec i c) as [->|]; [congruence|exact Hi].
    - apply (anc_up _ _ _ q); [|exact IH]. rewrite P. destruct (Nat.eqb_spec i c) as [->|]; [congruence|exact Hi]. }
  split.
  - intros Hac Hcp. apply (Hac c). apply (anc_up _ _ _ p); [|apply M; exact Hcp]. rewrite P, Nat.eqb_refl. reflexivity.
  - intros Hcp.
    assert (A : forall a i, anc h' a i -> i <> c -> ~ anc h c i -> anc h a i).
    { intros a i Hai. induction Hai as [i Hi|i q Hi Hq IH]; intros Hic Hci; rewrite P in Hi; destruct (Nat.eqb_spec i c); try contradiction.
      - apply anc_parent. exact Hi.
      - destruct (Nat.eq_dec q c) as [->|Hqc]; [exfalso; apply Hci; apply anc_parent; exact Hi|].
        apply (anc_up _ _ _ q); [exact Hi|]. apply IH; [exact Hqc|]. intros Hcq. apply Hci. apply (anc_up _ _ _ q); assumption. }
    assert (Ap : forall a, anc h' a p -> anc h a p) by (intros a Hap; apply A; auto).
    assert (B : forall a i, anc h' a i -> anc h a i \/ ((i = c \/ anc h c i) /\ (a = p \/ anc h a p))).
    { intros a i Hai. induction Hai as [i Hi|i q Hi Hq IH]; rewrite P in Hi; destruct (Nat.eqb_spec i c) as [Eic|Hic]; try subst i.
      - injection Hi as <-. right. auto.
      - left. apply anc_parent. exact Hi.
      - injection Hi as <-. right. split; [left; reflexivity|right; apply Ap; exact Hq].
      - destruct IH as [IH|[[->|IH1] IH2]].
        + left. apply (anc_up _ _ _ q); assumption.
        + right. split; [right; apply anc_parent; exact Hi|exact IH2].
        + right. split; [right; apply (anc_up _ _ _ q); assumption|exact IH2]. }
    intros i Hi. destruct (B i i Hi) as [Hii|[[->|Hci] [->|Hip]]].
    + exact (Ha i Hii).
    + congruence.
    + contradiction.
    + contradiction.
    + apply Hcp. eapply anc_trans; eassumption.
Qed.
(** adding an Ito whose span differs from the parent's cannot close a cycle *)
Lemma kids_add_acyclic p : forall cs h, hwf h -> acyclic h -> (p < length h)%nat -> Forall (fun c => (c < length h)%nat) cs ->
  Forall (fun c => ~ same_span h c p) cs -> acyclic (fst (kids_add h p cs)).
Proof.
  induction cs as [|c cs IH]; intros h H Ha Hp Hcs Hns; cbn [kids_add]; [exact Ha|].
  inversion Hcs; subst. inversion Hns as [|? ? Hnc Hns']; subst.
  destruct (kids_add1_spec h p c H Hp) as [((Hn & Hf & Hne & _) & l & r & Ek & Hl & Hr & E)|(_ & E)]; auto; rewrite E; unfold obind; cbn [fst snd]; [|exact Ha].
  destruct (hwf_insert h p c l r H Hp) as (H1' & L1 & D1); auto.
  apply IH; auto; try lia.
  - apply add_acyclic; auto. intros Hcp. apply (anc_span h) in Hcp; auto. apply Hnc. unfold same_span, fits in *. lia.
  - rewrite L1. assumption.
  - eapply Forall_impl; [|exact Hns']. intros x Hx Hs. apply Hx. unfold same_span, h_start, h_stop in *. rewrite !D1 in Hs. exact Hs.
Qed.
(** fewer parent links: still acyclic *)
Lemma acyclic_mono h h' : (forall j p, n_par (nd h' j) = Some p -> n_par (nd h j) = Some p) -> acyclic h -> acyclic h'.
Proof.
  intros P Ha i Hi. apply (Ha i). revert Hi. generalize i at 1 3. intros a Hai. induction Hai as [j Hj|j q Hj Hq IH]; [apply anc_parent; auto|apply (anc_up _ _ _ q); auto].
Qed.
Lemma clear_par_mono h cs : Forall (fun c => (c < length h)%nat) cs -> forall p ks j q,
  n_par (nd (set_kids (clear_pars h cs) p ks) j) = Some q -> n_par (nd h j) = Some q.
Proof.
  intros Hc p ks j q. rewrite par_set_kids. destruct (clear_pars_facts cs h Hc) as (_&_&_&P). rewrite P. destruct (existsb _ cs); [discriminate|auto].
Qed.
Lemma kids_del_at_acyclic h p pos : hwf h -> Forall (fun k => (k < length (n_kids (nd h p)))%nat) pos -> acyclic h -> acyclic (kids_del_at h p pos).
Proof.
  intros H Hpos. apply acyclic_mono. intros j q. unfold kids_del_at. apply clear_par_mono.
  apply Forall_forall. intros x Hx. apply in_map_iff in Hx. destruct Hx as (k & <- & Hk). rewrite Forall_forall in Hpos.
  assert (Hin : In (nth k (n_kids (nd h p)) 0%nat) (n_kids (nd h p))) by (apply nth_In; apply Hpos; exact Hk). apply (hwf_kid h H) in Hin. tauto.
Qed.
Lemma kids_del_int_acyclic h p k : hwf h -> acyclic h -> acyclic (fst (kids_del_int h p k)).
Proof. intros H Ha. unfold kids_del_int. destruct (py_pos _ k) eqn:E; cbn [fst]; [|exact Ha]. apply kids_del_at_acyclic; auto. constructor; [eapply py_pos_ok; exact E|constructor]. Qed.
Lemma kids_del_slice_acyclic h p a b st : hwf h -> acyclic h -> acyclic (fst (kids_del_slice h p a b st)).
Proof. intros H Ha. unfold kids_del_slice. destruct (slice_positions _ a b st) eqn:E; cbn [fst]; [|exact Ha]. apply kids_del_at_acyclic; auto. eapply slice_positions_bound. exact E. Qed.
Lemma new_acyclic h f : hwf h -> acyclic h -> acyclic (h ++ [Nd f None []]).
Proof. intros H. apply acyclic_mono. intros j p. rewrite nd_app. destruct (j =? length h)%nat; [discriminate|auto]. Qed.
Lemma root_not_below h c r : n_par (nd h r) = None -> ~ anc h c r.
Proof. intros Hn Ha. inversion Ha; congruence. Qed.
(** adding only to a parentless node is always safe *)
Lemma kids_add_root_acyclic p : forall cs h, hwf h -> acyclic h -> (p < length h)%nat -> Forall (fun c => (c < length h)%nat) cs ->
  n_par (nd h p) = None -> acyclic (fst (kids_add h p cs)) /\ n_par (nd (fst (kids_add h p cs)) p) = None.
Proof.
  induction cs as [|c cs IH]; intros h H Ha Hp Hcs Hpn; cbn [kids_add]; [auto|].
  inversion Hcs; subst.
  destruct (kids_add1_spec h p c H Hp) as [((Hn & Hf & Hne & _) & l & r & Ek & Hl & Hr & E)|(_ & E)]; auto; rewrite E; unfold obind; cbn [fst snd]; [|auto].
  destruct (hwf_insert h p c l r H Hp) as (H1' & L1 & D1); auto.
  apply IH; auto; try lia.
  - apply add_acyclic; auto. apply root_not_below. exact Hpn.
  - rewrite L1. assumption.
  - rewrite par_set_kids, par_set_par by assumption. destruct (Nat.eqb_spec p c) as [Epc|]; [congruence|exact Hpn].
Qed.
Lemma clone_h_acyclic : forall fuel h i a b d k, hwf h -> (i < length h)%nat -> acyclic h ->
  acyclic (fst (clone_h fuel h i a b d k)).
Proof.
  induction fuel as [|fuel IH]; intros h i a b d k H Hi Ha; cbn [clone_h]; [exact Ha|].
  unfold new_node, obind at 1. cbn [fst snd].
  set (f := clone_f (n_f (nd h i)) a b d). set (h1 := h ++ [Nd f None []]).
  assert (H1 : hwf h1) by (apply hwf_new; [exact H|apply clone_f_wf]).
  assert (A1 : acyclic h1) by (apply new_acyclic; auto).
  assert (L1 : length h1 = S (length h)) by (unfold h1; rewrite app_length; cbn; lia).
  assert (N1 : n_par (nd h1 (length h)) = None) by (unfold h1; rewrite nd_app, Nat.eqb_refl; reflexivity).
  destruct k; [|exact A1].
  assert (Hks : Forall (fun c => (c < length h1)%nat) (n_kids (nd h i))) by (apply Forall_forall; intros c Hc; apply (hwf_kid h H) in Hc; lia).
  assert (G : forall l g, hwf g -> acyclic g -> Forall (fun c => (c < length g)%nat) l -> acyclic (fst (map_clone (fun h c => clone_h fuel h c None None None true) g l))).
  { induction l as [|c l IHl]; intros g Hg Ag Hl; cbn [map_clone]; [exact Ag|]. inversion Hl; subst.
    pose proof (clone_h_inv fuel g c None None None true Hg ltac:(assumption)) as (Hg1 & Eg1 & _).
    pose proof (IH g c None None None true Hg ltac:(assumption) Ag) as Ag1.
    destruct (clone_h fuel g c None None None true) as [g1 [c'|e]]; cbn [fst snd] in *; unfold obind; cbn [fst snd]; [|exact Ag1].
    fold (map_clone (fun h c => clone_h fuel h c None None None true)).
    assert (Hl1 : Forall (fun c => (c < length g1)%nat) l) by (eapply Forall_impl; [|eassumption]; destruct Eg1; cbn; intros; lia).
    specialize (IHl g1 Hg1 Ag1 Hl1). destruct (map_clone _ g1 l) as [g2 [cs|e]]; exact IHl. }
  pose proof (G _ h1 H1 A1 Hks) as A2.
  destruct (map_clone_inv (fun h c => clone_h fuel h c None None None true) (fun h c Hh Hc => clone_h_inv fuel h c None None None true Hh Hc) (n_kids (nd h i)) h1 H1 Hks) as (H2 & E2 & R2).
  destruct (map_clone _ h1 (n_kids (nd h i))) as [h2 [cs|e]]; cbn [fst snd] in *; unfold obind at 1; cbn [fst snd]; [|exact A2].
  specialize (R2 cs eq_refl). destruct E2 as [L2 N2].
  assert (Hcs : Forall (fun c => (c < length h2)%nat) cs) by (eapply Forall_impl; [|exact R2]; cbn; intros; lia).
  destruct (kids_add_root_acyclic (length h) cs h2 H2 A2 ltac:(lia) Hcs) as [A3 _]; [rewrite N2 by lia; exact N1|].
  destruct (kids_add h2 (length h) cs) as [h3 [[]|e]]; cbn [fst snd] in *; unfold obind; cbn [fst snd]; exact A3.
Qed.

(** ** histories that never add an Ito under a parent with its own span *)
Lemma step_acyclic h o : hwf h -> acyclic h -> op_strict h o -> acyclic (step h o).
Proof.
  intros H Ha Ho. unfold step. destruct (forallb _ (ids_of o)) eqn:E; [|exact Ha].
  assert (Hid : forall i, In i (ids_of o) -> (i < length h)%nat) by (intros i Hi; rewrite forallb_forall in E; apply E in Hi; lia).
  destruct o; cbn [exec ids_of op_strict] in *.
  - apply new_acyclic; auto.
  - unfold new_sub. destruct (ito_of_ito _ a b d); cbn; [apply new_acyclic; auto|exact Ha].
  - apply clone_h_acyclic; auto. apply Hid. left; reflexivity.
  - apply (acyclic_mono h); [|exact Ha]. intros j p. unfold upd_f. rewrite nd_upd. destruct (Nat.eqb_spec j i); cbn [andb]; [|auto]. subst. destruct (i <? length h)%nat; auto.
  - apply (acyclic_mono h); [|exact Ha]. intros j p. unfold upd_f. rewrite nd_upd. destruct (Nat.eqb_spec j i); cbn [andb]; [|auto]. subst. destruct (i <? length h)%nat; auto.
  - apply kids_add_acyclic; auto; [apply Hid; left; reflexivity|]. apply Forall_forall. intros c Hc. apply Hid. right. exact Hc.
  - unfold kids_remove. destruct (bfind_start _ _) as [found i]. destruct (found && _); [|exact Ha]. apply kids_del_int_acyclic; auto.
  - unfold kids_pop. pose proof (kids_del_int_acyclic h p k H Ha) as Hd. unfold kids_del_int in *. destruct (py_pos _ k); cbn; [|exact Ha]. exact Hd.
  - apply kids_del_int_acyclic; auto.
  - apply kids_del_slice_acyclic; auto.
  - unfold kids_clear. apply kids_del_slice_acyclic; auto.
Qed.
Lemma run_acyclic os : forall h, hwf h -> acyclic h -> run_strict h os -> acyclic (run h os).
Proof. induction os as [|o os IH]; intros h H Ha Hs; [exact Ha|]. destruct Hs as [Ho Hs]. apply IH; [apply step_inv; exact H|apply step_acyclic; auto|exact Hs]. Qed.
Lemma acyclic_nil : acyclic [].
Proof. intros i Hi. assert (E : forall j, nd [] j = dnode) by (intros [|j]; reflexivity). inversion Hi; rewrite E in *; discriminate. Qed.

(** ** get_root, descends_from *)
Lemma anc_up_inv h a i : anc h a i -> exists p, n_par (nd h i) = Some p /\ (a = p \/ anc h a p).
Proof. intros H. inversion H; subst; eauto. Qed.
Lemma get_root_aux h : hwf h -> acyclic h -> forall fuel i vs, (i < length h)%nat -> NoDup vs -> Forall (fun v => anc h i v) vs ->
  (length h <= fuel + length vs)%nat -> exists r, get_root (S fuel) h i = Ok r /\ root_of h r i.
Proof.
  intros H Ha. induction fuel as [|fuel IH]; intros i vs Hi Hnd Hvs Hlen.
  - exfalso. assert (Hn : NoDup (i :: vs)).
    { constructor; [|exact Hnd]. intros Hin. rewrite Forall_forall in Hvs. exact (Ha i (Hvs i Hin)). }
    assert (Hincl : incl (i :: vs) (seq 0 (length h))).
    { intros x [<-|Hx]; apply in_seq; [lia|]. rewrite Forall_forall in Hvs. apply Hvs in Hx. apply anc_bound in Hx; [lia|exact H]. }
    pose proof (NoDup_incl_length Hn Hincl) as Hl. rewrite seq_length in Hl. cbn in Hl. lia.
  - cbn [get_root]. destruct (n_par (nd h i)) as [p|] eqn:Ep; [|exists i; split; [reflexivity|split; [exact Ep|left; reflexivity]]].
    destruct (IH p (i :: vs)) as (r & Er & Hr & Hra).
    + apply (hwf_par h H) in Ep. tauto.
    + constructor; [|exact Hnd]. intros Hin. rewrite Forall_forall in Hvs. exact (Ha i (Hvs i Hin)).
    + constructor; [apply anc_parent; exact Ep|]. eapply Forall_impl; [|exact Hvs]. intros v Hv. eapply anc_trans; [apply anc_parent; exact Ep|exact Hv].
    + cbn [length]. lia.
    + exists r. split; [exact Er|]. split; [exact Hr|]. right. destruct Hra as [->|Hra]; [apply anc_parent; exact Ep|apply (anc_up _ _ _ p); assumption].
Qed.
Lemma get_root_spec h i : hwf h -> acyclic h -> (i < length h)%nat -> exists r, get_root (depth_fuel h) h i = Ok r /\ root_of h r i.
Proof. intros H Ha Hi. apply (get_root_aux h H Ha (length h) i []); auto; [constructor|cbn; lia]. Qed.
Lemma root_unique h i r r' : root_of h r i -> root_of h r' i -> r = r'.
Proof.
  intros [Hr Hri] [Hr' Hri'].
  assert (G : forall a, anc h a i -> forall b, n_par (nd h a) = None -> n_par (nd h b) = None -> (b = i \/ anc h b i) -> a = b).
  { clear Hri Hri'. intros a Ha. induction Ha as [j Hj|j p Hj Hp IH]; intros b Na Nb [->|Hb]; try congruence.
    - apply anc_up_inv in Hb. destruct Hb as (q & Eq & Hb). rewrite Hj in Eq. injection Eq as <-. destruct Hb as [->|Hb]; [reflexivity|]. exfalso. exact (root_not_below _ _ _ Na Hb).
    - apply anc_up_inv in Hb. destruct Hb as (q & Eq & Hb). rewrite Hj in Eq. injection Eq as <-. apply IH; auto. }
  destruct Hri as [->|Hri]; [|eapply G; eauto]. destruct Hri' as [->|Hri']; [reflexivity|]. symmetry. eapply G; eauto.
Qed.
Lemma descends_aux h a : hwf h -> acyclic h -> forall fuel i vs, (i < length h)%nat -> NoDup vs -> Forall (fun v => anc h i v) vs ->
  (length h <= fuel + length vs)%nat -> exists b, descends_from (S fuel) h i a = Ok b /\ (b = true <-> anc h a i).
Proof.
  intros H Ha. induction fuel as [|fuel IH]; intros i vs Hi Hnd Hvs Hlen.
  - exfalso. assert (Hn : NoDup (i :: vs)).
    { constructor; [|exact Hnd]. intros Hin. rewrite Forall_forall in Hvs. exact (Ha i (Hvs i Hin)). }
    assert (Hincl : incl (i :: vs) (seq 0 (length h))).
    { intros x [<-|Hx]; apply in_seq; [lia|]. rewrite Forall_forall in Hvs. apply Hvs in Hx. apply anc_bound in Hx; [lia|exact H]. }
    pose proof (NoDup_incl_length Hn Hincl) as Hl. rewrite seq_length in Hl. cbn in Hl. lia.
  - cbn [descends_from]. destruct (n_par (nd h i)) as [p|] eqn:Ep.
    2:{ exists false. split; [reflexivity|]. split; [discriminate|]. intros Hx. apply anc_up_inv in Hx. destruct Hx as (p & E & _). congruence. }
    destruct (Nat.eqb_spec p a) as [->|Hne].
    { exists true. split; [reflexivity|]. split; [intros _; apply anc_parent; exact Ep|reflexivity]. }
    destruct (IH p (i :: vs)) as (b & Eb & Hb).
    + apply (hwf_par h H) in Ep. tauto.
    + constructor; [|exact Hnd]. intros Hin. rewrite Forall_forall in Hvs. exact (Ha i (Hvs i Hin)).
    + constructor; [apply anc_parent; exact Ep|]. eapply Forall_impl; [|exact Hvs]. intros v Hv. eapply anc_trans; [apply anc_parent; exact Ep|exact Hv].
    + cbn [length]. lia.
    + exists b. split; [exact Eb|]. rewrite Hb. split.
      * intros Hx. apply (anc_up _ _ _ p); assumption.
      * intros Hx. apply anc_up_inv in Hx. destruct Hx as (q & E & Hx). rewrite Ep in E. injection E as <-. destruct Hx as [->|Hx]; [contradiction|exact Hx].
Qed.
Lemma descends_spec h i a : hwf h -> acyclic h -> (i < length h)%nat -> exists b, descends_from (depth_fuel h) h i a = Ok b /\ (b = true <-> anc h a i).
Proof. intros H Ha Hi. apply (descends_aux h a H Ha (length h) i []); auto; [constructor|cbn; lia]. Qed.
