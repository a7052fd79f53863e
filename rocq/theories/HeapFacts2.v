(** Proofs about the heap model: removal, allocation, histories. *)
From Verif Require Export HeapFacts Tree.
From Coq Require Import Arith.

(** ** removal *)
Lemma clear_pars_facts cs : forall h, Forall (fun c => (c < length h)%nat) cs ->
  length (clear_pars h cs) = length h /\
  (forall j, n_f (nd (clear_pars h cs) j) = n_f (nd h j)) /\
  (forall j, n_kids (nd (clear_pars h cs) j) = n_kids (nd h j)) /\
  (forall j, n_par (nd (clear_pars h cs) j) = if existsb (Nat.eqb j) cs then None else n_par (nd h j)).
Proof.
  induction cs as [|c cs IH]; intros h Hc; cbn [clear_pars fold_left existsb]; [auto|].
  inversion Hc; subst. destruct (IH (set_par h c None)) as (L & D & K & P).
  { eapply Forall_impl; [|eassumption]. intros a. rewrite set_par_length. auto. }
  unfold clear_pars in *. rewrite set_par_length in L. split; [exact L|].
  split; [intros j; rewrite D; apply f_set_par|]. split; [intros j; rewrite K; apply kids_set_par|].
  intros j. rewrite P, par_set_par by assumption. destruct (Nat.eqb_spec j c); cbn [orb]; [|reflexivity].
  destruct (existsb _ cs); reflexivity.
Qed.
Lemma existsb_nat j l : existsb (Nat.eqb j) l = true <-> In j l.
Proof. rewrite existsb_exists. split; [intros (x & Hx & E); apply Nat.eqb_eq in E; subst; exact Hx|intros H; exists j; split; [exact H|apply Nat.eqb_refl]]. Qed.
Lemma existsb_nat_false j l : existsb (Nat.eqb j) l = false <-> ~ In j l.
Proof. rewrite <- existsb_nat. destruct (existsb _ l); split; congruence. Qed.

Lemma drop_positions_in {A} pos (x : A) : forall l k,
  In x (drop_positions k pos l) <-> exists m, nth_error l m = Some x /\ ~ In (k + m)%nat pos.
Proof.
  induction l as [|y l IH]; intros k; cbn [drop_positions].
  - split; [intros []|intros ([|m] & E & _); discriminate].
  - destruct (existsb (Nat.eqb k) pos) eqn:E.
    + apply existsb_nat in E. rewrite IH. split.
      * intros (m & Em & Hn). exists (S m). split; [exact Em|]. replace (k + S m)%nat with (S k + m)%nat by lia. exact Hn.
      * intros ([|m] & Em & Hn); [rewrite Nat.add_0_r in Hn; contradiction|]. exists m. split; [exact Em|]. replace (S k + m)%nat with (k + S m)%nat by lia. exact Hn.
    + apply existsb_nat_false in E. cbn [In]. rewrite IH. split.
      * intros [<-|(m & Em & Hn)]; [exists 0%nat; rewrite Nat.add_0_r; auto|]. exists (S m). split; [exact Em|]. replace (k + S m)%nat with (S k + m)%nat by lia. exact Hn.
      * intros ([|m] & Em & Hn); [left; injection Em; auto|]. right. exists m. split; [exact Em|]. replace (S k + m)%nat with (k + S m)%nat by lia. exact Hn.
Qed.
Lemma drop_positions_incl {A} pos : forall (l : list A) k x, In x (drop_positions k pos l) -> In x l.
Proof. intros l k x H. apply drop_positions_in in H. destruct H as (m & E & _). eapply nth_error_In. exact E. Qed.
Lemma drop_positions_sorted {A} (R : A -> A -> Prop) pos : forall l k, StronglySorted R l -> StronglySorted R (drop_positions k pos l).
Proof.
  intros l k H. revert k. induction H as [|x l Hs IH Hf]; intros k; cbn [drop_positions]; [constructor|].
  destruct (existsb _ pos); auto. constructor; auto. rewrite Forall_forall in *. intros y Hy. apply Hf. eapply drop_positions_incl. exact Hy.
Qed.

Lemma slice_run_bound n st : st <> 0 -> forall fuel i stop,
  (st < 0 -> -1 <= stop /\ i <= Z.of_nat n - 1) -> (0 < st -> 0 <= i /\ stop <= Z.of_nat n) ->
  Forall (fun k => (k < n)%nat) (slice_run fuel i stop st).
Proof.
  intros Hst. induction fuel as [|fuel IH]; intros i stop Hn Hp; cbn [slice_run]; [constructor|].
  destruct (Z.ltb_spec st 0) as [Hneg|Hpos].
  - specialize (Hn Hneg). destruct (Z.ltb_spec stop i); [|constructor]. constructor; [lia|]. apply IH; intros; lia.
  - specialize (Hp ltac:(lia)). destruct (Z.ltb_spec i stop); [|constructor]. constructor; [lia|]. apply IH; intros; lia.
Qed.
Lemma slice_positions_bound n a b st pos : slice_positions n a b st = Ok pos -> Forall (fun k => (k < n)%nat) pos.
Proof.
  unfold slice_positions. destruct (Z.eqb_spec (odflt st 1) 0) as [|Hne]; [discriminate|].
  set (s := odflt st 1) in *. destruct (slice_bounds (Z.of_nat n) a b s) as [i j] eqn:E. intros [= <-].
  unfold slice_bounds in E.
  apply slice_run_bound; [exact Hne| |]; intros Hs; (destruct (Z.ltb_spec s 0); [|]; try lia); injection E as <- <-.
  - split; [destruct b as [v|]; [destruct (Z.ltb_spec v 0); [destruct (Z.ltb_spec (v + Z.of_nat n) 0)|destruct (Z.leb_spec (Z.of_nat n) v)]|]; lia|].
    destruct a as [v|]; [destruct (Z.ltb_spec v 0); [destruct (Z.ltb_spec (v + Z.of_nat n) 0)|destruct (Z.leb_spec (Z.of_nat n) v)]|]; lia.
  - split; [destruct a as [v|]; [destruct (Z.ltb_spec v 0); [destruct (Z.ltb_spec (v + Z.of_nat n) 0)|destruct (Z.leb_spec (Z.of_nat n) v)]|]; lia|].
    destruct b as [v|]; [destruct (Z.ltb_spec v 0); [destruct (Z.ltb_spec (v + Z.of_nat n) 0)|destruct (Z.leb_spec (Z.of_nat n) v)]|]; lia.
Qed.

(** removing children [rem] from p, leaving ks' *)
Lemma hwf_detach h h' p rem ks' : hwf h -> length h' = length h ->
  (forall j, n_f (nd h' j) = n_f (nd h j)) ->
  (forall j, n_kids (nd h' j) = if (j =? p)%nat then ks' else n_kids (nd h j)) ->
  (forall j, n_par (nd h' j) = if existsb (Nat.eqb j) rem then None else n_par (nd h j)) ->
  (forall x, In x rem -> In x (n_kids (nd h p))) ->
  (forall x, In x ks' <-> In x (n_kids (nd h p)) /\ ~ In x rem) ->
  kids_sorted h ks' -> hwf h'.
Proof.
  intros H L D K P Hrem Hks Hso. constructor.
  - intros i. rewrite D. apply (hwf_span h H).
  - intros q k Hin. rewrite K in Hin. rewrite P, L.
    assert (Hin' : In k (n_kids (nd h q)) /\ ~ In k rem).
    { destruct (Nat.eqb_spec q p) as [->|Hq]; [apply Hks; exact Hin|]. split; [exact Hin|].
      intros Hr. apply Hrem in Hr. apply (hwf_kid h H) in Hr. apply (hwf_kid h H) in Hin. destruct Hr as [E1 _], Hin as [E2 _]. congruence. }
    destruct Hin' as [Hin' Hnr]. apply existsb_nat_false in Hnr. rewrite Hnr.
    destruct (hwf_kid h H q k Hin') as (Hpk & Hfk & Hkp & Hkl). repeat split; auto; apply (data_fits h); auto.
  - intros q k Hpar. rewrite P in Hpar. destruct (existsb (Nat.eqb k) rem) eqn:E; [discriminate|].
    apply existsb_nat_false in E. destruct (hwf_par h H q k Hpar) as [Hin Hq]. rewrite K, L. split; [|exact Hq].
    destruct (Nat.eqb_spec q p) as [->|]; [|exact Hin]. apply Hks. auto.
  - intros q. rewrite K. destruct (Nat.eqb_spec q p) as [->|]; (apply (data_sorted h); [intros; apply D|]); auto. apply (hwf_sorted h H).
Qed.

Definition removed_at (h : heap) (p : nat) (pos : list nat) : list nat := map (fun k => nth k (n_kids (nd h p)) 0%nat) pos.

Lemma kids_del_at_spec h p pos : hwf h -> (p < length h)%nat -> Forall (fun k => (k < length (n_kids (nd h p)))%nat) pos ->
  let h' := kids_del_at h p pos in
  let rem := removed_at h p pos in
  hwf h' /\ length h' = length h /\ (forall j, n_f (nd h' j) = n_f (nd h j)) /\
  (forall j, n_kids (nd h' j) = if (j =? p)%nat then drop_positions 0 pos (n_kids (nd h p)) else n_kids (nd h j)) /\
  (forall j, n_par (nd h' j) = if existsb (Nat.eqb j) rem then None else n_par (nd h j)) /\
  (forall x, In x (drop_positions 0 pos (n_kids (nd h p))) <-> In x (n_kids (nd h p)) /\ ~ In x rem).
Proof.
  intros H Hp Hpos. cbv zeta. unfold kids_del_at. fold (removed_at h p pos). set (rem := removed_at h p pos).
  assert (Hrem : forall x, In x rem -> In x (n_kids (nd h p))).
  { intros x Hx. apply in_map_iff in Hx. destruct Hx as (k & <- & Hk). rewrite Forall_forall in Hpos. apply nth_In. apply Hpos. exact Hk. }
  assert (Hlt : Forall (fun c => (c < length h)%nat) rem).
  { apply Forall_forall. intros x Hx. apply Hrem in Hx. apply (hwf_kid h H) in Hx. tauto. }
  destruct (clear_pars_facts rem h Hlt) as (L1 & D1 & K1 & P1).
  set (h1 := clear_pars h rem) in *.
  assert (L : length (set_kids h1 p (drop_positions 0 pos (n_kids (nd h1 p)))) = length h) by (rewrite set_kids_length; exact L1).
  assert (D : forall j, n_f (nd (set_kids h1 p (drop_positions 0 pos (n_kids (nd h1 p)))) j) = n_f (nd h j)) by (intros j; rewrite f_set_kids; apply D1).
  assert (K : forall j, n_kids (nd (set_kids h1 p (drop_positions 0 pos (n_kids (nd h1 p)))) j) = if (j =? p)%nat then drop_positions 0 pos (n_kids (nd h p)) else n_kids (nd h j)).
  { intros j. rewrite kids_set_kids by lia. rewrite !K1. reflexivity. }
  assert (P : forall j, n_par (nd (set_kids h1 p (drop_positions 0 pos (n_kids (nd h1 p)))) j) = if existsb (Nat.eqb j) rem then None else n_par (nd h j)).
  { intros j. rewrite par_set_kids. apply P1. }
  assert (Hks : forall x, In x (drop_positions 0 pos (n_kids (nd h p))) <-> In x (n_kids (nd h p)) /\ ~ In x rem).
  { intros x. rewrite drop_positions_in. pose proof (kids_nodup h _ (hwf_sorted h H p)) as Hnd. split.
    - intros (m & Em & Hm). split; [eapply nth_error_In; exact Em|]. intros Hx. apply in_map_iff in Hx. destruct Hx as (k & Ek & Hk).
      rewrite Forall_forall in Hpos. pose proof (Hpos k Hk) as Hkl.
      assert (Hm' : (m < length (n_kids (nd h p)))%nat) by (apply nth_error_Some; congruence).
      apply (nth_error_nth _ _ 0%nat) in Em. cbn in Hm. rewrite (NoDup_nth _ 0%nat) in Hnd.
      specialize (Hnd k m Hkl Hm' ltac:(congruence)). subst. contradiction.
    - intros (Hx & Hn). apply In_nth_error in Hx. destruct Hx as (m & Em). exists m. split; [exact Em|]. cbn. intros Hm. apply Hn.
      apply in_map_iff. exists m. split; [apply nth_error_nth; exact Em|exact Hm]. }
  split; [|auto].
  apply (hwf_detach h _ p rem (drop_positions 0 pos (n_kids (nd h p)))); auto.
  apply drop_positions_sorted. apply (hwf_sorted h H).
Qed.

Lemma py_pos_ok n k i : py_pos n k = Ok i -> (i < n)%nat.
Proof. unfold py_pos. set (k' := if k <? 0 then _ else _). destruct ((0 <=? k') && (k' <? Z.of_nat n)) eqn:E; [|discriminate]. intros [= <-]. lia. Qed.
Lemma py_pos_nat n i : (i < n)%nat -> py_pos n (Z.of_nat i) = Ok i.
Proof. intros H. unfold py_pos. destruct (Z.ltb_spec (Z.of_nat i) 0); [lia|]. destruct ((0 <=? Z.of_nat i) && (Z.of_nat i <? Z.of_nat n)) eqn:E; [|lia]. f_equal. lia. Qed.

Lemma kids_del_int_inv h p k : hwf h -> (p < length h)%nat ->
  hwf (fst (kids_del_int h p k)) /\ length (fst (kids_del_int h p k)) = length h /\ (forall j, n_f (nd (fst (kids_del_int h p k)) j) = n_f (nd h j)).
Proof.
  intros H Hp. unfold kids_del_int. destruct (py_pos _ k) as [i|e] eqn:E; cbn [fst]; [|auto].
  apply py_pos_ok in E. destruct (kids_del_at_spec h p [i] H Hp) as (?&?&?&_); [constructor; auto|]. auto.
Qed.
Lemma kids_del_slice_inv h p a b st : hwf h -> (p < length h)%nat ->
  hwf (fst (kids_del_slice h p a b st)) /\ length (fst (kids_del_slice h p a b st)) = length h /\ (forall j, n_f (nd (fst (kids_del_slice h p a b st)) j) = n_f (nd h j)).
Proof.
  intros H Hp. unfold kids_del_slice. destruct (slice_positions _ a b st) as [pos|e] eqn:E; cbn [fst]; [|auto].
  apply slice_positions_bound in E. destruct (kids_del_at_spec h p pos H Hp E) as (?&?&?&_). auto.
Qed.

(** where a child is found *)
Lemma find_child h p c : hwf h -> In c (n_kids (nd h p)) ->
  let r := bfind_start (starts_of h (n_kids (nd h p))) (h_start h c) in
  fst r = true /\ (snd r < length (n_kids (nd h p)))%nat /\ nth (snd r) (n_kids (nd h p)) 0%nat = c.
Proof.
  intros H Hin. cbv zeta. pose proof (hwf_sorted h H p) as Hs.
  pose proof (bfind_start_spec _ (h_start h c) (sorted_lt_le _ (sorted_starts _ _ Hs))) as Hb. cbv zeta in Hb.
  destruct (bfind_start (starts_of h (n_kids (nd h p))) (h_start h c)) as [found i]. cbn [fst snd] in *.
  destruct Hb as (_ & _ & _ & Hf & Hk).
  assert (found = true) by (apply Hf; apply in_map; exact Hin). subst found. specialize (Hk eq_refl). destruct Hk as [Hk Ek].
  unfold starts_of in Hk. rewrite map_length in Hk. split; [reflexivity|]. split; [exact Hk|].
  rewrite key_starts in Ek by exact Hk. apply (In_nth _ _ 0%nat) in Hin. destruct Hin as (m & Hm & Em).
  destruct (Nat.lt_trichotomy i m) as [Hlt|[->|Hgt]]; [| exact Em|].
  - destruct (sorted_nth h _ i m Hs ltac:(lia)) as [Hl _]. rewrite Em in Hl. lia.
  - destruct (sorted_nth h _ m i Hs ltac:(lia)) as [Hl _]. rewrite Em in Hl. lia.
Qed.
Lemma drop_one {A} (l : list A) i : (i < length l)%nat -> drop_positions 0 [i] l = firstn i l ++ skipn (S i) l.
Proof.
  assert (G : forall k, (k <= i)%nat -> (i - k < length l)%nat -> drop_positions k [i] l = firstn (i - k) l ++ skipn (S (i - k)) l).
  { induction l as [|x l IH]; intros k Hk Hl; cbn [length] in Hl; [lia|]. cbn [drop_positions existsb]. rewrite orb_false_r.
    destruct (Nat.eqb_spec k i) as [->|Hne].
    - rewrite Nat.sub_diag. cbn [firstn skipn app].
      assert (Hd : forall (l : list A) k, (i < k)%nat -> drop_positions k [i] l = l).
      { clear. induction l as [|x l IH]; intros k Hk; cbn [drop_positions existsb]; [reflexivity|]. rewrite orb_false_r.
        destruct (Nat.eqb_spec k i); [lia|]. f_equal. apply IH. lia. }
      apply Hd. lia.
    - rewrite IH by lia. replace (i - k)%nat with (S (i - S k)) by lia. reflexivity. }
  intros H. rewrite (G 0%nat) by lia. rewrite Nat.sub_0_r. reflexivity.
Qed.

(** ** remove *)
Definition without (h : heap) (p c : nat) : heap :=
  set_kids (set_par h c None) p (filter (fun k => negb (k =? c)%nat) (n_kids (nd h p))).
Lemma filter_not_in c l : ~ In c l -> filter (fun k => negb (k =? c)%nat) l = l.
Proof. induction l as [|x l IH]; intros H; cbn; [reflexivity|]. destruct (Nat.eqb_spec x c); [subst; exfalso; apply H; left; reflexivity|]. cbn. f_equal. apply IH. intros Hc. apply H. right. exact Hc. Qed.
Lemma drop_one_filter l i c : NoDup l -> (i < length l)%nat -> nth i l 0%nat = c ->
  drop_positions 0 [i] l = filter (fun k => negb (k =? c)%nat) l.
Proof.
  intros Hn Hi Hc. rewrite (drop_one l i Hi).
  destruct (split_at l i ltac:(lia)) as (a & b & -> & La). rewrite app_length in Hi.
  rewrite app_nth2 in Hc by lia. rewrite La, Nat.sub_diag in Hc. destruct b as [|x b]; [cbn in Hi; lia|]. cbn in Hc. subst x.
  rewrite firstn_app, firstn_all2 by lia. rewrite La, Nat.sub_diag. cbn [firstn]. rewrite app_nil_r.
  replace (skipn (S i) (a ++ c :: b)) with b.
  2:{ rewrite skipn_app. rewrite skipn_all2 by lia. rewrite La. replace (S i - i)%nat with 1%nat by lia. reflexivity. }
  apply NoDup_remove_2 in Hn. rewrite in_app_iff in Hn.
  rewrite filter_app. cbn [filter]. rewrite Nat.eqb_refl. cbn [negb]. rewrite !filter_not_in by tauto. reflexivity.
Qed.
Lemma kids_remove_spec h p c : hwf h ->
  (In c (n_kids (nd h p)) /\ kids_remove h p c = (without h p c, Ok tt)) \/
  (~ In c (n_kids (nd h p)) /\ kids_remove h p c = (h, Err ValueError)).
Proof.
  intros H. unfold kids_remove. destruct (in_dec Nat.eq_dec c (n_kids (nd h p))) as [Hin|Hin].
  - left. split; [exact Hin|]. destruct (find_child h p c H Hin) as (E1 & E2 & E3).
    destruct (bfind_start _ _) as [found i]. cbn [fst snd] in *. subst found. rewrite E3, Nat.eqb_refl. cbn [andb].
    unfold kids_del_int. rewrite py_pos_nat by exact E2. unfold kids_del_at, without. cbn [map]. rewrite E3.
    cbn [clear_pars fold_left]. rewrite kids_set_par. rewrite (drop_one_filter _ _ c (kids_nodup h _ (hwf_sorted h H p)) E2 E3). reflexivity.
  - right. split; [exact Hin|]. pose proof (bfind_start_spec _ (h_start h c) (sorted_lt_le _ (sorted_starts _ _ (hwf_sorted h H p)))) as Hb. cbv zeta in Hb.
    destruct (bfind_start _ _) as [found i]. cbn [fst snd] in *. destruct Hb as (_&_&_&_&Hb).
    destruct found; [|reflexivity]. specialize (Hb eq_refl). destruct Hb as [Hb _]. unfold starts_of in Hb. rewrite map_length in Hb.
    destruct (Nat.eqb_spec (nth i (n_kids (nd h p)) 0%nat) c) as [E|E]; [|reflexivity]. exfalso. apply Hin. rewrite <- E. apply nth_In. exact Hb.
Qed.
Lemma kids_remove_inv h p c : hwf h -> (p < length h)%nat ->
  hwf (fst (kids_remove h p c)) /\ length (fst (kids_remove h p c)) = length h /\ (forall j, n_f (nd (fst (kids_remove h p c)) j) = n_f (nd h j)).
Proof.
  intros H Hp. unfold kids_remove. destruct (bfind_start _ _) as [found i]. destruct (found && _); [|cbn; auto]. apply kids_del_int_inv; auto.
Qed.
Lemma without_facts h p c : hwf h -> In c (n_kids (nd h p)) ->
  let h' := without h p c in
  hwf h' /\ length h' = length h /\ (forall j, n_f (nd h' j) = n_f (nd h j)) /\
  (forall j, n_par (nd h' j) = if (j =? c)%nat then None else n_par (nd h j)) /\
  (forall j, n_kids (nd h' j) = if (j =? p)%nat then filter (fun k => negb (k =? c)%nat) (n_kids (nd h p)) else n_kids (nd h j)).
Proof.
  intros H Hin. cbv zeta. destruct (hwf_kid h H p c Hin) as (Hpar & _ & _ & Hc). destruct (hwf_par h H p c Hpar) as (_ & Hp).
  pose proof (kids_remove_inv h p c H Hp) as (W & _). destruct (kids_remove_spec h p c H) as [(_ & E)|(N & _)]; [|contradiction].
  rewrite E in W. cbn [fst] in W. split; [exact W|]. unfold without. split; [rewrite set_kids_length, set_par_length; reflexivity|].
  split; [intros; rewrite f_set_kids; apply f_set_par|]. split.
  - intros j. rewrite par_set_kids. apply par_set_par. exact Hc.
  - intros j. rewrite kids_set_kids by (rewrite set_par_length; exact Hp). rewrite kids_set_par. reflexivity.
Qed.
Lemma kids_pop_inv h p k : hwf h -> (p < length h)%nat ->
  hwf (fst (kids_pop h p k)) /\ length (fst (kids_pop h p k)) = length h /\ (forall j, n_f (nd (fst (kids_pop h p k)) j) = n_f (nd h j)).
Proof.
  intros H Hp. unfold kids_pop. pose proof (kids_del_int_inv h p k H Hp) as Hd. unfold kids_del_int in *.
  destruct (py_pos _ k); cbn; [|auto]. exact Hd.
Qed.
Lemma kids_pop_spec h p k : hwf h -> (p < length h)%nat ->
  match py_index (n_kids (nd h p)) k with
  | Ok c => kids_pop h p k = (without h p c, Ok c)
  | Err e => e = IndexError /\ kids_pop h p k = (h, Err IndexError)
  end.
Proof.
  intros H Hp. unfold kids_pop, kids_del_int, py_index, py_pos, zget, zlen.
  set (ks := n_kids (nd h p)). set (k' := if k <? 0 then k + Z.of_nat (length ks) else k).
  destruct (Z.ltb_spec k' 0) as [Hk|Hk].
  - destruct (Z.leb_spec 0 k'); [lia|]. cbn. auto.
  - destruct (Z.leb_spec 0 k'); [|lia]. destruct (Z.ltb_spec k' (Z.of_nat (length ks))) as [Hlt|Hge]; cbn [andb].
    + destruct (nth_error ks (Z.to_nat k')) as [c|] eqn:E; [|apply nth_error_None in E; lia].
      cbn [obind snd fst]. unfold obind. cbn [snd fst]. pose proof (nth_error_nth _ _ 0%nat E) as En.
      assert (Hi : (Z.to_nat k' < length ks)%nat) by lia.
      unfold kids_del_at. cbn [map]. fold ks. rewrite En. cbn [clear_pars fold_left]. rewrite kids_set_par. fold ks.
      rewrite (drop_one_filter ks _ c (kids_nodup h _ (hwf_sorted h H p)) Hi En). unfold without. fold ks. reflexivity.
    + destruct (nth_error ks (Z.to_nat k')) eqn:E; [assert (Z.to_nat k' < length ks)%nat by (apply nth_error_Some; congruence); lia|]. auto.
Qed.
Lemma kids_clear_spec h p : hwf h -> (p < length h)%nat ->
  let h' := fst (kids_clear h p) in snd (kids_clear h p) = Ok tt /\ n_kids (nd h' p) = [] /\
  (forall c, In c (n_kids (nd h p)) -> n_par (nd h' c) = None) /\
  (forall j, n_f (nd h' j) = n_f (nd h j)) /\ (forall j, j <> p -> n_kids (nd h' j) = n_kids (nd h j)) /\ (forall j, ~ In j (n_kids (nd h p)) -> n_par (nd h' j) = n_par (nd h j)).
Proof.
  intros H Hp. cbv zeta. unfold kids_clear, kids_del_slice.
  set (ks := n_kids (nd h p)).
  assert (Ep : forall n m st, (n <= m)%nat -> slice_run m (Z.of_nat st) (Z.of_nat (st + n)) 1 = seq st n).
  { induction n as [|n IH]; intros m st Hm.
    - destruct m; cbn [slice_run seq]; [reflexivity|]. change (1 <? 0) with false. cbv iota. destruct (Z.ltb_spec (Z.of_nat st) (Z.of_nat (st + 0))); [lia|reflexivity].
    - destruct m; [lia|]. cbn [slice_run seq]. change (1 <? 0) with false. cbv iota. destruct (Z.ltb_spec (Z.of_nat st) (Z.of_nat (st + S n))); [|lia].
      rewrite Nat2Z.id. f_equal. rewrite <- (IH m (S st)) by lia. f_equal; lia. }
  assert (Es : slice_positions (length ks) None None None = Ok (seq 0 (length ks))).
  { unfold slice_positions. cbn [odflt]. change (1 =? 0) with false. cbv iota. unfold slice_bounds. change (1 <? 0) with false. cbv iota beta.
    f_equal. rewrite <- (Ep (length ks) (length ks) 0%nat) by lia. reflexivity. }
  rewrite Es. cbn [fst snd]. split; [reflexivity|].
  destruct (kids_del_at_spec h p (seq 0 (length ks)) H Hp) as (W & L & D & K & P & I).
  { apply Forall_forall. intros x Hx. apply in_seq in Hx. fold ks. lia. }
  assert (Hrem : forall x, In x (removed_at h p (seq 0 (length ks))) <-> In x ks).
  { intros x. unfold removed_at. fold ks. rewrite in_map_iff. split.
    - intros (k & <- & Hk). apply in_seq in Hk. apply nth_In. lia.
    - intros Hx. apply (In_nth _ _ 0%nat) in Hx. destruct Hx as (m & Hm & <-). exists m. split; [reflexivity|]. apply in_seq. lia. }
  split; [|split; [|split; [|split]]].
  - rewrite K, Nat.eqb_refl. destruct (drop_positions 0 (seq 0 (length ks)) (n_kids (nd h p))) as [|x l] eqn:E; [reflexivity|].
    exfalso. assert (In x (x :: l)) as Hx by (left; reflexivity). apply I in Hx. destruct Hx as [Hx Hn]. apply Hn. apply Hrem. exact Hx.
  - intros c Hc. rewrite P. apply Hrem in Hc. apply existsb_nat in Hc. rewrite Hc. reflexivity.
  - exact D.
  - intros j Hj. rewrite K. destruct (Nat.eqb_spec j p); [contradiction|reflexivity].
  - intros j Hn. assert (E : existsb (Nat.eqb j) (removed_at h p (seq 0 (length ks))) = false) by (apply existsb_nat_false; rewrite Hrem; exact Hn).
    rewrite P, E. reflexivity.
Qed.

(** ** allocation *)
Lemma nd_app h f j : nd (h ++ [f]) j = if (j =? length h)%nat then f else nd h j.
Proof.
  unfold nd. destruct (Nat.eqb_spec j (length h)) as [->|Hne].
  - rewrite app_nth2, Nat.sub_diag by lia. reflexivity.
  - destruct (Nat.lt_ge_cases j (length h)); [apply app_nth1; lia|]. rewrite !nth_overflow; [reflexivity|lia|rewrite app_length; cbn; lia].
Qed.
Lemma hwf_new h f : hwf h -> fwf f -> hwf (h ++ [Nd f None []]).
Proof.
  intros H Hf. assert (B : nd h (length h) = dnode) by (apply nd_beyond; lia).
  assert (Hd : forall i, i <> length h -> n_f (nd (h ++ [Nd f None []]) i) = n_f (nd h i)).
  { intros i Hi. rewrite nd_app. destruct (Nat.eqb_spec i (length h)); [contradiction|reflexivity]. }
  constructor.
  - intros i. rewrite nd_app. destruct (i =? length h)%nat; [exact Hf|apply (hwf_span h H)].
  - intros p c Hin. rewrite !nd_app in *. rewrite app_length. cbn [length]. destruct (Nat.eqb_spec p (length h)); [destruct Hin|].
    destruct (hwf_kid h H p c Hin) as (?&?&?&?). destruct (Nat.eqb_spec c (length h)); [lia|].
    repeat split; auto; try lia; apply (data_fits h); auto; apply Hd; auto.
  - intros p c Hp. rewrite !nd_app in *. rewrite app_length. destruct (Nat.eqb_spec c (length h)); [discriminate|].
    destruct (hwf_par h H p c Hp). destruct (Nat.eqb_spec p (length h)); [lia|]. split; [assumption|lia].
  - intros p. rewrite nd_app. destruct (Nat.eqb_spec p (length h)); [constructor|].
    apply (data_sorted h); [|apply (hwf_sorted h H)]. intros i Hi. apply Hd. apply (hwf_kid h H) in Hi. destruct Hi as (_&_&_&?). lia.
Qed.
Lemma hwf_nil : hwf [].
Proof.
  assert (E : forall i, nd [] i = dnode) by (intros [|i]; reflexivity).
  constructor; intros; rewrite ?E in *; cbn in *; try tauto; try discriminate; try constructor.
  - cbn. lia.
  - cbn. unfold zlen. cbn. lia.
Qed.
Lemma clone_f_wf f a b d : fwf (clone_f f a b d).
Proof. unfold clone_f. destruct (ito_of_str_wf (f_str f) (Some (odflt a (f_start f))) (Some (odflt b (f_stop f))) (odflt d (f_desc f))) as [H1 H2]. split; [exact H1|exact H2]. Qed.

(** existing objects are untouched *)
Lemma extends_refl h : extends h h. Proof. split; auto. Qed.
Lemma extends_trans a b c : extends a b -> extends b c -> extends a c.
Proof. intros [L1 E1] [L2 E2]. split; [lia|]. intros j Hj. rewrite E2 by lia. apply E1. exact Hj. Qed.
Lemma extends_new h n : extends h (h ++ [n]).
Proof. split; [rewrite app_length; lia|]. intros j Hj. rewrite nd_app. destruct (Nat.eqb_spec j (length h)); [lia|reflexivity]. Qed.
Lemma extends_upd h h' i f : extends h h' -> (length h <= i)%nat -> extends h (upd h' i f).
Proof. intros [L E] Hi. split; [rewrite upd_length; exact L|]. intros j Hj. rewrite nd_upd. destruct (Nat.eqb_spec j i); [lia|]. cbn. apply E. exact Hj. Qed.

Lemma kids_add_extends h0 p cs : forall h, extends h0 h -> hwf h -> (p < length h)%nat -> Forall (fun c => (c < length h)%nat) cs ->
  (length h0 <= p)%nat -> Forall (fun c => (length h0 <= c)%nat) cs -> extends h0 (fst (kids_add h p cs)).
Proof.
  induction cs as [|c cs IH]; intros h He H Hp Hcs Hp0 Hc0; cbn [kids_add]; [exact He|].
  inversion Hcs as [|? ? Hc Hcs']; subst. inversion Hc0; subst.
  destruct (kids_add1_spec h p c H Hp Hc) as [((Hn & Hf & Hne & _) & l & r & Ek & Hl & Hr & E)|(_ & E)]; rewrite E; unfold obind; cbn [snd fst]; [|exact He].
  destruct (hwf_insert h p c l r H Hp Hc Hn Hf Hne Ek Hl Hr) as (H1' & L1 & D1).
  apply IH; auto; try lia.
  - apply extends_upd; [|lia]. apply extends_upd; [exact He|lia].
  - rewrite L1. exact Hcs'.
Qed.

(** clone preserves the invariant, on any heap, cyclic or not *)
Definition clone_inv (h : heap) (r : out nat) : Prop :=
  hwf (fst r) /\ extends h (fst r) /\ forall i, snd r = Ok i -> (length h <= i < length (fst r))%nat.
Lemma map_clone_inv cl : (forall h i, hwf h -> (i < length h)%nat -> clone_inv h (cl h i)) ->
  forall l h, hwf h -> Forall (fun c => (c < length h)%nat) l ->
  let r := map_clone cl h l in hwf (fst r) /\ extends h (fst r) /\
  forall cs, snd r = Ok cs -> Forall (fun c => (length h <= c < length (fst r))%nat) cs.
Proof.
  intros Hcl. induction l as [|c l IH]; intros h H Hl; cbn [map_clone]; cbv zeta.
  - split; [exact H|]. split; [apply extends_refl|]. intros cs [= <-]. constructor.
  - inversion Hl as [|? ? Hc Hl']; subst. destruct (Hcl h c H Hc) as (H1 & E1 & R1).
    destruct (cl h c) as [h1 [c'|e]]; cbn [fst snd] in *; unfold obind; cbn [fst snd].
    2:{ split; [exact H1|]. split; [exact E1|]. intros cs [=]. }
    destruct (IH h1 H1) as (H2 & E2 & R2).
    { eapply Forall_impl; [|exact Hl']. intros a Ha. destruct E1 as [L1 _]. cbn in *. lia. }
    fold (map_clone cl) in *. destruct (map_clone cl h1 l) as [h2 [cs'|e]]; cbn [fst snd] in *.
    2:{ split; [exact H2|]. split; [eapply extends_trans; eassumption|]. intros cs [=]. }
    split; [exact H2|]. split; [eapply extends_trans; eassumption|]. intros cs [= <-].
    specialize (R1 c' eq_refl). specialize (R2 cs' eq_refl). destruct E1 as [L1 _], E2 as [L2 _]. constructor; [lia|].
    eapply Forall_impl; [|exact R2]. cbn. intros; lia.
Qed.
Lemma clone_h_inv : forall fuel h i a b d k, hwf h -> (i < length h)%nat -> clone_inv h (clone_h fuel h i a b d k).
Proof.
  induction fuel as [|fuel IH]; intros h i a b d k H Hi; cbn [clone_h].
  - split; [exact H|]. split; [apply extends_refl|]. intros j [=].
  - unfold new_node, obind at 1. cbn [fst snd].
    set (f := clone_f (n_f (nd h i)) a b d). set (h1 := h ++ [Nd f None []]).
    assert (H1 : hwf h1) by (apply hwf_new; [exact H|apply clone_f_wf]).
    assert (L1 : length h1 = S (length h)) by (unfold h1; rewrite app_length; cbn; lia).
    assert (E1 : extends h h1) by apply extends_new.
    destruct k.
    2:{ split; [exact H1|]. split; [exact E1|]. cbn [snd fst]. intros j [= <-]. lia. }
    destruct (map_clone_inv (fun h c => clone_h fuel h c None None None true) (fun h c Hh Hc => IH h c None None None true Hh Hc) (n_kids (nd h i)) h1 H1) as (H2 & E2 & R2).
    { apply Forall_forall. intros c Hc. apply (hwf_kid h H) in Hc. lia. }
    destruct (map_clone _ h1 (n_kids (nd h i))) as [h2 [cs|e]]; cbn [fst snd] in *; unfold obind at 1; cbn [fst snd].
    2:{ split; [exact H2|]. split; [eapply extends_trans; eassumption|]. intros j [=]. }
    specialize (R2 cs eq_refl). pose proof E2 as [L2 _].
    assert (Hcs : Forall (fun c => (c < length h2)%nat) cs) by (eapply Forall_impl; [|exact R2]; cbn; intros; lia).
    destruct (kids_add_inv h2 (length h) cs H2 ltac:(lia) Hcs) as (H3 & L3 & D3 & _).
    assert (E3 : extends h (fst (kids_add h2 (length h) cs))).
    { apply kids_add_extends; auto; try lia; [eapply extends_trans; eassumption|]. eapply Forall_impl; [|exact R2]. cbn; intros; lia. }
    destruct (kids_add h2 (length h) cs) as [h3 [[]|e]]; cbn [fst snd] in *; unfold obind; cbn [fst snd].
    + split; [exact H3|]. split; [exact E3|]. cbn [snd fst]. intros j [= <-]. lia.
    + split; [exact H3|]. split; [exact E3|]. cbn [snd fst]. intros j [=].
Qed.

(** ** histories *)
Lemma hwf_upd_f h i g : hwf h -> (forall f, f_str (g f) = f_str f /\ f_start (g f) = f_start f /\ f_stop (g f) = f_stop f) -> hwf (upd_f h i g).
Proof.
  intros H Hg. unfold upd_f.
  assert (D : forall j, f_str (n_f (nd (upd h i (fun n => Nd (g (n_f n)) (n_par n) (n_kids n))) j)) = f_str (n_f (nd h j)) /\
     f_start (n_f (nd (upd h i (fun n => Nd (g (n_f n)) (n_par n) (n_kids n))) j)) = f_start (n_f (nd h j)) /\
     f_stop (n_f (nd (upd h i (fun n => Nd (g (n_f n)) (n_par n) (n_kids n))) j)) = f_stop (n_f (nd h j)) /\
     n_par (nd (upd h i (fun n => Nd (g (n_f n)) (n_par n) (n_kids n))) j) = n_par (nd h j) /\
     n_kids (nd (upd h i (fun n => Nd (g (n_f n)) (n_par n) (n_kids n))) j) = n_kids (nd h j)).
  { intros j. rewrite nd_upd. destruct (Nat.eqb_spec j i); cbn [andb]; [|auto]. subst. destruct (i <? length h)%nat; [|auto]. cbn.
    destruct (Hg (n_f (nd h i))) as (?&?&?). auto. }
  set (h' := upd h i _) in *. assert (L : length h' = length h) by apply upd_length. clearbody h'.
  assert (Ds : forall a b, h_before h a b -> h_before h' a b).
  { intros a b. unfold h_before, h_start, h_stop. destruct (D a) as (_&->&->&_), (D b) as (_&->&_). auto. }
  constructor.
  - intros j. unfold fwf. destruct (D j) as (->&->&->&_). apply (hwf_span h H).
  - intros p c. destruct (D p) as (_&_&_&_&->). intros Hin. destruct (hwf_kid h H p c Hin) as (Hp&Hf&?&?). rewrite L.
    assert (Hf' : fits h' c p).
    { unfold fits, h_string, h_start, h_stop in *. destruct (D c) as (E1&E2&E3&_), (D p) as (E4&E5&E6&_). rewrite E1, E2, E3, E4, E5, E6. exact Hf. }
    destruct (D c) as (_&_&_&->&_). auto.
  - intros p c. destruct (D c) as (_&_&_&->&_). intros Hp. destruct (hwf_par h H p c Hp). rewrite L. destruct (D p) as (_&_&_&_&->). auto.
  - intros p. destruct (D p) as (_&_&_&_&->). pose proof (hwf_sorted h H p) as Hs. unfold kids_sorted in *.
    induction Hs as [|x l Hs IH Hf]; constructor; auto. eapply Forall_impl; [|exact Hf]. auto.
Qed.

Lemma step_inv h o : hwf h -> hwf (step h o).
Proof.
  intros H. unfold step. destruct (forallb _ (ids_of o)) eqn:E; [|exact H].
  assert (Hid : forall i, In i (ids_of o) -> (i < length h)%nat) by (intros i Hi; rewrite forallb_forall in E; apply E in Hi; lia).
  destruct o; cbn [exec ids_of] in *.
  - unfold new_str, new_node. cbn [fst]. apply hwf_new; [exact H|apply ito_of_str_wf].
  - unfold new_sub. destruct (ito_of_ito_facts (n_f (nd h i)) a b d (hwf_span h H i)) as (j & Ej & Hj & _). rewrite Ej. cbn. apply hwf_new; auto.
  - apply clone_h_inv; auto. apply Hid. left; reflexivity.
  - apply hwf_upd_f; [exact H|]. intros; cbn; auto.
  - apply hwf_upd_f; [exact H|]. intros; cbn; auto.
  - apply kids_add_inv; [exact H|apply Hid; left; reflexivity|]. apply Forall_forall. intros c Hc. apply Hid. right. exact Hc.
  - apply kids_remove_inv; auto. apply Hid. left; reflexivity.
  - apply kids_pop_inv; auto. apply Hid. left; reflexivity.
  - apply kids_del_int_inv; auto. apply Hid. left; reflexivity.
  - apply kids_del_slice_inv; auto. apply Hid. left; reflexivity.
  - unfold kids_clear. apply kids_del_slice_inv; auto. apply Hid. left; reflexivity.
Qed.
Lemma run_inv os : forall h, hwf h -> hwf (run h os).
Proof. induction os as [|o os IH]; intros h H; [exact H|]. apply IH. apply step_inv. exact H. Qed.
