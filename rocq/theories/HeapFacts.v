(** Proofs about the heap model: bisect, add, removal, invariants. *)
From Verif Require Export SpecHeap ItoStrFacts.
From Coq Require Import Arith.

Lemma half_between lo hi : (lo < hi)%nat -> (lo <= (lo + hi) / 2 < hi)%nat.
Proof.
  intros H. split.
  - apply Nat.div_le_lower_bound; lia.
  - apply Nat.div_lt_upper_bound; lia.
Qed.

Section Bisect.
  Context (key : nat -> Z) (n : nat).
  Hypothesis mono : forall i j, (i <= j < n)%nat -> key i <= key j.
  Lemma bisect_left_spec x : forall fuel lo hi, (lo <= hi <= n)%nat -> (hi - lo <= fuel)%nat ->
    (forall i, (i < lo)%nat -> key i < x) -> (forall i, (hi <= i < n)%nat -> x <= key i) ->
    let r := bisect_left fuel key x lo hi in
    (lo <= r <= hi)%nat /\ (forall i, (i < r)%nat -> key i < x) /\ (forall i, (r <= i < n)%nat -> x <= key i).
  Proof.
    induction fuel as [|fuel IH]; intros lo hi Hb Hf Hl Hh; cbn [bisect_left].
    - assert (lo = hi) by lia. subst. repeat split; auto.
    - destruct (Nat.ltb_spec lo hi) as [Hlt|Hge].
      + pose proof (half_between lo hi Hlt) as Hm. set (mid := ((lo + hi) / 2)%nat) in *. cbv zeta.
        destruct (Z.ltb_spec (key mid) x) as [Hk|Hk].
        * destruct (IH (mid + 1)%nat hi) as (?&?&?); try lia; auto.
          { intros i Hi. pose proof (mono i mid ltac:(lia)). lia. }
          repeat split; auto; lia.
        * destruct (IH lo mid) as (?&?&?); try lia; auto.
          { intros i Hi. pose proof (mono mid i ltac:(lia)). lia. }
          repeat split; auto; lia.
      + assert (lo = hi) by lia. subst. repeat split; auto.
  Qed.
  Lemma bisect_right_spec x : forall fuel lo hi, (lo <= hi <= n)%nat -> (hi - lo <= fuel)%nat ->
    (forall i, (i < lo)%nat -> key i <= x) -> (forall i, (hi <= i < n)%nat -> x < key i) ->
    let r := bisect_right fuel key x lo hi in
    (lo <= r <= hi)%nat /\ (forall i, (i < r)%nat -> key i <= x) /\ (forall i, (r <= i < n)%nat -> x < key i).
  Proof.
    induction fuel as [|fuel IH]; intros lo hi Hb Hf Hl Hh; cbn [bisect_right].
    - assert (lo = hi) by lia. subst. repeat split; auto.
    - destruct (Nat.ltb_spec lo hi) as [Hlt|Hge].
      + pose proof (half_between lo hi Hlt) as Hm. set (mid := ((lo + hi) / 2)%nat) in *. cbv zeta.
        destruct (Z.ltb_spec x (key mid)) as [Hk|Hk].
        * destruct (IH lo mid) as (?&?&?); try lia; auto.
          { intros i Hi. pose proof (mono mid i ltac:(lia)). lia. }
          repeat split; auto; lia.
        * destruct (IH (mid + 1)%nat hi) as (?&?&?); try lia; auto.
          { intros i Hi. pose proof (mono i mid ltac:(lia)). lia. }
          repeat split; auto; lia.
      + assert (lo = hi) by lia. subst. repeat split; auto.
  Qed.
End Bisect.

(** on a list sorted by [<], split at the bisection point *)
Lemma key_at_app_r l x r : key_at (l ++ x :: r) (length l) = x.
Proof. unfold key_at. rewrite app_nth2, Nat.sub_diag by lia. reflexivity. Qed.
Lemma key_at_lt l i j : StronglySorted Z.lt l -> (i < j < length l)%nat -> key_at l i < key_at l j.
Proof.
  intros H. revert i j. induction H as [|x l Hs IH Hf]; intros i j Hij; cbn [length] in Hij; [lia|].
  unfold key_at in *. destruct j as [|j]; [lia|]. destruct i as [|i]; cbn [nth].
  - rewrite Forall_forall in Hf. apply Hf. apply nth_In. lia.
  - apply IH. lia.
Qed.
Lemma key_at_le l i j : StronglySorted Z.le l -> (i <= j < length l)%nat -> key_at l i <= key_at l j.
Proof.
  intros H. revert i j. induction H as [|x l Hs IH Hf]; intros i j Hij; cbn [length] in Hij; [lia|].
  unfold key_at in *. destruct j as [|j]; [assert (i = 0)%nat by lia; subst; cbn; lia|]. destruct i as [|i]; cbn [nth].
  - rewrite Forall_forall in Hf. apply Hf. apply nth_In. lia.
  - apply IH. lia.
Qed.
Lemma bfind_start_spec l x : StronglySorted Z.le l ->
  let r := bfind_start l x in
  (snd r <= length l)%nat /\
  (forall i, (i < snd r)%nat -> key_at l i < x) /\ (forall i, (snd r <= i < length l)%nat -> x <= key_at l i) /\
  (fst r = true <-> In x l) /\ (fst r = true -> (snd r < length l)%nat /\ key_at l (snd r) = x).
Proof.
  intros H. cbv zeta. unfold bfind_start.
  destruct (bisect_left_spec (key_at l) (length l) (fun i j Hij => key_at_le l i j H Hij) x (S (length l)) 0 (length l)) as (Hb & Hl & Hh); try lia.
  set (i := bisect_left _ _ _ _ _) in *.
  assert (Hin : In x l -> (i < length l)%nat /\ key_at l i = x).
  { intros Hx. apply (In_nth _ _ 0) in Hx. destruct Hx as (k & Hk & Ek). change (key_at l k = x) in Ek.
    destruct (Nat.lt_ge_cases k i) as [Hc|Hc]; [specialize (Hl k Hc); lia|].
    split; [lia|]. specialize (Hh i ltac:(lia)). pose proof (key_at_le l i k H ltac:(lia)). lia. }
  destruct (Nat.eqb_spec i (length l)) as [E|E]; cbn [orb].
  - cbn [fst snd]. repeat split; auto; try lia; try discriminate. all: try (intros Hx; apply Hin in Hx; lia).
  - destruct (Z.eqb_spec (key_at l i) x) as [E2|E2]; cbn [negb fst snd].
    + repeat split; auto; try lia. all: intros _; rewrite <- E2; apply nth_In; lia.
    + repeat split; auto; try lia; try discriminate. all: try (intros Hx; apply Hin in Hx; lia).
Qed.
Lemma bfind_stop_spec l x : StronglySorted Z.le l ->
  let r := bfind_stop l x in
  (snd r <= length l)%nat /\
  (forall i, (i < snd r)%nat -> key_at l i <= x) /\ (forall i, (snd r <= i < length l)%nat -> x < key_at l i) /\
  fst r = false.
Proof.
  intros H. cbv zeta. unfold bfind_stop.
  destruct (bisect_right_spec (key_at l) (length l) (fun i j Hij => key_at_le l i j H Hij) x (S (length l)) 0 (length l)) as (Hb & Hl & Hh); try lia.
  set (i := bisect_right _ _ _ _ _) in *.
  destruct (Nat.eqb_spec i (length l)) as [E|E]; cbn [orb].
  - cbn [fst snd]. repeat split; auto; lia.
  - specialize (Hh i ltac:(lia)) as Hi. destruct (Z.eqb_spec (key_at l i) x) as [E2|E2]; [lia|]. cbn [negb fst snd]. repeat split; auto; lia.
Qed.

(** ** heap update *)
Lemma upd_length h i f : length (upd h i f) = length h.
Proof. revert i; induction h as [|x h IH]; intros [|i]; cbn; auto. Qed.
Lemma nd_upd h i f j : nd (upd h i f) j = if (j =? i)%nat && (i <? length h)%nat then f (nd h i) else nd h j.
Proof.
  unfold nd. revert i j; induction h as [|x h IH]; intros i j; cbn [upd].
  - destruct (j =? i)%nat; cbn; reflexivity.
  - destruct i as [|i], j as [|j]; cbn [nth Nat.eqb andb]; try reflexivity.
    rewrite IH. cbn [length]. change (S i <? S (length h))%nat with (i <? length h)%nat. reflexivity.
Qed.
Lemma nd_beyond h i : (length h <= i)%nat -> nd h i = dnode.
Proof. intros. unfold nd. apply nth_overflow. lia. Qed.
Lemma set_par_length h c p : length (set_par h c p) = length h. Proof. apply upd_length. Qed.
Lemma set_kids_length h c p : length (set_kids h c p) = length h. Proof. apply upd_length. Qed.
Lemma f_set_par h c p j : n_f (nd (set_par h c p) j) = n_f (nd h j).
Proof. unfold set_par. rewrite nd_upd. destruct (Nat.eqb_spec j c); cbn [andb]; [|reflexivity]. subst. destruct (c <? length h)%nat; reflexivity. Qed.
Lemma f_set_kids h c ks j : n_f (nd (set_kids h c ks) j) = n_f (nd h j).
Proof. unfold set_kids. rewrite nd_upd. destruct (Nat.eqb_spec j c); cbn [andb]; [|reflexivity]. subst. destruct (c <? length h)%nat; reflexivity. Qed.
Lemma kids_set_par h c p j : n_kids (nd (set_par h c p) j) = n_kids (nd h j).
Proof. unfold set_par. rewrite nd_upd. destruct (Nat.eqb_spec j c); cbn [andb]; [|reflexivity]. subst. destruct (c <? length h)%nat; reflexivity. Qed.
Lemma par_set_kids h c ks j : n_par (nd (set_kids h c ks) j) = n_par (nd h j).
Proof. unfold set_kids. rewrite nd_upd. destruct (Nat.eqb_spec j c); cbn [andb]; [|reflexivity]. subst. destruct (c <? length h)%nat; reflexivity. Qed.
Lemma par_set_par h c p j : (c < length h)%nat -> n_par (nd (set_par h c p) j) = if (j =? c)%nat then p else n_par (nd h j).
Proof. intros Hc. unfold set_par. rewrite nd_upd. destruct (Nat.ltb_spec c (length h)); [|lia]. rewrite andb_true_r. destruct (j =? c)%nat; reflexivity. Qed.
Lemma kids_set_kids h c ks j : (c < length h)%nat -> n_kids (nd (set_kids h c ks) j) = if (j =? c)%nat then ks else n_kids (nd h j).
Proof. intros Hc. unfold set_kids. rewrite nd_upd. destruct (Nat.ltb_spec c (length h)); [|lia]. rewrite andb_true_r. destruct (j =? c)%nat; reflexivity. Qed.

(** facts about spans depend on the data only *)
Lemma data_start h h' i : n_f (nd h' i) = n_f (nd h i) -> h_start h' i = h_start h i.
Proof. unfold h_start. intros ->. reflexivity. Qed.
Lemma data_stop h h' i : n_f (nd h' i) = n_f (nd h i) -> h_stop h' i = h_stop h i.
Proof. unfold h_stop. intros ->. reflexivity. Qed.
Lemma data_string h h' i : n_f (nd h' i) = n_f (nd h i) -> h_string h' i = h_string h i.
Proof. unfold h_string. intros ->. reflexivity. Qed.
Lemma data_sorted h h' ks : (forall i, In i ks -> n_f (nd h' i) = n_f (nd h i)) -> kids_sorted h ks -> kids_sorted h' ks.
Proof.
  unfold kids_sorted. intros Hd H. induction H as [|x l Hs IH Hf]; constructor.
  - apply IH. intros i Hi. apply Hd. right. exact Hi.
  - rewrite Forall_forall in *. intros y Hy. specialize (Hf y Hy). unfold h_before in *.
    rewrite !(data_start h h'), (data_stop h h') by (apply Hd; cbn; auto). exact Hf.
Qed.
Lemma data_fits h h' c p : n_f (nd h' c) = n_f (nd h c) -> n_f (nd h' p) = n_f (nd h p) -> fits h c p -> fits h' c p.
Proof. unfold fits, h_string, h_start, h_stop. intros -> ->. auto. Qed.

Lemma sorted_starts h ks : kids_sorted h ks -> StronglySorted Z.lt (starts_of h ks).
Proof.
  intros H. induction H as [|x l Hs IH Hf]; cbn; constructor; auto.
  rewrite Forall_forall in *. intros y Hy. apply in_map_iff in Hy. destruct Hy as (z & <- & Hz). apply Hf in Hz. apply Hz.
Qed.
Lemma sorted_lt_le l : StronglySorted Z.lt l -> StronglySorted Z.le l.
Proof. intros H. induction H as [|x l Hs IH Hf]; constructor; auto. eapply Forall_impl; [|exact Hf]. cbn. lia. Qed.
Lemma sorted_stops h ks : (forall i, fwf (n_f (nd h i))) -> kids_sorted h ks -> StronglySorted Z.le (stops_of h ks).
Proof.
  intros Hw H. induction H as [|x l Hs IH Hf]; cbn; constructor; auto.
  rewrite Forall_forall in *. intros y Hy. apply in_map_iff in Hy. destruct Hy as (z & <- & Hz). apply Hf in Hz. destruct Hz as [H1 H2].
  destruct (Hw z) as [? _]. unfold h_stop, h_start in *. lia.
Qed.
Lemma h_span h i : hwf h -> 0 <= h_start h i <= h_stop h i /\ h_stop h i <= zlen (h_string h i).
Proof. intros H. exact (hwf_span h H i). Qed.

Lemma kids_nodup h ks : kids_sorted h ks -> NoDup ks.
Proof.
  intros H. induction H as [|x l Hs IH Hf]; constructor; auto. intros Hin.
  rewrite Forall_forall in Hf. apply Hf in Hin. destruct Hin. lia.
Qed.

(** keys of the store *)
Lemma key_starts h ks i : (i < length ks)%nat -> key_at (starts_of h ks) i = h_start h (nth i ks 0%nat).
Proof. intros H. unfold key_at, starts_of. rewrite (nth_indep _ 0 (h_start h 0%nat)) by (rewrite map_length; lia). apply map_nth. Qed.
Lemma key_stops h ks i : (i < length ks)%nat -> key_at (stops_of h ks) i = h_stop h (nth i ks 0%nat).
Proof. intros H. unfold key_at, stops_of. rewrite (nth_indep _ 0 (h_stop h 0%nat)) by (rewrite map_length; lia). apply map_nth. Qed.
Lemma sorted_nth h ks i j : kids_sorted h ks -> (i < j < length ks)%nat -> h_before h (nth i ks 0%nat) (nth j ks 0%nat).
Proof.
  intros H. revert i j. induction H as [|x l Hs IH Hf]; intros i j Hij; cbn [length] in Hij; [lia|].
  destruct j as [|j]; [lia|]. destruct i as [|i]; cbn [nth].
  - rewrite Forall_forall in Hf. apply Hf. apply nth_In. lia.
  - apply IH. lia.
Qed.

Lemma insert_at_split {A} (l r : list A) x i : i = length l -> insert_at i x (l ++ r) = l ++ x :: r.
Proof. intros ->. unfold insert_at. rewrite firstn_app, skipn_app, firstn_all, skipn_all, Nat.sub_diag. cbn. rewrite app_nil_r. reflexivity. Qed.
Lemma sorted_insert {A} (R : A -> A -> Prop) l r x :
  StronglySorted R (l ++ r) -> Forall (fun y => R y x) l -> Forall (R x) r -> StronglySorted R (l ++ x :: r).
Proof.
  intros H Hl Hr. induction l as [|y l IH]; cbn in *.
  - constructor; auto.
  - inversion H; subst. inversion Hl; subst. constructor; [apply IH; auto|].
    rewrite Forall_app in *. destruct H3. split; auto.
Qed.
Lemma split_at {A} (l : list A) i : (i <= length l)%nat -> exists a b, l = a ++ b /\ length a = i.
Proof. intros H. exists (firstn i l), (skipn i l). split; [symmetry; apply firstn_skipn|apply firstn_length_le; exact H]. Qed.

(** where a new child would go, and which ones clash *)

Lemma place_ok h ks c : (forall i, fwf (n_f (nd h i))) -> kids_sorted h ks ->
  let r := bfind_start (starts_of h ks) (h_start h c) in
  (fst r = false /\ between_ok (starts_of h ks) (stops_of h ks) (snd r) (h_start h c) (h_stop h c) = true)
  <-> Forall (clear_of h c) ks.
Proof.
  intros Hw Hs. cbv zeta.
  pose proof (bfind_start_spec _ (h_start h c) (sorted_lt_le _ (sorted_starts _ _ Hs))) as Hb. cbv zeta in Hb.
  destruct (bfind_start (starts_of h ks) (h_start h c)) as [found i]. cbn [fst snd] in *.
  destruct Hb as (Hle & Hlo & Hhi & Hin & _). unfold starts_of in Hle, Hhi. rewrite map_length in Hle, Hhi.
  fold (starts_of h ks) in *.
  assert (Hwc : h_start h c <= h_stop h c) by (destruct (Hw c) as [? _]; unfold h_start, h_stop; lia).
  unfold between_ok. unfold starts_of at 1 2. rewrite !map_length. fold (starts_of h ks).
  split.
  - intros (Hf & Hok). apply andb_true_iff in Hok. destruct Hok as [H1 H2]. rewrite negb_true_iff in H1, H2.
    apply Forall_forall. intros k Hk. apply (In_nth _ _ 0%nat) in Hk. destruct Hk as (m & Hm & <-).
    assert (Hne : h_start h (nth m ks 0%nat) <> h_start h c).
    { intros E. rewrite <- E in Hin. destruct found; [discriminate|].
      assert (false = true); [|discriminate]. apply Hin. unfold starts_of. apply in_map. apply nth_In. exact Hm. }
    split; [exact Hne|].
    destruct (Nat.lt_ge_cases m i) as [Hmi|Hmi].
    + left. assert (Hi0 : (i =? 0)%nat = false) by lia. assert (Hl0 : (length ks =? 0)%nat = false) by lia.
      rewrite Hi0, Hl0 in H1. cbn [negb andb] in H1. rewrite key_stops in H1 by lia.
      assert (Hst : h_stop h (nth m ks 0%nat) <= h_stop h (nth (i - 1) ks 0%nat)).
      { pose proof (key_at_le _ m (i - 1) (sorted_stops _ _ Hw Hs)) as Hk. rewrite !key_stops in Hk by lia. unfold stops_of in Hk. rewrite map_length in Hk. apply Hk. lia. }
      lia.
    + right. assert (Hil : (i =? length ks)%nat = false) by lia. rewrite Hil in H2. cbn [negb andb] in H2.
      rewrite key_starts in H2 by lia.
      pose proof (key_at_le _ i m (sorted_lt_le _ (sorted_starts _ _ Hs))) as Hk. rewrite !key_starts in Hk by lia. unfold starts_of in Hk. rewrite map_length in Hk. specialize (Hk ltac:(lia)). lia.
  - intros Hcl. rewrite Forall_forall in Hcl. split.
    + destruct found; [|reflexivity]. exfalso. destruct Hin as [Hin _]. specialize (Hin eq_refl).
      apply in_map_iff in Hin. destruct Hin as (k & Ek & Hk). apply Hcl in Hk. destruct Hk. contradiction.
    + apply andb_true_iff. rewrite !negb_true_iff. split.
      * destruct (Nat.eqb_spec i 0); [reflexivity|]. destruct (Nat.eqb_spec (length ks) 0); [reflexivity|]. cbn [negb andb].
        rewrite key_stops by lia. specialize (Hlo (i - 1)%nat ltac:(lia)). rewrite key_starts in Hlo by lia.
        destruct (Hcl (nth (i - 1) ks 0%nat)) as [_ Hd]; [apply nth_In; lia|]. lia.
      * destruct (Nat.eqb_spec i (length ks)); [reflexivity|]. cbn [negb andb]. rewrite key_starts by lia.
        specialize (Hhi i ltac:(lia)). rewrite key_starts in Hhi by lia.
        destruct (Hcl (nth i ks 0%nat)) as [Hne Hd]; [apply nth_In; lia|].
        destruct (Hw (nth i ks 0%nat)) as [? _]. unfold h_start, h_stop in *. lia.
Qed.

Lemma set_parent_ok_iff h c p : set_parent_ok h c p = true <-> fits h c p /\ c <> p.
Proof.
  unfold set_parent_ok, fits. destruct (eqb_str (h_string h c) (h_string h p)) eqn:E.
  - apply eqb_str_eq in E. cbn [negb].
    destruct (Z.ltb_spec (h_start h c) (h_start h p)); cbn [orb]; [split; [discriminate|intros (?&?); lia]|].
    destruct (Z.ltb_spec (h_stop h p) (h_stop h c)); [split; [discriminate|intros (?&?); lia]|].
    rewrite negb_true_iff, Nat.eqb_neq. intuition lia.
  - apply eqb_str_neq in E. cbn [negb]. split; [discriminate|]. intros ((?&_)&_). contradiction.
Qed.

(** exactly the acceptable children *)

Lemma kids_add1_spec h p c : hwf h -> (p < length h)%nat -> (c < length h)%nat ->
  (addable h p c /\ exists l r, n_kids (nd h p) = l ++ r /\ Forall (fun k => h_before h k c) l /\ Forall (h_before h c) r /\
     kids_add1 h p c = (set_kids (set_par h c (Some p)) p (l ++ c :: r), Ok tt))
  \/ (~ addable h p c /\ kids_add1 h p c = (h, Err ValueError)).
Proof.
  intros H Hp Hc. unfold kids_add1, addable.
  pose proof (place_ok h (n_kids (nd h p)) c (hwf_span h H) (hwf_sorted h H p)) as Hpl. cbv zeta in Hpl.
  destruct (n_par (nd h c)) as [q|] eqn:Ep; [right; split; [intros (E&_); discriminate|reflexivity]|].
  pose proof (bfind_start_spec _ (h_start h c) (sorted_lt_le _ (sorted_starts _ _ (hwf_sorted h H p)))) as Hb. cbv zeta in Hb.
  destruct (bfind_start (starts_of h (n_kids (nd h p))) (h_start h c)) as [found i]. cbn [fst snd] in *.
  destruct found.
  { right. split; [|reflexivity]. intros (_&_&_&Hcl). apply Hpl in Hcl. destruct Hcl. discriminate. }
  destruct (between_ok _ _ i (h_start h c) (h_stop h c)) eqn:Eb; cbn [negb].
  2:{ right. split; [|reflexivity]. intros (_&_&_&Hcl). apply Hpl in Hcl. destruct Hcl. discriminate. }
  destruct (set_parent_ok h c p) eqn:Es; cbn [negb].
  2:{ right. split; [|reflexivity]. intros (_&Hf&Hne&_). assert (set_parent_ok h c p = true) by (apply set_parent_ok_iff; auto). congruence. }
  left. apply set_parent_ok_iff in Es. destruct Es as [Hf Hne].
  assert (Hcl : Forall (clear_of h c) (n_kids (nd h p))) by (apply Hpl; auto).
  split; [auto|]. destruct Hb as (Hle & Hlo & Hhi & _). unfold starts_of in Hle, Hhi. rewrite map_length in Hle, Hhi. fold (starts_of h (n_kids (nd h p))) in *.
  destruct (split_at (n_kids (nd h p)) i Hle) as (l & r & El & Hi). exists l, r. split; [exact El|].
  assert (Hk : forall k, fwf (n_f (nd h k))) by apply (hwf_span h H).
  assert (Hwc := Hk c). destruct Hwc as [Hwc _]. fold (h_start h c) (h_stop h c) in Hwc.
  rewrite El in Hcl. rewrite Forall_app in Hcl. destruct Hcl as [Hcl Hcr].
  split; [|split].
  - apply Forall_forall. intros k Hin. rewrite Forall_forall in Hcl. destruct (Hcl k Hin) as [Hn Hd].
    apply (In_nth _ _ 0%nat) in Hin. destruct Hin as (m & Hm & Em).
    specialize (Hlo m ltac:(lia)). rewrite key_starts in Hlo by (rewrite El, app_length; lia).
    rewrite El, app_nth1 in Hlo by lia. rewrite Em in Hlo. unfold h_before. lia.
  - apply Forall_forall. intros k Hin. rewrite Forall_forall in Hcr. destruct (Hcr k Hin) as [Hn Hd].
    apply (In_nth _ _ 0%nat) in Hin. destruct Hin as (m & Hm & Em).
    specialize (Hhi (i + m)%nat). rewrite key_starts in Hhi by (rewrite El, app_length; lia).
    rewrite El, app_length in Hhi. rewrite app_nth2 in Hhi by lia. replace (i + m - length l)%nat with m in Hhi by lia. rewrite Em in Hhi.
    specialize (Hhi ltac:(lia)). destruct (Hk k) as [Hwk _]. fold (h_start h k) (h_stop h k) in Hwk. unfold h_before. lia.
  - rewrite kids_set_par, El. rewrite insert_at_split by lia. reflexivity.
Qed.

(** adding preserves the invariant *)
Lemma hwf_insert h p c l r : hwf h -> (p < length h)%nat -> (c < length h)%nat ->
  n_par (nd h c) = None -> fits h c p -> c <> p ->
  n_kids (nd h p) = l ++ r -> Forall (fun k => h_before h k c) l -> Forall (h_before h c) r ->
  let h' := set_kids (set_par h c (Some p)) p (l ++ c :: r) in
  hwf h' /\ length h' = length h /\ (forall j, n_f (nd h' j) = n_f (nd h j)).
Proof.
  intros H Hp Hc Hn Hf Hne Ek Hl Hr. cbv zeta.
  set (h1 := set_par h c (Some p)).
  assert (L1 : length h1 = length h) by apply set_par_length.
  assert (D : forall j, n_f (nd (set_kids h1 p (l ++ c :: r)) j) = n_f (nd h j)).
  { intros j. rewrite f_set_kids. apply f_set_par. }
  assert (P : forall j, n_par (nd (set_kids h1 p (l ++ c :: r)) j) = if (j =? c)%nat then Some p else n_par (nd h j)).
  { intros j. rewrite par_set_kids. apply par_set_par. exact Hc. }
  assert (K : forall j, n_kids (nd (set_kids h1 p (l ++ c :: r)) j) = if (j =? p)%nat then l ++ c :: r else n_kids (nd h j)).
  { intros j. rewrite kids_set_kids by lia. unfold h1. rewrite kids_set_par. reflexivity. }
  assert (L : length (set_kids h1 p (l ++ c :: r)) = length h) by (rewrite set_kids_length; exact L1).
  set (h' := set_kids h1 p (l ++ c :: r)) in *. clearbody h'. clear h1 L1.
  split; [|split; [exact L|exact D]].
  constructor.
  - intros i. rewrite D. apply (hwf_span h H).
  - intros q k Hin. rewrite K in Hin. rewrite P, L.
    destruct (Nat.eqb_spec q p) as [->|Hq].
    + apply in_app_or in Hin. cbn [In] in Hin.
      assert (Hin' : c = k \/ In k (n_kids (nd h p))) by (rewrite Ek; rewrite in_app_iff; tauto).
      destruct Hin' as [<-|Hin'].
      * rewrite Nat.eqb_refl. split; [reflexivity|]. split; [apply (data_fits h); auto|]. auto.
      * destruct (hwf_kid h H p k Hin') as (Hpk & Hfk & Hkp & Hkl).
        destruct (Nat.eqb_spec k c) as [->|]; [congruence|]. repeat split; auto; apply (data_fits h); auto.
    + destruct (hwf_kid h H q k Hin) as (Hpk & Hfk & Hkp & Hkl).
      destruct (Nat.eqb_spec k c) as [->|]; [congruence|]. repeat split; auto; apply (data_fits h); auto.
  - intros q k Hpar. rewrite P in Hpar. rewrite K, L. destruct (Nat.eqb_spec k c) as [Ekc|Hk]; [subst k|].
    + injection Hpar as <-. rewrite Nat.eqb_refl. split; [apply in_or_app; right; left; reflexivity|exact Hp].
    + destruct (hwf_par h H q k Hpar) as [Hin Hq]. split; [|exact Hq]. destruct (Nat.eqb_spec q p) as [->|]; [|exact Hin].
      rewrite Ek in Hin. apply in_app_or in Hin. apply in_or_app. cbn [In]. tauto.
  - intros q. rewrite K. destruct (Nat.eqb_spec q p) as [->|].
    + apply (data_sorted h); [intros; apply D|]. pose proof (hwf_sorted h H p) as Hs. rewrite Ek in Hs.
      apply sorted_insert; auto.
    + apply (data_sorted h); [intros; apply D|]. apply (hwf_sorted h H).
Qed.

Lemma kids_add_inv h p cs : hwf h -> (p < length h)%nat -> Forall (fun c => (c < length h)%nat) cs ->
  let h' := fst (kids_add h p cs) in
  hwf h' /\ length h' = length h /\ (forall j, n_f (nd h' j) = n_f (nd h j)) /\ (snd (kids_add h p cs) = Ok tt \/ snd (kids_add h p cs) = Err ValueError).
Proof.
  cbv zeta. revert h; induction cs as [|c cs IH]; intros h H Hp Hcs; cbn [kids_add]; [cbn; auto|].
  inversion Hcs as [|? ? Hc Hcs']; subst.
  destruct (kids_add1_spec h p c H Hp Hc) as [((Hn & Hf & Hne & _) & l & r & Ek & Hl & Hr & E)|(_ & E)]; rewrite E.
  - unfold obind. cbn [snd fst].
    destruct (hwf_insert h p c l r H Hp Hc Hn Hf Hne Ek Hl Hr) as (H1 & L1 & D1).
    destruct (IH _ H1) as (H2 & L2 & D2 & E2); [lia|rewrite L1; exact Hcs'|].
    split; [exact H2|]. split; [lia|]. split; [|exact E2]. intros j. rewrite D2. apply D1.
  - unfold obind. cbn [snd fst]. auto.
Qed.
