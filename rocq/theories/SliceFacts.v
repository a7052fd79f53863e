(** Proofs: children by index and slice (C123). *)
From Verif Require Import HeapFacts HeapFacts2 HeapFacts3 HeapFacts4 ChildSlices SpecSlices.

Lemma run_nth st stop : st <> 0 -> forall fuel i t,
  nth_error (slice_run fuel i stop st) t =
    (if (t <? fuel)%nat && (if st <? 0 then stop <? i + Z.of_nat t * st else i + Z.of_nat t * st <? stop) then Some (Z.to_nat (i + Z.of_nat t * st)) else None).
Proof.
  intros Hst. induction fuel as [|fuel IH]; intros i t; cbn [slice_run].
  - destruct t; reflexivity.
  - destruct t as [|t].
    + change (0 <? S fuel)%nat with true. cbn [andb]. replace (i + Z.of_nat 0 * st) with i by lia. destruct (if st <? 0 then stop <? i else i <? stop); reflexivity.
    + change (S t <? S fuel)%nat with (t <? fuel)%nat. replace (i + Z.of_nat (S t) * st) with (i + st + Z.of_nat t * st) by lia.
      destruct (if st <? 0 then stop <? i else i <? stop) eqn:E; cbn [nth_error]; [apply IH|].
      destruct ((t <? fuel)%nat && _) eqn:F; [|reflexivity]. exfalso. apply andb_true_iff in F. destruct F as [_ F]. destruct (Z.ltb_spec st 0); [apply Z.ltb_lt in F; apply Z.ltb_ge in E|apply Z.ltb_lt in F; apply Z.ltb_ge in E]; nia.
Qed.
Lemma bounds_eq n a b st : 0 <= n -> st <> 0 -> slice_bounds n a b st = (slc_first n a st, slc_limit n b st).
Proof.
  intros Hn Hst. unfold slice_bounds, slc_first, slc_limit, counted. destruct (Z.ltb_spec st 0), (Z.ltb_spec 0 st); try lia; f_equal.
  - destruct a as [v|]; [|reflexivity]. destruct (Z.ltb_spec v 0); [destruct (Z.ltb_spec (v + n) 0)|destruct (Z.leb_spec n v)]; lia.
  - destruct b as [v|]; [|reflexivity]. destruct (Z.ltb_spec v 0); [destruct (Z.ltb_spec (v + n) 0)|destruct (Z.leb_spec n v)]; lia.
  - destruct a as [v|]; [|reflexivity]. destruct (Z.ltb_spec v 0); [destruct (Z.ltb_spec (v + n) 0)|destruct (Z.leb_spec n v)]; lia.
  - destruct b as [v|]; [|reflexivity]. destruct (Z.ltb_spec v 0); [destruct (Z.ltb_spec (v + n) 0)|destruct (Z.leb_spec n v)]; lia.
Qed.
Lemma first_range n a st : 0 <= n -> st <> 0 -> (0 < st -> 0 <= slc_first n a st) /\ (st < 0 -> slc_first n a st <= n - 1 /\ -1 <= slc_first n a st).
Proof. intros Hn Hst. unfold slc_first. destruct a as [v|]; destruct (Z.ltb_spec 0 st); lia. Qed.
Lemma limit_range n b st : 0 <= n -> st <> 0 -> (0 < st -> 0 <= slc_limit n b st <= n) /\ (st < 0 -> -1 <= slc_limit n b st).
Proof. intros Hn Hst. unfold slc_limit. destruct b as [v|]; destruct (Z.ltb_spec 0 st); lia. Qed.
Lemma positions_spec n a b st : odflt st 1 <> 0 -> exists pos, slice_positions n a b st = Ok pos /\
  forall t k, nth_error pos t = Some k <-> slc_at (Z.of_nat n) a b (odflt st 1) t k.
Proof.
  intros Hst. unfold slice_positions. set (s := odflt st 1) in *. destruct (Z.eqb_spec s 0); [contradiction|]. rewrite bounds_eq by lia.
  exists (slice_run n (slc_first (Z.of_nat n) a s) (slc_limit (Z.of_nat n) b s) s). split; [reflexivity|]. intros t k. rewrite run_nth by exact Hst. unfold slc_at.
  destruct (first_range (Z.of_nat n) a s ltac:(lia) Hst) as [F1 F2]. destruct (limit_range (Z.of_nat n) b s ltac:(lia) Hst) as [L1 L2].
  set (i := slc_first (Z.of_nat n) a s) in *. set (j := slc_limit (Z.of_nat n) b s) in *. split.
  - destruct ((t <? n)%nat && _) eqn:E; [|discriminate]. intros [= <-]. apply andb_true_iff in E. destruct E as [_ E]. destruct (Z.ltb_spec s 0); apply Z.ltb_lt in E.
    + assert (i + Z.of_nat t * s <= i) by nia. rewrite Z2Nat.id by lia. repeat split; try lia.
    + assert (i <= i + Z.of_nat t * s) by nia. rewrite Z2Nat.id by lia. repeat split; try lia.
  - intros (K1 & K2 & K3 & K4). assert (Ht : (t < n)%nat).
    { destruct (Z.ltb_spec s 0); [assert (Z.of_nat t * s <= - Z.of_nat t) by nia|assert (Z.of_nat t <= Z.of_nat t * s) by nia]; lia. }
    destruct (Nat.ltb_spec t n); [|lia]. cbn [andb]. rewrite <- K2. rewrite Nat2Z.id. destruct (Z.ltb_spec s 0).
    + destruct (Z.ltb_spec j (Z.of_nat k)); [reflexivity|]. specialize (K4 ltac:(lia)). lia.
    + destruct (Z.ltb_spec (Z.of_nat k) j); [reflexivity|]. specialize (K3 ltac:(lia)). lia.
Qed.
Lemma zero_step n a b st : odflt st 1 = 0 -> slice_positions n a b st = Err ValueError.
Proof. intros E. unfold slice_positions. rewrite E. reflexivity. Qed.

(** ** reading *)
Theorem get_int_spec h p k :
  match kids_get_int h p k with
  | Ok c => exists i, idx_at (zlen (n_kids (nd h p))) k i /\ nth_error (n_kids (nd h p)) i = Some c
  | Err e => e = IndexError /\ ~ - zlen (n_kids (nd h p)) <= k < zlen (n_kids (nd h p))
  end.
Proof.
  unfold kids_get_int, py_index, zget, idx_at, counted, zlen. set (ks := n_kids (nd h p)). set (n := Z.of_nat (length ks)).
  assert (Hn : 0 <= n) by (unfold n; lia). destruct (Z.ltb_spec k 0) as [K|K].
  - destruct (Z.ltb_spec (k + n) 0) as [X|X]; [split; [reflexivity|lia]|]. destruct (nth_error ks (Z.to_nat (k + n))) as [c|] eqn:E.
    + exists (Z.to_nat (k + n)). split; [split; lia|exact E].
    + apply nth_error_None in E. unfold n in *. lia.
  - destruct (Z.ltb_spec k 0); [lia|]. destruct (nth_error ks (Z.to_nat k)) as [c|] eqn:E.
    + exists (Z.to_nat k). assert (Z.to_nat k < length ks)%nat by (apply nth_error_Some; congruence). split; [unfold n; split; lia|exact E].
    + apply nth_error_None in E. split; [reflexivity|unfold n; lia].
Qed.
Lemma get_slice_spec h p a b st : odflt st 1 <> 0 -> exists l, kids_get_slice h p a b st = Ok l /\
  forall t c, nth_error l t = Some c <-> exists k, slc_at (zlen (n_kids (nd h p))) a b (odflt st 1) t k /\ nth_error (n_kids (nd h p)) k = Some c.
Proof.
  intros Hst. destruct (positions_spec (length (n_kids (nd h p))) a b st Hst) as (pos & E & Hpos). pose proof (slice_positions_bound _ _ _ _ _ E) as B. rewrite Forall_forall in B.
  exists (map (fun k => nth k (n_kids (nd h p)) 0%nat) pos). unfold kids_get_slice. rewrite E. split; [reflexivity|]. intros t c. rewrite nth_error_map. unfold zlen.
  destruct (nth_error pos t) as [k|] eqn:Ek; cbn [option_map].
  - pose proof (proj1 (Hpos t k) Ek) as A. assert (Hk : (k < length (n_kids (nd h p)))%nat) by (apply B; eapply nth_error_In; exact Ek). split.
    + intros [= <-]. exists k. split; [exact A|]. apply nth_error_nth'. exact Hk.
    + intros (k' & A' & N). apply Hpos in A'. rewrite Ek in A'. injection A' as <-. f_equal. apply nth_error_nth. exact N.
  - split; [discriminate|]. intros (k' & A' & _). apply Hpos in A'. congruence.
Qed.

(** ** deleting *)
Lemma drop_filter (f : nat -> bool) pos : forall l m, (forall t x, nth_error l t = Some x -> f x = existsb (Nat.eqb (m + t)) pos) ->
  drop_positions m pos l = filter (fun x => negb (f x)) l.
Proof.
  induction l as [|x l IH]; intros m Hl; cbn [drop_positions filter]; [reflexivity|]. pose proof (Hl 0%nat x eq_refl) as H0. rewrite Nat.add_0_r in H0. rewrite H0, (IH (S m)).
  - destruct (existsb (Nat.eqb m) pos); reflexivity.
  - intros t y Hy. rewrite (Hl (S t) y Hy). f_equal. f_equal. lia.
Qed.
Lemma drop_removed h p pos : hwf h -> Forall (fun k => (k < length (n_kids (nd h p)))%nat) pos ->
  drop_positions 0 pos (n_kids (nd h p)) = filter (fun x => negb (existsb (Nat.eqb x) (removed_at h p pos))) (n_kids (nd h p)).
Proof.
  intros H B. apply drop_filter. intros t x Hx. cbn [Nat.add]. pose proof (kids_nodup h _ (hwf_sorted h H p)) as Nd. rewrite Forall_forall in B.
  destruct (existsb (Nat.eqb t) pos) eqn:E.
  - apply existsb_nat in E. apply existsb_nat. apply in_map_iff. exists t. split; [apply nth_error_nth; exact Hx|exact E].
  - apply existsb_nat_false in E. apply existsb_nat_false. intros X. apply E. apply in_map_iff in X. destruct X as (k & Ek & Hk).
    assert (k = t); [|subst; exact Hk]. apply (proj1 (NoDup_nth_error _) Nd); [apply B; exact Hk|]. rewrite Hx. rewrite <- Ek. apply nth_error_nth'. apply B. exact Hk.
Qed.
Theorem del_slice_spec h p a b st : hwf h -> (p < length h)%nat -> odflt st 1 <> 0 ->
  exists l h', kids_get_slice h p a b st = Ok l /\ kids_del_slice h p a b st = (h', Ok tt) /\ hwf h' /\ length h' = length h /\
    (forall j, n_f (nd h' j) = n_f (nd h j)) /\
    (forall j, n_kids (nd h' j) = if (j =? p)%nat then filter (fun c => negb (existsb (Nat.eqb c) l)) (n_kids (nd h p)) else n_kids (nd h j)) /\
    (forall j, n_par (nd h' j) = if existsb (Nat.eqb j) l then None else n_par (nd h j)).
Proof.
  intros H Hp Hst. destruct (positions_spec (length (n_kids (nd h p))) a b st Hst) as (pos & E & _). pose proof (slice_positions_bound _ _ _ _ _ E) as B.
  unfold kids_get_slice, kids_del_slice. rewrite E. destruct (kids_del_at_spec h p pos H Hp B) as (W & L & D & K & P & _).
  exists (removed_at h p pos), (kids_del_at h p pos). split; [reflexivity|]. split; [reflexivity|]. split; [exact W|]. split; [exact L|]. split; [exact D|]. split; [|exact P].
  intros j. rewrite K, (drop_removed h p pos H B). reflexivity.
Qed.
Theorem del_int_spec h p k : hwf h -> (p < length h)%nat ->
  match kids_get_int h p k with
  | Ok c => kids_del_int h p k = (without h p c, Ok tt)
  | Err e => kids_del_int h p k = (h, Err e)
  end.
Proof.
  intros H Hp. unfold kids_get_int. pose proof (kids_pop_spec h p k H Hp) as P. unfold kids_pop in P. unfold kids_del_int in *.
  destruct (py_index (n_kids (nd h p)) k) as [c|e]; destruct (py_pos (length (n_kids (nd h p))) k) as [i|e']; unfold obind in P; cbn [fst snd] in P.
  - injection P as -> _. reflexivity.
  - discriminate.
  - destruct P as [_ P]. discriminate.
  - destruct P as [-> P]. injection P as ->. reflexivity.
Qed.

(** ** assigning *)
Lemma between_conv h l r c : Forall (fun x => h_before h x c) l -> Forall (h_before h c) r -> nonempty h c -> Forall (nonempty h) (l ++ r) ->
  (forall x, In x r -> h_stop h c <= h_start h x) -> between_ok (starts_of h (l ++ r)) (stops_of h (l ++ r)) (length l) (h_start h c) (h_stop h c) = true.
Proof.
  intros Hl Hr Hc Hn Hr2. unfold between_ok. apply andb_true_iff. rewrite !negb_true_iff. unfold starts_of at 1 2. rewrite !map_length. split.
  - destruct (Nat.eqb_spec (length l) 0) as [|Nl]; [reflexivity|]. destruct (Nat.eqb_spec (length (l ++ r)) 0) as [|Nk]; [reflexivity|]. cbn [negb andb].
    apply Z.ltb_ge. rewrite key_stops by (rewrite app_length; lia). rewrite app_nth1 by lia. rewrite Forall_forall in Hl. apply Hl. apply nth_In. lia.
  - destruct (Nat.eqb_spec (length l) (length (l ++ r))) as [|Nk]; [reflexivity|]. cbn [negb andb]. apply Z.ltb_ge. rewrite app_length in Nk. rewrite key_starts by (rewrite app_length; lia).
    rewrite app_nth2 by lia. rewrite Nat.sub_diag. destruct r as [|x r]; [cbn in Nk; lia|]. apply Hr2. left. reflexivity.
Qed.
Lemma put_total h p l r c : hwf h -> (p < length h)%nat -> (c < length h)%nat -> n_par (nd h c) = None -> n_kids (nd h p) = l ++ r ->
  nonempty h c -> Forall (nonempty h) (l ++ r) ->
  (may_stand h p l r c /\ exists h', kids_put h p (length l) c = (h', Ok tt) /\ hwf h' /\ length h' = length h /\ (forall j, n_f (nd h' j) = n_f (nd h j)) /\
     (forall j, n_kids (nd h' j) = if (j =? p)%nat then l ++ c :: r else n_kids (nd h j)) /\ (forall j, n_par (nd h' j) = if (j =? c)%nat then Some p else n_par (nd h j)))
  \/ (~ may_stand h p l r c /\ kids_put h p (length l) c = (h, Err ValueError)).
Proof.
  intros H Hp Hc Nc Ek Hne Hks. destruct (kids_put_spec h p (length l) c H Hp Hc Nc Hne) as (W & L & D & R); [rewrite Ek; exact Hks|].
  destruct R as [(e & Ee & Eh)|(Eo & _ & K & P)].
  - right. destruct (kids_put h p (length l) c) as [h1 r1] eqn:Ep. cbn [fst snd] in *. subst. unfold kids_put in Ep. rewrite Ek in Ep.
    destruct (Nat.ltb_spec (length (l ++ r)) (length l)) as [X|X]; [rewrite app_length in X; lia|].
    destruct (between_ok _ _ (length l) (h_start h c) (h_stop h c)) eqn:Eb; cbn [negb] in Ep.
    + destruct (set_parent_ok h c p) eqn:Es; cbn [negb] in Ep; [discriminate|]. injection Ep as <-. split; [|reflexivity]. intros (F & Np & _). rewrite (proj2 (set_parent_ok_iff h c p) (conj F Np)) in Es. discriminate.
    + injection Ep as <-. split; [|reflexivity]. intros (_ & _ & F1 & F2). rewrite between_conv in Eb; try assumption; [discriminate|]. intros x Hx. rewrite Forall_forall in F2. apply F2. exact Hx.
  - left. destruct (kids_put h p (length l) c) as [h1 r1] eqn:Ep. cbn [fst snd] in *. subst r1.
    assert (K' : forall j, n_kids (nd h1 j) = if (j =? p)%nat then l ++ c :: r else n_kids (nd h j)) by (intros j; rewrite K, Ek, insert_at_split by reflexivity; reflexivity).
    pose proof (K' p) as Kp. rewrite Nat.eqb_refl in Kp. pose proof (hwf_sorted h1 W p) as S1. rewrite Kp in S1.
    assert (Hb : forall x y, h_before h1 x y -> h_before h x y) by (intros x y; unfold h_before, h_start, h_stop; rewrite !D; auto).
    split; [|exists h1; auto 10]. split; [|split; [|split]].
    + destruct (hwf_kid h1 W p c) as (_ & F & _); [rewrite Kp; apply in_or_app; right; left; reflexivity|]. unfold fits, h_string, h_start, h_stop in *. rewrite !D in F. exact F.
    + unfold kids_put in Ep. destruct (_ <? _)%nat; [discriminate|]. destruct (negb (between_ok _ _ _ _ _)); [discriminate|]. destruct (set_parent_ok h c p) eqn:Es; [|discriminate]. apply set_parent_ok_iff in Es. apply Es.
    + apply Forall_forall. intros x Hx. apply Hb. clear - S1 Hx. induction l as [|y l IH]; [destruct Hx|]. cbn [app] in S1. inversion S1 as [|? ? S2 F2]; subst. destruct Hx as [<-|Hx]; [|apply IH; assumption].
      rewrite Forall_forall in F2. apply F2. apply in_or_app. right. left. reflexivity.
    + apply Forall_forall. intros x Hx. apply Hb. clear - S1 Hx. induction l as [|y l IH]; cbn [app] in S1; inversion S1 as [|? ? S2 F2]; subst; [rewrite Forall_forall in F2; apply F2; exact Hx|apply IH; exact S2].
Qed.
(** children[k] = c *)
Theorem set_int_spec h p k c old : hwf h -> (p < length h)%nat -> (c < length h)%nat -> nonempty h c -> Forall (nonempty h) (n_kids (nd h p)) ->
  kids_get_int h p k = Ok old -> n_par (nd h c) = None \/ c = old ->
  exists l r, n_kids (nd h p) = l ++ old :: r /\ idx_at (zlen (n_kids (nd h p))) k (length l) /\
    ((may_stand h p l r c /\ exists h', kids_set_int h p k c = (h', Ok tt) /\ hwf h' /\ length h' = length h /\ (forall j, n_f (nd h' j) = n_f (nd h j)) /\
       (forall j, n_kids (nd h' j) = if (j =? p)%nat then l ++ c :: r else n_kids (nd h j)) /\
       (forall j, n_par (nd h' j) = if (j =? c)%nat then Some p else if (j =? old)%nat then None else n_par (nd h j)))
    \/ (~ may_stand h p l r c /\ kids_set_int h p k c = (without h p old, Err ValueError))).
Proof.
  intros H Hp Hc Hne Hks Eg Hpar. pose proof (get_int_spec h p k) as G. rewrite Eg in G. destruct G as (i & Hi & Ni).
  destruct (nth_error_split _ _ Ni) as (l & r & Ek & Li). subst i. exists l, r. split; [exact Ek|]. split; [exact Hi|].
  assert (Est : fst (from_indices (Z.of_nat (length (n_kids (nd h p)))) (Some k) None) = Z.of_nat (length l)).
  { unfold from_indices. cbn [fst]. unfold idx_at, counted, zlen in Hi. destruct (Z.ltb_spec k 0); destruct (Z.leb_spec 0 k); lia. }
  assert (Hin : In old (n_kids (nd h p))) by (rewrite Ek; apply in_or_app; right; left; reflexivity).
  assert (Ed : kids_del_int h p (Z.of_nat (length l)) = (without h p old, Ok tt)).
  { pose proof (del_int_spec h p (Z.of_nat (length l)) H Hp) as X. replace (kids_get_int h p (Z.of_nat (length l))) with (Ok old : res nat) in X; [exact X|].
    unfold kids_get_int, py_index, zget. destruct (Z.ltb_spec (Z.of_nat (length l)) 0); [lia|]. destruct (Z.ltb_spec (Z.of_nat (length l)) 0); [lia|]. rewrite Nat2Z.id, Ni. reflexivity. }
  unfold kids_set_int. rewrite Est, Ed. unfold obind. cbn [fst snd]. rewrite Nat2Z.id.
  destruct (without_facts h p old H Hin) as (W1 & L1 & D1 & P1 & K1). set (h1 := without h p old) in *.
  assert (Nd : NoDup (l ++ old :: r)) by (rewrite <- Ek; exact (kids_nodup h _ (hwf_sorted h H p))).
  assert (Kp : n_kids (nd h1 p) = l ++ r).
  { rewrite K1, Nat.eqb_refl, Ek. rewrite filter_app. cbn [filter]. rewrite Nat.eqb_refl. cbn [negb]. apply NoDup_remove_2 in Nd. rewrite !filter_not_in; [reflexivity| |]; intros X; apply Nd; apply in_or_app; auto. }
  assert (Ms : may_stand h1 p l r c <-> may_stand h p l r c).
  { unfold may_stand, fits, h_before, h_string, h_start, h_stop. rewrite !D1.
    split; intros (A1 & A2 & A3 & A4); (split; [exact A1|split; [exact A2|split; (eapply Forall_impl; [|eassumption]); cbn beta; intros x; rewrite !D1; auto]]). }
  destruct (put_total h1 p l r c W1) as [(M & h' & E' & W' & L' & D' & K' & P')|(M & E')]; try (rewrite L1; assumption); try assumption.
  - rewrite P1. destruct (Nat.eqb_spec c old) as [|N]; [reflexivity|]. destruct Hpar as [Q|Q]; [exact Q|contradiction].
  - apply (nonempty_data h); [apply D1|exact Hne].
  - apply Forall_forall. intros x Hx. apply (nonempty_data h); [apply D1|]. rewrite Forall_forall in Hks. apply Hks. rewrite Ek. apply in_or_app. apply in_app_iff in Hx. destruct Hx; [left|right; right]; assumption.
  - left. split; [apply Ms; exact M|]. exists h'. split; [exact E'|]. split; [exact W'|]. split; [lia|]. split; [intros j; rewrite D'; apply D1|]. split.
    + intros j. rewrite K', K1. destruct (j =? p)%nat; reflexivity.
    + intros j. rewrite P', P1. reflexivity.
  - right. split; [intros X; apply M; apply Ms; exact X|exact E'].
Qed.

(** children[a:b] = cs *)
Lemma may_stand_data h h' p l r c : (forall j, n_f (nd h' j) = n_f (nd h j)) -> may_stand h' p l r c <-> may_stand h p l r c.
Proof.
  intros D. unfold may_stand, fits, h_before, h_string, h_start, h_stop. rewrite !D.
  split; intros (A1 & A2 & A3 & A4); (split; [exact A1|split; [exact A2|split; (eapply Forall_impl; [|eassumption]); cbn beta; intros x; rewrite !D; auto]]).
Qed.
Lemma may_stand_all_data h h' p l r cs : (forall j, n_f (nd h' j) = n_f (nd h j)) -> may_stand_all h' p l r cs <-> may_stand_all h p l r cs.
Proof.
  intros D. unfold may_stand_all. split; intros [A B]; split.
  - eapply Forall_impl; [|exact A]. intros c. apply (may_stand_data h h' p l r c D).
  - clear A. induction B as [|x xs B IH F]; constructor; [exact IH|]. eapply Forall_impl; [|exact F]. intros y. unfold h_before, h_start, h_stop. rewrite !D. auto.
  - eapply Forall_impl; [|exact A]. intros c. apply (may_stand_data h h' p l r c D).
  - clear A. induction B as [|x xs B IH F]; constructor; [exact IH|]. eapply Forall_impl; [|exact F]. intros y. unfold h_before, h_start, h_stop. rewrite !D. auto.
Qed.
Lemma put_all_total p r : forall cs h l, hwf h -> (p < length h)%nat -> Forall (fun c => (c < length h)%nat /\ n_par (nd h c) = None /\ nonempty h c) cs -> NoDup cs ->
  n_kids (nd h p) = l ++ r -> Forall (nonempty h) (l ++ r) ->
  (may_stand_all h p l r cs /\ exists h', kids_put_all h p (length l) cs = (h', Ok tt) /\ hwf h' /\ length h' = length h /\ (forall j, n_f (nd h' j) = n_f (nd h j)) /\
     (forall j, n_kids (nd h' j) = if (j =? p)%nat then l ++ cs ++ r else n_kids (nd h j)) /\ (forall j, n_par (nd h' j) = if existsb (Nat.eqb j) cs then Some p else n_par (nd h j)))
  \/ (~ may_stand_all h p l r cs /\ exists h', kids_put_all h p (length l) cs = (h', Err ValueError) /\ hwf h' /\ length h' = length h /\ (forall j, n_f (nd h' j) = n_f (nd h j))).
Proof.
  induction cs as [|c cs IH]; intros h l H Hp Hcs Hnd Ek Hks; cbn [kids_put_all].
  - left. split; [split; constructor|]. exists h. split; [reflexivity|]. split; [exact H|]. split; [reflexivity|]. split; [reflexivity|]. split; [|reflexivity].
    intros j. destruct (Nat.eqb_spec j p) as [->|]; [exact Ek|reflexivity].
  - inversion Hcs as [|? ? (C1 & C2 & C3) C4]; subst. inversion Hnd as [|? ? N1 N2]; subst. rewrite Forall_forall in C4.
    destruct (put_total h p l r c H Hp C1 C2 Ek C3 Hks) as [(M & h1 & E1 & W1 & L1 & D1 & K1 & P1)|(M & E1)]; rewrite E1; unfold obind; cbn [fst snd].
    2:{ right. split; [intros [A _]; apply M; inversion A; assumption|]. exists h. auto. }
    specialize (K1 p) as Kp. rewrite Nat.eqb_refl in Kp.
    destruct (IH h1 (l ++ [c])) as [((M1 & M2) & h' & E' & W' & L' & D' & K' & P')|(M1 & h' & E' & W' & L' & D')].
    + exact W1.
    + lia.
    + apply Forall_forall. intros x Hx. destruct (C4 x Hx) as (X1 & X2 & X3). split; [lia|]. split; [|apply (nonempty_data h); auto]. rewrite P1. destruct (Nat.eqb_spec x c) as [->|]; [contradiction|exact X2].
    + exact N2.
    + rewrite Kp, <- app_assoc. reflexivity.
    + rewrite <- app_assoc. cbn [app]. apply Forall_app in Hks. destruct Hks as [F1 F2]. apply Forall_app. split; [|constructor; [apply (nonempty_data h); auto|]]; (eapply Forall_impl; [|eassumption]); intros x; apply nonempty_data; apply D1.
    + left. rewrite app_length in E'. cbn [length] in E'. rewrite Nat.add_1_r in E'. split.
      * destruct (proj1 (may_stand_all_data h h1 p (l ++ [c]) r cs D1) (conj M1 M2)) as [A B]. split.
        -- constructor; [exact M|]. eapply Forall_impl; [|exact A]. intros x (X1 & X2 & X3 & X4). apply Forall_app in X3. destruct X3 as [X3 _]. repeat split; auto; apply X1.
        -- constructor; [exact B|]. eapply Forall_impl; [|exact A]. intros x (_ & _ & X3 & _). apply Forall_app in X3. destruct X3 as [_ X3]. inversion X3; assumption.
      * exists h'. split; [exact E'|]. split; [exact W'|]. split; [lia|]. split; [intros j; rewrite D'; apply D1|]. split.
        -- intros j. rewrite K', K1. destruct (j =? p)%nat; [|reflexivity]. rewrite <- app_assoc. reflexivity.
        -- intros j. rewrite P', P1. cbn [existsb]. destruct (j =? c)%nat; cbn [orb]; [destruct (existsb _ cs); reflexivity|reflexivity].
    + right. rewrite app_length in E'. cbn [length] in E'. rewrite Nat.add_1_r in E'. split.
      * intros [A B]. apply M1. apply (may_stand_all_data h h1 p _ r cs D1). inversion A as [|? ? A1 A2]; subst. inversion B as [|? ? B1 B2]; subst. rewrite Forall_forall in A2, B2. split; [|exact B1].
        apply Forall_forall. intros x Hx. destruct (A2 x Hx) as (X1 & X2 & X3 & X4). split; [exact X1|]. split; [exact X2|]. split; [|exact X4]. apply Forall_app. split; [exact X3|]. constructor; [apply B2; exact Hx|constructor].
      * exists h'. split; [exact E'|]. split; [exact W'|]. split; [lia|]. intros j. rewrite D'. apply D1.
Qed.
Lemma from_first n a b : 0 <= n -> fst (from_indices n a b) = slc_first n a 1.
Proof. intros Hn. unfold from_indices, slc_first, counted. cbn [fst]. change (0 <? 1) with true. cbv iota. destruct a as [v|]; [|reflexivity]. destruct (Z.leb_spec 0 v); destruct (Z.ltb_spec v 0); lia. Qed.
Lemma positions_run (l m r : list nat) : (slice_run (length (l ++ m ++ r)) (zlen l) (zlen l + zlen m) 1) = seq (length l) (length m).
Proof.
  unfold zlen. assert (G : forall n k s, (n <= k)%nat -> slice_run k (Z.of_nat s) (Z.of_nat s + Z.of_nat n) 1 = seq s n).
  { induction n as [|n IH]; intros k s Hk.
    - destruct k; cbn [slice_run seq]; [reflexivity|]. change (1 <? 0) with false. cbv iota. destruct (Z.ltb_spec (Z.of_nat s) (Z.of_nat s + Z.of_nat 0)); [lia|reflexivity].
    - destruct k; [lia|]. cbn [slice_run seq]. change (1 <? 0) with false. cbv iota. destruct (Z.ltb_spec (Z.of_nat s) (Z.of_nat s + Z.of_nat (S n))); [|lia]. rewrite Nat2Z.id. f_equal.
      replace (Z.of_nat s + 1) with (Z.of_nat (S s)) by lia. replace (Z.of_nat s + Z.of_nat (S n)) with (Z.of_nat (S s) + Z.of_nat n) by lia. apply IH. lia. }
  apply G. rewrite !app_length. lia.
Qed.
Theorem set_slice_spec h p a b st cs : odflt st 1 = 1 -> hwf h -> (p < length h)%nat -> NoDup cs -> Forall (nonempty h) (n_kids (nd h p)) ->
  exists l m r, n_kids (nd h p) = l ++ m ++ r /\ zlen l = slc_first (zlen (n_kids (nd h p))) a 1 /\ zlen l + zlen m = Z.max (zlen l) (slc_limit (zlen (n_kids (nd h p))) b 1) /\
  (Forall (fun c => (c < length h)%nat /\ nonempty h c /\ (n_par (nd h c) = None \/ In c m)) cs ->
    (may_stand_all h p l r cs /\ exists h', kids_set_slice h p a b st cs = (h', Ok tt) /\ hwf h' /\ length h' = length h /\ (forall j, n_f (nd h' j) = n_f (nd h j)) /\
       (forall j, n_kids (nd h' j) = if (j =? p)%nat then l ++ cs ++ r else n_kids (nd h j)) /\
       (forall j, n_par (nd h' j) = if existsb (Nat.eqb j) cs then Some p else if existsb (Nat.eqb j) m then None else n_par (nd h j)))
    \/ (~ may_stand_all h p l r cs /\ exists h', kids_set_slice h p a b st cs = (h', Err ValueError) /\ hwf h' /\ length h' = length h /\ (forall j, n_f (nd h' j) = n_f (nd h j)))).
Proof.
  intros Hst H Hp Hnd Hks. set (ks := n_kids (nd h p)) in *. assert (Hn : 0 <= zlen ks) by (unfold zlen; lia).
  set (i := slc_first (zlen ks) a 1). set (j := Z.max i (slc_limit (zlen ks) b 1)).
  assert (Ri : 0 <= i <= zlen ks) by (unfold i, slc_first, counted; change (0 <? 1) with true; cbv iota; destruct a as [v|]; [destruct (Z.ltb_spec v 0)|]; lia).
  assert (Rj : slc_limit (zlen ks) b 1 <= zlen ks) by (unfold slc_limit, counted; change (0 <? 1) with true; cbv iota; destruct b as [v|]; [destruct (Z.ltb_spec v 0)|]; lia).
  destruct (split_at ks (Z.to_nat i)) as (l & q & E1 & Ll); [unfold zlen in *; lia|].
  destruct (split_at q (Z.to_nat (j - i))) as (m & r & E2 & Lm).
  { assert (Hlq : zlen ks = zlen l + zlen q) by (rewrite E1; apply zlen_app). assert (Rl : zlen l = i) by (unfold zlen; lia). assert (j <= zlen ks) by (unfold j; lia). assert (Rq : j - i <= zlen q) by lia. assert (0 <= j - i) by (unfold j; lia). unfold zlen in Rq. lia. }
  assert (Ek : ks = l ++ m ++ r) by (rewrite E1, E2; reflexivity). assert (Zl : zlen l = i) by (unfold zlen; lia). assert (Zm : zlen l + zlen m = j) by (rewrite Zl; assert (0 <= j - i) by (unfold j; lia); assert (zlen m = j - i) by (unfold zlen; lia); lia).
  exists l, m, r. split; [exact Ek|]. split; [exact Zl|]. split; [rewrite Zm; unfold j; rewrite Zl; reflexivity|]. intros Hcs. rewrite Forall_forall in Hcs.
  assert (Pos : slice_positions (length ks) a b st = Ok (seq (length l) (length m))).
  { unfold slice_positions. rewrite Hst. change (1 =? 0) with false. cbv iota. rewrite bounds_eq by lia. change (Z.of_nat (length ks)) with (zlen ks). fold i. f_equal.
    destruct (Z.le_gt_cases (slc_limit (zlen ks) b 1) i) as [Le|Gt].
    - assert (length m = 0)%nat by (unfold j in Lm; lia). replace (length m) with 0%nat by lia. destruct (length ks); cbn [slice_run seq]; [reflexivity|]. change (1 <? 0) with false. cbv iota. destruct (Z.ltb_spec i (slc_limit (zlen ks) b 1)); [lia|reflexivity].
    - replace (slc_limit (zlen ks) b 1) with (zlen l + zlen m) by (rewrite Zm; unfold j; lia). rewrite <- Zl. rewrite Ek. apply positions_run. }
  destruct (del_slice_spec h p a b st H Hp ltac:(lia)) as (tk & h1 & G1 & E & W1 & L1 & D1 & K1 & P1).
  assert (Et : tk = m).
  { unfold kids_get_slice in G1. fold ks in G1. rewrite Pos in G1. injection G1 as <-. rewrite Ek. clear. 
    apply (nth_ext _ _ 0%nat 0%nat); [rewrite map_length, seq_length; reflexivity|]. intros t Ht. rewrite map_length, seq_length in Ht.
    rewrite (nth_indep _ 0%nat (nth 0 (l ++ m ++ r) 0%nat)) by (rewrite map_length, seq_length; exact Ht).
    rewrite (map_nth (fun k => nth k (l ++ m ++ r) 0%nat)), seq_nth by exact Ht. rewrite app_nth2 by lia. replace (length l + t - length l)%nat with t by lia. apply app_nth1. exact Ht. }
  subst tk. assert (Nd : NoDup ks) by exact (kids_nodup h _ (hwf_sorted h H p)).
  assert (Kp : n_kids (nd h1 p) = l ++ r).
  { rewrite K1, Nat.eqb_refl. fold ks. rewrite Ek in Nd |- *. rewrite !filter_app.
    assert (Fk : forall xs, (forall x, In x xs -> ~ In x m) -> filter (fun c => negb (existsb (Nat.eqb c) m)) xs = xs).
    { induction xs as [|x xs IH]; intros Hx; cbn [filter]; [reflexivity|]. rewrite (proj2 (existsb_nat_false x m) (Hx x (or_introl eq_refl))). cbn [negb]. f_equal. apply IH. intros y Hy. apply Hx. right. exact Hy. }
    assert (Fm : forall xs, incl xs m -> filter (fun c => negb (existsb (Nat.eqb c) m)) xs = []).
    { induction xs as [|x xs IH]; intros Hx; cbn [filter]; [reflexivity|]. rewrite (proj2 (existsb_nat x m) (Hx x (or_introl eq_refl))). cbn [negb]. apply IH. intros y Hy. apply Hx. right. exact Hy. }
    rewrite (Fm m (incl_refl m)), (Fk l), (Fk r); [reflexivity| |].
    - intros x X1 X2. assert (Nd2 : NoDup (m ++ r)) by (clear - Nd; induction l as [|y l IH]; [exact Nd|cbn [app] in Nd; inversion Nd; auto]). clear - Nd2 X1 X2. rename Nd2 into Nd. induction m as [|y m IH]; [destruct X2|]. cbn [app] in Nd. inversion Nd as [|? ? N1 N2]; subst. destruct X2 as [<-|X2]; [apply N1; apply in_or_app; auto|auto].
    - intros x X1 X2. clear - Nd X1 X2. induction l as [|y l IH]; [destruct X1|]. cbn [app] in Nd. inversion Nd as [|? ? N1 N2]; subst. destruct X1 as [<-|X1]; [apply N1; apply in_or_app; right; apply in_or_app; auto|auto]. }
  unfold kids_set_slice. fold ks. change (Z.of_nat (length ks)) with (zlen ks). rewrite from_first by exact Hn. fold i. rewrite E. unfold obind. cbn [fst snd]. rewrite <- Zl. unfold zlen. rewrite !Nat2Z.id.
  destruct (put_all_total p r cs h1 l W1) as [(M & h' & E' & W' & L' & D' & K' & P')|(M & h' & E' & W' & L' & D')].
  - lia.
  - apply Forall_forall. intros c Hc. destruct (Hcs c Hc) as (X1 & X2 & X3). split; [lia|]. split; [|apply (nonempty_data h); auto]. rewrite P1. destruct (existsb (Nat.eqb c) m) eqn:Em; [reflexivity|]. apply existsb_nat_false in Em. destruct X3 as [X3|X3]; [exact X3|contradiction].
  - exact Hnd.
  - exact Kp.
  - apply Forall_forall. intros x Hx. apply (nonempty_data h); [apply D1|]. rewrite Forall_forall in Hks. apply Hks. rewrite Ek. apply in_app_iff in Hx. apply in_or_app. destruct Hx; [left|right; apply in_or_app; right]; assumption.
  - left. split; [apply (may_stand_all_data h h1 p l r cs D1); exact M|]. exists h'. split; [exact E'|]. split; [exact W'|]. split; [lia|]. split; [intros x; rewrite D'; apply D1|]. split.
    + intros x. rewrite K', K1. destruct (x =? p)%nat; reflexivity.
    + intros x. rewrite P', P1. reflexivity.
  - right. split; [intros X; apply M; apply (may_stand_all_data h h1 p l r cs D1); exact X|]. exists h'. split; [exact E'|]. split; [exact W'|]. split; [lia|]. intros x. rewrite D'. apply D1.
Qed.
