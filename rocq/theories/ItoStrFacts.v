(** Proofs about the model of Span and of single Itos. *)
From Verif Require Export SpecStr.
Global Arguments from_indices : simpl never.

Lemma from_indices_range n a b : 0 <= n ->
  0 <= fst (from_indices n a b) <= snd (from_indices n a b) /\ snd (from_indices n a b) <= n.
Proof.
  intros. unfold from_indices; cbn [fst snd].
  destruct a as [a|], b as [b|]; repeat match goal with |- context [?x <=? ?y] => destruct (Z.leb_spec x y) end; lia.
Qed.

Lemma from_indices_adjust n a b : 0 <= n ->
  from_indices n a b =
  (slice_adjust n 0 a, Z.max (slice_adjust n 0 a) (slice_adjust n n b)).
Proof.
  intros. unfold from_indices, slice_adjust.
  assert (Ha : match a with Some v => if 0 <=? v then Z.min n v else Z.max 0 (n + v) | None => 0 end =
    match a with Some v => if v <? 0 then if v + n <? 0 then 0 else v + n else if n <=? v then n else v | None => 0 end).
  { destruct a as [a|]; [|reflexivity].
    destruct (Z.leb_spec 0 a), (Z.ltb_spec a 0), (Z.ltb_spec (a + n) 0), (Z.leb_spec n a); lia. }
  rewrite Ha. f_equal. f_equal.
  destruct b as [b|]; [|reflexivity].
  destruct (Z.leb_spec 0 b), (Z.ltb_spec b 0), (Z.ltb_spec (b + n) 0), (Z.leb_spec n b); lia.
Qed.

Lemma py_slice_zsub {A} (l : list A) a b :
  py_slice l a b = zsub l (fst (from_indices (zlen l) a b)) (snd (from_indices (zlen l) a b)).
Proof.
  rewrite from_indices_adjust by apply zlen_nonneg. cbn [fst snd]. unfold py_slice.
  destruct (Z.ltb_spec (slice_adjust (zlen l) 0 a) (slice_adjust (zlen l) (zlen l) b)).
  - f_equal. lia.
  - rewrite zsub_nil by lia. reflexivity.
Qed.

Lemma from_indices_id n a b : 0 <= a <= b -> b <= n -> from_indices n (Some a) (Some b) = (a, b).
Proof.
  intros. unfold from_indices. destruct (Z.leb_spec 0 a), (Z.leb_spec 0 b); try lia. f_equal; lia.
Qed.

Lemma py_slice_in {A} (l : list A) a b : 0 <= a <= b -> b <= zlen l -> py_slice l (Some a) (Some b) = zsub l a b.
Proof. intros. rewrite py_slice_zsub, from_indices_id by lia. reflexivity. Qed.

Lemma span_slice : forall n a b, 0 <= n ->
  let s := fst (from_indices n a b) in let e := snd (from_indices n a b) in
  0 <= s <= e /\ e <= n /\
  (forall A (x : list A), zlen x = n -> py_slice x (Some s) (Some e) = py_slice x a b) /\
  from_indices n (Some s) (Some e) = (s, e).
Proof.
  intros n a b Hn. cbv zeta. pose proof (from_indices_range n a b Hn).
  repeat split; try lia.
  - intros A x Hx. rewrite py_slice_in by lia. rewrite py_slice_zsub, Hx. reflexivity.
  - apply from_indices_id; lia.
Qed.

(** -- offset -- *)
Lemma offset_ok s k r : offset s k = Ok r -> r = (fst s + k, snd s + k).
Proof.
  unfold offset. destruct (Z.eqb_spec k 0) as [->|].
  - intros [= <-]. destruct s; cbn. f_equal; lia.
  - destruct (_ || _); [discriminate|]. congruence.
Qed.
Lemma offset_nonneg s k : 0 <= fst s + k -> 0 <= snd s + k -> offset s k = Ok (fst s + k, snd s + k).
Proof.
  intros. unfold offset. destruct (Z.eqb_spec k 0) as [->|].
  - destruct s; cbn. do 2 f_equal; lia.
  - cbn [fst snd]. destruct (Z.ltb_spec (fst s + k) 0), (Z.ltb_spec (snd s + k) 0); try lia. reflexivity.
Qed.
Lemma offset_err s k : (exists e, offset s k = Err e) <-> (k <> 0 /\ (fst s + k < 0 \/ snd s + k < 0)).
Proof.
  unfold offset. destruct (Z.eqb_spec k 0) as [->|Hk]; cbn [fst snd].
  - split; [intros [e He]; discriminate|tauto].
  - destruct (Z.ltb_spec (fst s + k) 0), (Z.ltb_spec (snd s + k) 0); cbn [orb]; split;
      try (intros [e He]; discriminate); intros; try lia; try (split; [exact Hk|lia]); eexists; reflexivity.
Qed.
Lemma offset_err_kind s k e : offset s k = Err e -> e = ValueError.
Proof.
  unfold offset. destruct (k =? 0); [discriminate|]. destruct (_ || _); congruence.
Qed.
Lemma offset_compose s j k r t : offset s j = Ok r -> offset r k = Ok t -> offset s (j + k) = Ok t.
Proof.
  intros H1 H2. destruct s as [a b].
  unfold offset in *; cbn [fst snd] in *.
  destruct (Z.eqb_spec j 0) as [->|Hj].
  - injection H1 as <-. rewrite Z.add_0_l. exact H2.
  - destruct (Z.ltb_spec (a + j) 0), (Z.ltb_spec (b + j) 0); cbn [orb] in *; try discriminate.
    injection H1 as <-. cbn [fst snd] in *.
    destruct (Z.eqb_spec k 0) as [->|Hk].
    + injection H2 as <-. rewrite Z.add_0_r. destruct (Z.eqb_spec j 0); [lia|].
      destruct (Z.ltb_spec (a + j) 0), (Z.ltb_spec (b + j) 0); try lia; reflexivity.
    + destruct (Z.ltb_spec (a + j + k) 0), (Z.ltb_spec (b + j + k) 0); cbn [orb] in *; try discriminate.
      injection H2 as <-. destruct (Z.eqb_spec (j + k) 0).
      * do 2 f_equal; lia.
      * destruct (Z.ltb_spec (a + (j + k)) 0), (Z.ltb_spec (b + (j + k)) 0); try lia. cbn [orb]. do 2 f_equal; lia.
Qed.

(** -- construction -- *)
Lemma ito_str_zsub i : fwf i -> ito_str i = zsub (f_str i) (f_start i) (f_stop i).
Proof. intros [H1 H2]. unfold ito_str. apply py_slice_in; lia. Qed.
Lemma ito_str_len i : fwf i -> zlen (ito_str i) = ito_len i.
Proof. intros H. rewrite ito_str_zsub by exact H. destruct H. unfold ito_len. apply zsub_len; lia. Qed.
Lemma ito_len_nonneg i : fwf i -> 0 <= ito_len i.
Proof. intros [H1 H2]. unfold ito_len; lia. Qed.

Lemma ito_of_str_wf s a b d : fwf (ito_of_str s a b d).
Proof.
  unfold fwf, ito_of_str; cbn [f_str f_start f_stop].
  pose proof (from_indices_range (zlen s) a b (zlen_nonneg s)). lia.
Qed.
Lemma ito_of_str_text s a b d : ito_str (ito_of_str s a b d) = py_slice s a b.
Proof.
  rewrite ito_str_zsub by apply ito_of_str_wf. rewrite py_slice_zsub. reflexivity.
Qed.
Lemma ito_of_ito_ok i a b d : fwf i ->
  ito_of_ito i a b d = Ok (FI (f_str i) (f_start i + fst (from_indices (ito_len i) a b))
                              (f_start i + snd (from_indices (ito_len i) a b)) d None).
Proof.
  intros H. pose proof (from_indices_range (ito_len i) a b (ito_len_nonneg i H)).
  destruct H as [H1 H2]. unfold ito_of_ito. rewrite offset_nonneg by lia. cbn [bind fst snd].
  do 2 f_equal; lia.
Qed.

(** everything we need about a segment given by relative bounds *)
Lemma seg_facts i x y d v : fwf i -> 0 <= x <= y -> y <= ito_len i ->
  let j := FI (f_str i) (f_start i + x) (f_start i + y) d v in
  fwf j /\ within j i /\ ito_str j = zsub (ito_str i) x y.
Proof.
  intros H Hx Hy. cbv zeta. pose proof H as [H1 H2]. unfold ito_len in *.
  assert (Hw : fwf (FI (f_str i) (f_start i + x) (f_start i + y) d v))
    by (unfold fwf; cbn [f_str f_start f_stop]; lia).
  repeat split; cbn [f_str f_start f_stop]; try lia.
  rewrite (ito_str_zsub _ Hw), (ito_str_zsub i H). cbn [f_str f_start f_stop].
  rewrite zsub_zsub by lia. reflexivity.
Qed.

Lemma ito_of_ito_facts i a b d : fwf i ->
  exists j, ito_of_ito i a b d = Ok j /\ fwf j /\ within j i /\ ito_str j = py_slice (ito_str i) a b /\
            f_desc j = d.
Proof.
  intros H. pose proof (from_indices_range (ito_len i) a b (ito_len_nonneg i H)).
  eexists. split; [apply ito_of_ito_ok; exact H|].
  destruct (seg_facts i (fst (from_indices (ito_len i) a b)) (snd (from_indices (ito_len i) a b)) d None H) as (?&?&?); try lia.
  split; [assumption|]. split; [assumption|]. split; [|reflexivity].
  rewrite py_slice_zsub. rewrite (ito_str_len i H). assumption.
Qed.

(** -- clone with absolute bounds -- *)
Lemma clone_f_in i a b d : fwf i ->
  0 <= odflt a (f_start i) <= odflt b (f_stop i) -> odflt b (f_stop i) <= zlen (f_str i) ->
  clone_f i a b d = FI (f_str i) (odflt a (f_start i)) (odflt b (f_stop i)) (odflt d (f_desc i)) (f_vf i).
Proof.
  intros H Ha Hb. unfold clone_f, ito_of_str; cbn [f_str f_start f_stop f_desc].
  rewrite from_indices_id by lia. reflexivity.
Qed.
Lemma clone_f_self i : fwf i -> clone_f i None None None = i.
Proof. intros H. destruct H as [H1 H2] eqn:?. rewrite clone_f_in; cbn; try lia; auto. destruct i; reflexivity. Qed.

Lemma fi_abs i a b d v : FI (f_str i) a b d v = FI (f_str i) (f_start i + (a - f_start i)) (f_start i + (b - f_start i)) d v.
Proof. f_equal; lia. Qed.

Lemma clone_f_seg i a b d : fwf i -> f_start i <= a <= b -> b <= f_stop i ->
  let j := clone_f i (Some a) (Some b) d in
  j = FI (f_str i) a b (odflt d (f_desc i)) (f_vf i) /\
  fwf j /\ within j i /\ ito_str j = zsub (ito_str i) (a - f_start i) (b - f_start i).
Proof.
  intros H Ha Hb. cbv zeta. pose proof H as [H1 H2].
  rewrite clone_f_in by (cbn; try lia; assumption). cbn [odflt].
  split; [reflexivity|]. rewrite fi_abs. apply seg_facts; auto; unfold ito_len; lia.
Qed.
Lemma clone_f_dstop i a d : fwf i -> clone_f i (Some a) None d = clone_f i (Some a) (Some (f_stop i)) d.
Proof. reflexivity. Qed.
Lemma clone_f_dstart i b d : fwf i -> clone_f i None (Some b) d = clone_f i (Some (f_start i)) (Some b) d.
Proof. reflexivity. Qed.

(** -- slicing -- *)
Lemma getitem_tail_facts i x y : fwf i -> 0 <= x <= y -> y <= ito_len i ->
  let r := getitem_tail i (f_start i + x, f_start i + y) in
  within (deref i r) i /\ fwf (deref i r) /\ ito_str (deref i r) = zsub (ito_str i) x y /\
  (r = RSelf <-> x = 0 /\ y = ito_len i).
Proof.
  intros H Hx Hy. pose proof H as [H1 H2]. unfold ito_len in Hy. cbv zeta. unfold getitem_tail; cbn [fst snd].
  destruct (Z.eqb_spec (f_start i) (f_start i + x)), (Z.eqb_spec (f_stop i) (f_start i + y)); cbn [andb deref].
  1: { assert (x = 0) by lia. assert (y = ito_len i) by (unfold ito_len; lia). subst x y.
    split; [unfold within; repeat split; lia|]. split; [exact H|]. split; [|tauto].
    rewrite <- (ito_str_len i H). symmetry. apply zsub_full. }
  all: destruct (clone_f_seg i (f_start i + x) (f_start i + y) None H) as (?&?&?&Ht); try lia;
    split; [assumption|]; split; [assumption|]; split; [rewrite Ht; f_equal; lia|];
    split; [discriminate|unfold ito_len; lia].
Qed.

Lemma window_ok i a b : fwf i ->
  window i a b = Ok (f_start i + fst (from_indices (ito_len i) a b), f_start i + snd (from_indices (ito_len i) a b)).
Proof.
  intros H. pose proof (from_indices_range (ito_len i) a b (ito_len_nonneg i H)). destruct H.
  unfold window. rewrite offset_nonneg by lia. f_equal. f_equal; lia.
Qed.

Lemma getitem_slice_facts i a b : fwf i ->
  exists r, getitem_slice i a b None = Ok r /\ within (deref i r) i /\
    ito_str (deref i r) = py_slice (ito_str i) a b /\
    (r = RSelf <-> from_indices (ito_len i) a b = (0, ito_len i)).
Proof.
  intros H. pose proof (window_ok i a b H) as Hw. unfold window in Hw.
  pose proof (from_indices_range (ito_len i) a b (ito_len_nonneg i H)) as Hr.
  unfold getitem_slice. rewrite Hw. cbn [bind].
  eexists. split; [reflexivity|].
  destruct (from_indices (ito_len i) a b) as [x y] eqn:E. cbn [fst snd] in *.
  destruct (getitem_tail_facts i x y H) as (?&?&Ht&Hs); try lia.
  split; [assumption|]. split.
  - rewrite Ht, py_slice_zsub, (ito_str_len i H), E. reflexivity.
  - rewrite Hs. split; [intros [-> ->]; reflexivity|intros [= -> ->]; auto].
Qed.

(** the result is self exactly when the span is unchanged *)
Lemma getitem_slice_self i a b r : fwf i -> getitem_slice i a b None = Ok r ->
  (r = RSelf <-> (f_start (deref i r) = f_start i /\ f_stop (deref i r) = f_stop i)).
Proof.
  intros H Hr. split; [intros ->; auto|].
  pose proof (window_ok i a b H) as Hw. unfold window in Hw.
  pose proof (from_indices_range (ito_len i) a b (ito_len_nonneg i H)) as Hg.
  unfold getitem_slice in Hr. rewrite Hw in Hr. cbn [bind] in Hr. clear Hw.
  destruct (from_indices (ito_len i) a b) as [x y]; cbn [fst snd] in *. injection Hr as <-.
  unfold getitem_tail; cbn [fst snd]. unfold ito_len in Hg.
  destruct (Z.eqb_spec (f_start i) (f_start i + x)), (Z.eqb_spec (f_stop i) (f_start i + y)); cbn [andb deref]; auto;
    (destruct (clone_f_seg i (f_start i + x) (f_start i + y) None H) as (E&_); [lia|lia|]);
    rewrite E; cbn [f_start f_stop]; lia.
Qed.

(** -- iteration -- *)
Lemma iter_clones i : fwf i -> forall a, f_start i <= a ->
  map (fun k => ito_str (clone_f i (Some k) (Some (k + 1)) None)) (zrange a (f_stop i)) =
  map (fun c => [c]) (zsub (f_str i) a (f_stop i)).
Proof.
  intros H. pose proof H as [H1 H2].
  intros a. pattern a. apply (zrange_up _ (f_stop i)); clear a.
  - intros a Hb Ha. rewrite zrange_nil, zsub_nil by lia. reflexivity.
  - intros a Hab IH Ha. rewrite zrange_cons by lia. cbn [map].
    destruct (zget_some (f_str i) a) as [c Hc]; [lia|].
    rewrite (zsub_step _ _ _ _ Hc) by lia. cbn [map].
    destruct (clone_f_seg i a (a + 1) None H) as (_&Hw&_&Ht); try lia.
    rewrite IH by lia. f_equal. rewrite Ht.
    rewrite (ito_str_zsub i H), zsub_zsub by lia.
    replace (f_start i + (a - f_start i)) with a by lia.
    replace (f_start i + (a + 1 - f_start i)) with (a + 1) by lia. apply zsub_single; exact Hc.
Qed.
Lemma ito_iter_texts i : fwf i -> texts i (ito_iter i) = map (fun c => [c]) (ito_str i).
Proof.
  intros H. pose proof (ito_str_len i H) as Hl. pose proof (ito_len_nonneg i H).
  unfold ito_iter, texts. destruct (Z.eqb_spec (ito_len i) 1) as [E|E].
  - cbn [map deref]. destruct (ito_str i) as [|c [|d s]]; try (unfold zlen in Hl; cbn in Hl; lia). reflexivity.
  - destruct (Z.ltb_spec 1 (ito_len i)).
    + rewrite map_map. cbn [deref]. rewrite iter_clones by (auto; lia). rewrite (ito_str_zsub i H). reflexivity.
    + assert (Hz : zlen (ito_str i) = 0) by lia. apply zlen_0 in Hz. rewrite Hz. reflexivity.
Qed.
Lemma tiles_iter i : fwf i -> forall a, f_start i <= a <= f_stop i ->
  tiles (f_str i) a (f_stop i) (map (fun k => clone_f i (Some k) (Some (k + 1)) None) (zrange a (f_stop i))).
Proof.
  intros H a. pattern a. apply (zrange_up _ (f_stop i)); clear a.
  - intros a Hb Ha. rewrite zrange_nil by lia. cbn. lia.
  - intros a Hab IH Ha. rewrite zrange_cons by lia. cbn [map tiles].
    destruct (clone_f_seg i a (a + 1) None H) as (E&_&_&_); try lia. rewrite E. cbn [f_str f_start f_stop].
    repeat split; try lia. apply IH. lia.
Qed.
Lemma ito_iter_tiles i : fwf i -> tiles (f_str i) (f_start i) (f_stop i) (map (deref i) (ito_iter i)).
Proof.
  intros H. pose proof (ito_len_nonneg i H). pose proof H as [H1 H2]. unfold ito_iter, ito_len in *.
  destruct (Z.eqb_spec (f_stop i - f_start i) 1).
  - cbn. repeat split; lia.
  - destruct (Z.ltb_spec 1 (f_stop i - f_start i)).
    + rewrite map_map. cbn [deref]. apply tiles_iter; auto; lia.
    + cbn. lia.
Qed.

(** -- int indexing -- *)
Lemma getitem_int_nonneg i k : fwf i -> 0 <= k < ito_len i ->
  exists r c, getitem_int i k = Ok r /\ within (deref i r) i /\
    py_index (ito_str i) k = Ok c /\ ito_str (deref i r) = [c].
Proof.
  intros H Hk. unfold getitem_int.
  destruct (Z.leb_spec 0 k); [|lia]. destruct (Z.ltb_spec k (ito_len i)); [|lia]. cbn [andb].
  pose proof (window_ok i (Some k) (Some (k + 1)) H) as Hw. unfold window in Hw. rewrite Hw. cbn [bind].
  rewrite from_indices_id by lia. cbn [fst snd].
  destruct (getitem_tail_facts i k (k + 1) H) as (?&?&Ht&_); try lia.
  destruct (zget_some (ito_str i) k) as [c Hc]; [rewrite (ito_str_len i H); lia|].
  exists (getitem_tail i (f_start i + k, f_start i + (k + 1))), c.
  split; [reflexivity|]. split; [assumption|]. split.
  - unfold py_index. destruct (Z.ltb_spec k 0); [lia|]. rewrite Hc. reflexivity.
  - rewrite Ht. apply zsub_single; exact Hc.
Qed.
Lemma getitem_int_range i k : fwf i -> (k < - ito_len i \/ ito_len i <= k) ->
  getitem_int i k = Err IndexError /\ py_index (ito_str i) k = Err IndexError.
Proof.
  intros H Hk. pose proof (ito_len_nonneg i H). unfold getitem_int, py_index.
  destruct (Z.leb_spec 0 k), (Z.ltb_spec k (ito_len i)), (Z.leb_spec (- ito_len i) k), (Z.ltb_spec k 0); cbn [andb bind]; try lia;
    (split; [reflexivity|]); rewrite ?(ito_str_len i H);
    match goal with |- match zget _ ?z with _ => _ end = _ => assert (Hg : zget (ito_str i) z = None) by (apply zget_none; rewrite (ito_str_len i H); lia); rewrite Hg; reflexivity end.
Qed.
(** negative k: right exactly when the character the code picks is the right one *)
Lemma getitem_int_neg i k : fwf i -> - ito_len i <= k < 0 ->
  exists r, getitem_int i k = Ok r /\ within (deref i r) i /\
    ito_str (deref i r) = zsub (ito_str i) (Z.min (ito_len i) (Z.max 0 (f_stop i + k - 1 + (if 0 <=? f_stop i + k - 1 then 0 else ito_len i))))
                               (snd (from_indices (ito_len i) (Some (f_stop i + k - 1)) (Some (f_stop i + k)))).
Proof.
  intros H Hk. unfold getitem_int. pose proof (ito_len_nonneg i H) as Hn.
  destruct (Z.leb_spec 0 k); [lia|]. destruct (Z.leb_spec (- ito_len i) k); [|lia]. destruct (Z.ltb_spec k 0); [|lia].
  cbn [andb]. replace (f_stop i + k - 1 + 1) with (f_stop i + k) by lia.
  pose proof (window_ok i (Some (f_stop i + k - 1)) (Some (f_stop i + k)) H) as Hw. unfold window in Hw. rewrite Hw. cbn [bind].
  pose proof (from_indices_range (ito_len i) (Some (f_stop i + k - 1)) (Some (f_stop i + k)) Hn).
  eexists. split; [reflexivity|].
  match goal with |- context [fst (from_indices ?n ?a ?b)] => destruct (getitem_tail_facts i (fst (from_indices n a b)) (snd (from_indices n a b)) H) as (?&?&Ht&_); try lia end.
  split; [assumption|]. rewrite Ht. f_equal. unfold from_indices; cbn [fst].
  destruct (Z.leb_spec 0 (f_stop i + k - 1)); lia.
Qed.
Lemma getitem_int_neg_ok i k : fwf i -> - ito_len i <= k < 0 -> f_start i = 1 ->
  exists r c, getitem_int i k = Ok r /\ py_index (ito_str i) k = Ok c /\ ito_str (deref i r) = [c].
Proof.
  intros H Hk Hs. destruct (getitem_int_neg i k H Hk) as (r & Hr & _ & Ht). pose proof H as [H1 H2].
  pose proof (ito_str_len i H) as Hl. unfold ito_len in *.
  destruct (zget_some (ito_str i) (k + zlen (ito_str i))) as [c Hc]; [lia|].
  exists r, c. split; [exact Hr|]. split.
  - unfold py_index. destruct (Z.ltb_spec k 0); [|lia]. rewrite Hc. reflexivity.
  - rewrite Ht. destruct (Z.leb_spec 0 (f_stop i + k - 1)); [|lia].
    rewrite from_indices_id by lia. cbn [snd].
    replace (Z.min _ _) with (k + zlen (ito_str i)) by lia.
    replace (f_stop i + k) with (k + zlen (ito_str i) + 1) by lia. apply zsub_single; exact Hc.
Qed.

(** -- search methods -- *)
Lemma find_window i sub x y : fwf i -> 0 <= x <= y -> y <= ito_len i ->
  py_find (f_str i) sub (Some (f_start i + x)) (Some (f_start i + y)) =
  match find_in sub (zsub (ito_str i) x y) with Some k => f_start i + x + k | None => -1 end.
Proof.
  intros H Hx Hy. pose proof H as [H1 H2]. unfold ito_len in *.
  rewrite py_find_abs by lia. rewrite (ito_str_zsub i H), zsub_zsub by lia. reflexivity.
Qed.
Lemma rfind_window i sub x y : fwf i -> 0 <= x <= y -> y <= ito_len i ->
  py_rfind (f_str i) sub (Some (f_start i + x)) (Some (f_start i + y)) =
  match rfind_in sub (zsub (ito_str i) x y) with Some k => f_start i + x + k | None => -1 end.
Proof.
  intros H Hx Hy. pose proof H as [H1 H2]. unfold ito_len in *.
  rewrite py_rfind_abs by lia. rewrite (ito_str_zsub i H), zsub_zsub by lia. reflexivity.
Qed.

(** from_indices against ADJUST_INDICES *)
Lemma from_indices_adj n a b : 0 <= n ->
  fst (from_indices n a b) = Z.min n (adj_start n a) /\
  snd (from_indices n a b) = Z.max (Z.min n (adj_start n a)) (adj_end n b).
Proof.
  intros. unfold from_indices, adj_start, adj_end; cbn [fst snd].
  destruct a as [a|], b as [b|]; repeat match goal with
   | |- context [?x <=? ?y] => destruct (Z.leb_spec x y)
   | |- context [?x <? ?y] => destruct (Z.ltb_spec x y) end; lia.
Qed.

(** The search window Python uses and the one the code uses select the same
    occurrences, unless sub is empty and start > end. *)
Definition search_ok (i : fito) (sub : pystr) (a b : option Z) : Prop :=
  sub <> [] \/ adj_start (ito_len i) a <= adj_end (ito_len i) b.

Lemma nonempty_zlen {A} (l : list A) : l <> [] -> 1 <= zlen l.
Proof. destruct l; [congruence|]. rewrite zlen_cons. pose proof (zlen_nonneg l). lia. Qed.

Lemma str_find_eq i sub a b : fwf i -> search_ok i sub a b ->
  str_find i sub a b = Ok (py_find (ito_str i) sub a b).
Proof.
  intros H Hs. pose proof (ito_len_nonneg i H) as Hn. unfold str_find. rewrite window_ok by exact H. cbn [bind fst snd].
  pose proof (from_indices_range (ito_len i) a b Hn).
  rewrite find_window by (try exact H; lia).
  destruct (from_indices_adj (ito_len i) a b Hn) as [E1 E2].
  unfold py_find. rewrite (ito_str_len i H).
  pose proof (adj_start_range (ito_len i) a Hn). pose proof (adj_end_range (ito_len i) b Hn).
  set (x := fst _) in *. set (y := snd _) in *. set (p := adj_start _ _) in *. set (q := adj_end _ _) in *.
  pose proof (zlen_nonneg sub). f_equal.
  destruct (Z.ltb_spec (q - p) (zlen sub)).
  - rewrite find_in_short; [reflexivity|]. rewrite zsub_len by (try lia; rewrite (ito_str_len i H); lia).
    destruct Hs as [Hs|Hs]; [apply nonempty_zlen in Hs; lia|lia].
  - assert (x = p /\ y = q) as [-> ->] by lia.
    destruct (find_in sub (zsub (ito_str i) p q)) as [k|] eqn:F.
    + apply find_in_range in F. destruct H as [Hi1 Hi2].
      destruct (Z.eqb_spec (f_start i + p + k) (-1)); lia.
    + reflexivity.
Qed.
Lemma str_rfind_eq i sub a b : fwf i -> search_ok i sub a b ->
  str_rfind i sub a b = Ok (py_rfind (ito_str i) sub a b).
Proof.
  intros H Hs. pose proof (ito_len_nonneg i H) as Hn. unfold str_rfind. rewrite window_ok by exact H. cbn [bind fst snd].
  pose proof (from_indices_range (ito_len i) a b Hn).
  rewrite rfind_window by (try exact H; lia).
  destruct (from_indices_adj (ito_len i) a b Hn) as [E1 E2].
  unfold py_rfind. rewrite (ito_str_len i H).
  pose proof (adj_start_range (ito_len i) a Hn). pose proof (adj_end_range (ito_len i) b Hn).
  set (x := fst _) in *. set (y := snd _) in *. set (p := adj_start _ _) in *. set (q := adj_end _ _) in *.
  pose proof (zlen_nonneg sub). f_equal.
  destruct (Z.ltb_spec (q - p) (zlen sub)).
  - rewrite rfind_in_short; [reflexivity|]. rewrite zsub_len by (try lia; rewrite (ito_str_len i H); lia).
    destruct Hs as [Hs|Hs]; [apply nonempty_zlen in Hs; lia|lia].
  - assert (x = p /\ y = q) as [-> ->] by lia.
    destruct (rfind_in sub (zsub (ito_str i) p q)) as [k|] eqn:F.
    + apply rfind_in_range in F. destruct H as [Hi1 Hi2].
      destruct (Z.eqb_spec (f_start i + p + k) (-1)); lia.
    + reflexivity.
Qed.
Lemma str_index_find i sub a b : fwf i ->
  str_index i sub a b = match str_find i sub a b with
                        | Ok r => if r =? -1 then Err ValueError else Ok r
                        | Err e => Err e end.
Proof.
  intros H. pose proof (ito_len_nonneg i H) as Hn. unfold str_index, str_find, py_index_of. rewrite window_ok by exact H. cbn [bind fst snd].
  pose proof (from_indices_range (ito_len i) a b Hn).
  rewrite find_window by (try exact H; lia).
  destruct (find_in _ _) as [k|] eqn:F; [|reflexivity].
  apply find_in_range in F. destruct H as [Hi1 Hi2].
  destruct (Z.eqb_spec (f_start i + fst (from_indices (ito_len i) a b) + k) (-1)); [lia|].
  cbn [bind]. match goal with |- _ = if ?z =? -1 then _ else _ => destruct (Z.eqb_spec z (-1)); [lia|reflexivity] end.
Qed.
Lemma str_rindex_rfind i sub a b : fwf i ->
  str_rindex i sub a b = match str_rfind i sub a b with
                        | Ok r => if r =? -1 then Err ValueError else Ok r
                        | Err e => Err e end.
Proof.
  intros H. pose proof (ito_len_nonneg i H) as Hn. unfold str_rindex, str_rfind, py_rindex_of. rewrite window_ok by exact H. cbn [bind fst snd].
  pose proof (from_indices_range (ito_len i) a b Hn).
  rewrite rfind_window by (try exact H; lia).
  destruct (rfind_in _ _) as [k|] eqn:F; [|reflexivity].
  apply rfind_in_range in F. destruct H as [Hi1 Hi2].
  destruct (Z.eqb_spec (f_start i + fst (from_indices (ito_len i) a b) + k) (-1)); [lia|].
  cbn [bind]. match goal with |- _ = if ?z =? -1 then _ else _ => destruct (Z.eqb_spec z (-1)); [lia|reflexivity] end.
Qed.
Lemma str_index_eq i sub a b : fwf i -> search_ok i sub a b ->
  str_index i sub a b = py_index_of (ito_str i) sub a b.
Proof. intros H Hs. rewrite str_index_find, str_find_eq by assumption. reflexivity. Qed.
Lemma str_rindex_eq i sub a b : fwf i -> search_ok i sub a b ->
  str_rindex i sub a b = py_rindex_of (ito_str i) sub a b.
Proof. intros H Hs. rewrite str_rindex_rfind, str_rfind_eq by assumption. reflexivity. Qed.
Lemma str_count_eq i sub a b : fwf i -> search_ok i sub a b ->
  str_count i sub a b = Ok (py_count (ito_str i) sub a b).
Proof.
  intros H Hs. pose proof (ito_len_nonneg i H) as Hn. unfold str_count. rewrite window_ok by exact H. cbn [bind fst snd].
  pose proof (from_indices_range (ito_len i) a b Hn).
  destruct (from_indices_adj (ito_len i) a b Hn) as [E1 E2].
  unfold py_count. rewrite (ito_str_len i H).
  pose proof (adj_start_range (ito_len i) a Hn). pose proof (adj_end_range (ito_len i) b Hn).
  set (x := fst _) in *. set (y := snd _) in *.
  set (p := adj_start (ito_len i) a) in *. set (q := adj_end (ito_len i) b) in *.
  pose proof H as [Hi1 Hi2]. pose proof (zlen_nonneg sub).
  rewrite adj_start_in, adj_end_in by (unfold ito_len in *; lia).
  replace (f_start i + y - (f_start i + x)) with (y - x) by lia. f_equal.
  destruct (Z.ltb_spec (q - p) (zlen sub)).
  - assert (y - x < zlen sub) by (destruct Hs as [Hs|Hs]; [apply nonempty_zlen in Hs; lia|lia]).
    destruct (Z.ltb_spec (y - x) (zlen sub)); [reflexivity|lia].
  - assert (x = p /\ y = q) as [-> ->] by lia.
    destruct (Z.ltb_spec (q - p) (zlen sub)); [lia|]. destruct sub as [|c sub]; [reflexivity|].
    rewrite (ito_str_zsub i H), zsub_zsub by (unfold ito_len in *; lia). reflexivity.
Qed.
(** Outside that domain the results always differ. *)
Lemma str_find_differs i a b : fwf i -> adj_end (ito_len i) b < adj_start (ito_len i) a ->
  str_find i [] a b <> Ok (py_find (ito_str i) [] a b) /\
  str_rfind i [] a b <> Ok (py_rfind (ito_str i) [] a b) /\
  str_count i [] a b <> Ok (py_count (ito_str i) [] a b).
Proof.
  intros H Hlt. pose proof (ito_len_nonneg i H) as Hn.
  pose proof (from_indices_range (ito_len i) a b Hn). pose proof H as [Hi1 Hi2].
  unfold str_find, str_rfind, str_count. rewrite window_ok by exact H. cbn [bind fst snd].
  rewrite find_window, rfind_window by (try exact H; lia). rewrite find_in_nil, rfind_in_nil.
  unfold py_find, py_rfind, py_count. rewrite (ito_str_len i H). change (@zlen Z []) with 0.
  destruct (Z.ltb_spec (adj_end (ito_len i) b - adj_start (ito_len i) a) 0); [|lia].
  rewrite adj_start_in, adj_end_in by (unfold ito_len in *; lia).
  destruct (from_indices (ito_len i) a b) as [x y]; cbn [fst snd] in *.
  repeat split; intros E; apply (f_equal (fun r => match r with Ok z => z | Err _ => 0 end)) in E; revert E.
  - destruct (Z.eqb_spec (f_start i + x + 0) (-1)); lia.
  - rewrite zsub_len by (rewrite ?(ito_str_len i H); lia).
    destruct (Z.eqb_spec (f_start i + x + (y - x)) (-1)); lia.
  - destruct (Z.ltb_spec (f_start i + y - (f_start i + x)) 0); lia.
Qed.

(** -- startswith / endswith -- *)
Definition affix_has_empty (p : affix) : bool :=
  match p with
  | AStr [] => true
  | AStr _ => false
  | ATuple ps => existsb (fun p => match p with [] => true | _ => false end) ps
  end.
Definition end_ok (i : fito) (p : affix) (b : option Z) : Prop :=
  affix_has_empty p = false \/ match b with None => True | Some e => - ito_len i <= e end.

Lemma affix_reject_spec i a b : fwf i ->
  affix_reject i a b = true -> adj_end (ito_len i) b <= adj_start (ito_len i) a /\
  ((match b with None => True | Some e => - ito_len i <= e end) -> adj_end (ito_len i) b < adj_start (ito_len i) a).
Proof.
  intros H. pose proof (ito_len_nonneg i H). unfold affix_reject, adj_start, adj_end.
  destruct a as [a|]; [|discriminate]. destruct (Z.eqb_spec a 0); [discriminate|].
  destruct (Z.ltb_spec (ito_len i) a).
  - intros _. destruct b as [b|]; repeat match goal with
   | |- context [?x <? ?y] => destruct (Z.ltb_spec x y) end; (split; [lia|intros Hbb; cbv beta iota in Hbb; lia]).
  - destruct b as [b|]; repeat match goal with
   | |- context [?x <=? ?y] => destruct (Z.leb_spec x y)
   | |- context [?x <? ?y] => destruct (Z.ltb_spec x y) end; intros; try discriminate; (split; [lia|intros Hbb; cbv beta iota in Hbb; lia]).
Qed.
Lemma affix_accept_spec i a b : fwf i ->
  affix_reject i a b = false ->
  fst (from_indices (ito_len i) a b) = adj_start (ito_len i) a /\
  snd (from_indices (ito_len i) a b) = adj_end (ito_len i) b.
Proof.
  intros H. pose proof (ito_len_nonneg i H) as Hn.
  destruct (from_indices_adj (ito_len i) a b Hn) as [-> ->].
  unfold affix_reject, adj_start, adj_end.
  destruct a as [a|].
  2:{ intros _. destruct b as [b|]; repeat match goal with
   | |- context [?x <? ?y] => destruct (Z.ltb_spec x y) end; lia. }
  destruct (Z.eqb_spec a 0).
  { intros _. subst. destruct b as [b|]; repeat match goal with
   | |- context [?x <? ?y] => destruct (Z.ltb_spec x y) end; lia. }
  destruct (Z.ltb_spec (ito_len i) a); [discriminate|].
  destruct b as [b|]; repeat match goal with
   | |- context [?x <=? ?y] => destruct (Z.leb_spec x y)
   | |- context [?x <? ?y] => destruct (Z.ltb_spec x y) end; intros; try discriminate; lia.
Qed.

Lemma startswith1_window i p x y : fwf i -> 0 <= x <= y -> y <= ito_len i ->
  py_startswith1 (f_str i) p (Some (f_start i + x)) (Some (f_start i + y)) =
  (if y - zlen p <? x then false else eqb_str (zsub (ito_str i) x (x + zlen p)) p).
Proof.
  intros H Hx Hy. pose proof H as [H1 H2]. unfold ito_len in *. pose proof (zlen_nonneg p).
  unfold py_startswith1. rewrite adj_start_in, adj_end_in by lia.
  destruct (Z.ltb_spec (f_start i + y - zlen p) (f_start i + x)), (Z.ltb_spec (y - zlen p) x); try lia.
  rewrite (ito_str_zsub i H), zsub_zsub by lia. do 2 f_equal. lia.
Qed.
Lemma endswith1_window i p x y : fwf i -> 0 <= x <= y -> y <= ito_len i ->
  py_endswith1 (f_str i) p (Some (f_start i + x)) (Some (f_start i + y)) =
  (if y - zlen p <? x then false else eqb_str (zsub (ito_str i) (y - zlen p) y) p).
Proof.
  intros H Hx Hy. pose proof H as [H1 H2]. unfold ito_len in *. pose proof (zlen_nonneg p).
  unfold py_endswith1. rewrite adj_start_in, adj_end_in by lia.
  destruct (Z.ltb_spec (f_start i + y - zlen p) (f_start i + x)), (Z.ltb_spec (y - zlen p) x); try lia.
  rewrite (ito_str_zsub i H), zsub_zsub by lia. do 2 f_equal. lia.
Qed.

Lemma existsb_false {A} (f : A -> bool) l : (forall x, In x l -> f x = false) -> existsb f l = false.
Proof.
  induction l as [|x l IH]; intros H; [reflexivity|]. cbn. rewrite (H x) by (left; reflexivity).
  apply IH. intros; apply H; right; assumption.
Qed.
Lemma existsb_ext' {A} (f g : A -> bool) l : (forall x, f x = g x) -> existsb f l = existsb g l.
Proof. intros H. induction l as [|x l IH]; [reflexivity|]. cbn. rewrite H, IH. reflexivity. Qed.

Lemma py_sw1_false n s p a b : zlen s = n -> adj_end n b <= adj_start n a ->
  (p <> [] \/ adj_end n b < adj_start n a) -> py_startswith1 s p a b = false /\ py_endswith1 s p a b = false.
Proof.
  intros Hn H1 H2. unfold py_startswith1, py_endswith1. rewrite Hn. pose proof (zlen_nonneg p).
  assert (adj_end n b - zlen p < adj_start n a) by (destruct H2 as [H2|H2]; [apply nonempty_zlen in H2|]; lia).
  destruct (Z.ltb_spec (adj_end n b - zlen p) (adj_start n a)); [auto|lia].
Qed.

Lemma affix_reject_false i p a b : fwf i -> end_ok i p b -> affix_reject i a b = true ->
  py_startswith (ito_str i) p a b = false /\ py_endswith (ito_str i) p a b = false.
Proof.
  intros H He Hr. destruct (affix_reject_spec i a b H Hr) as [Hle Hlt].
  assert (Hall : forall q, (affix_has_empty p = false -> q <> []) ->
     py_startswith1 (ito_str i) q a b = false /\ py_endswith1 (ito_str i) q a b = false).
  { intros q Hq. apply (py_sw1_false (ito_len i)); [apply ito_str_len; exact H|exact Hle|].
    destruct He as [He|He]; [left; auto|right; apply Hlt; exact He]. }
  destruct p as [p|ps]; cbn [py_startswith py_endswith].
  - apply Hall. cbn. destruct p; [discriminate|congruence].
  - split; apply existsb_false; intros q Hin; apply Hall; cbn; intros Hf Hq; subst q;
      assert (true = false) by (rewrite <- Hf; symmetry; apply existsb_exists; exists []; auto); discriminate.
Qed.

Lemma str_startswith_eq i p a b : fwf i -> end_ok i p b ->
  str_startswith i p a b = Ok (py_startswith (ito_str i) p a b).
Proof.
  intros H He. unfold str_startswith. destruct (affix_reject i a b) eqn:Hr.
  - destruct (affix_reject_false i p a b H He Hr) as [-> _]. reflexivity.
  - rewrite window_ok by exact H. cbn [bind fst snd]. f_equal.
    pose proof (from_indices_range (ito_len i) a b (ito_len_nonneg i H)).
    destruct (affix_accept_spec i a b H Hr) as [E1 E2].
    assert (Hall : forall q, py_startswith1 (f_str i) q (Some (f_start i + fst (from_indices (ito_len i) a b))) (Some (f_start i + snd (from_indices (ito_len i) a b)))
       = py_startswith1 (ito_str i) q a b).
    { intros q. rewrite startswith1_window by (try exact H; lia). unfold py_startswith1.
      rewrite (ito_str_len i H), E1, E2. reflexivity. }
    destruct p as [p|ps]; cbn [py_startswith]; [apply Hall|apply existsb_ext'; exact Hall].
Qed.
Lemma str_endswith_eq i p a b : fwf i -> end_ok i p b ->
  str_endswith i p a b = Ok (py_endswith (ito_str i) p a b).
Proof.
  intros H He. unfold str_endswith. destruct (affix_reject i a b) eqn:Hr.
  - destruct (affix_reject_false i p a b H He Hr) as [_ ->]. reflexivity.
  - rewrite window_ok by exact H. cbn [bind fst snd]. f_equal.
    pose proof (from_indices_range (ito_len i) a b (ito_len_nonneg i H)).
    destruct (affix_accept_spec i a b H Hr) as [E1 E2].
    assert (Hall : forall q, py_endswith1 (f_str i) q (Some (f_start i + fst (from_indices (ito_len i) a b))) (Some (f_start i + snd (from_indices (ito_len i) a b)))
       = py_endswith1 (ito_str i) q a b).
    { intros q. rewrite endswith1_window by (try exact H; lia). unfold py_endswith1.
      rewrite (ito_str_len i H), E1, E2. reflexivity. }
    destruct p as [p|ps]; cbn [py_endswith]; [apply Hall|apply existsb_ext'; exact Hall].
Qed.
Lemma py_startswith1_default s p : py_startswith1 s p None None = prefixb p s.
Proof.
  unfold py_startswith1, adj_start, adj_end. destruct (prefixb p s) eqn:E.
  - apply prefixb_zsub in E. destruct E as [E1 E2].
    destruct (Z.ltb_spec (zlen s - zlen p) 0); [lia|]. rewrite Z.add_0_l, E2. apply eqb_str_refl.
  - destruct (Z.ltb_spec (zlen s - zlen p) 0); [reflexivity|].
    apply eqb_str_neq. intros E2. rewrite Z.add_0_l in E2.
    rewrite (proj2 (prefixb_zsub p s)) in E; [discriminate|]. split; [lia|exact E2].
Qed.
Lemma str_eq_eq i v : fwf i -> str_eq i v = Ok (eqb_str (ito_str i) v).
Proof.
  intros H. unfold str_eq. pose proof (ito_str_len i H) as Hl.
  destruct (Z.eqb_spec (ito_len i) (zlen v)) as [E|E].
  - rewrite str_startswith_eq; [|exact H|right; exact I]. cbn [py_startswith].
    rewrite py_startswith1_default. f_equal. rewrite E in Hl.
    destruct (eqb_str (ito_str i) v) eqn:Ev.
    + apply eqb_str_eq in Ev. rewrite Ev. apply prefixb_spec. exists []. symmetry; apply app_nil_r.
    + destruct (prefixb v (ito_str i)) eqn:Ep; [|reflexivity].
      apply prefixb_zsub in Ep. destruct Ep as [_ Ep]. rewrite <- Hl in Ep. rewrite zsub_full in Ep.
      apply eqb_str_neq in Ev. contradiction.
  - f_equal. symmetry. apply eqb_str_neq. intros Ev. apply E. rewrite <- Ev. lia.
Qed.

(** -- predicates -- *)
Lemma forallb_window i p : forall a, 0 <= a -> f_stop i <= zlen (f_str i) ->
  forallb (test_at i p) (zrange a (f_stop i)) = forallb p (zsub (f_str i) a (f_stop i)).
Proof.
  intros a. pattern a. apply (zrange_up _ (f_stop i)); clear a.
  - intros a Hb _ _. rewrite zrange_nil, zsub_nil by lia. reflexivity.
  - intros a Hab IH Ha Hs. rewrite zrange_cons by lia. cbn [forallb].
    destruct (zget_some (f_str i) a) as [c Hc]; [lia|].
    rewrite (zsub_step _ _ _ _ Hc) by lia. cbn [forallb]. unfold test_at at 1, char_at. rewrite Hc.
    rewrite IH by (auto; lia). reflexivity.
Qed.
Lemma existsb_window i p : forall a, 0 <= a -> f_stop i <= zlen (f_str i) ->
  existsb (test_at i p) (zrange a (f_stop i)) = existsb p (zsub (f_str i) a (f_stop i)).
Proof.
  intros a. pattern a. apply (zrange_up _ (f_stop i)); clear a.
  - intros a Hb _ _. rewrite zrange_nil, zsub_nil by lia. reflexivity.
  - intros a Hab IH Ha Hs. rewrite zrange_cons by lia. cbn [existsb].
    destruct (zget_some (f_str i) a) as [c Hc]; [lia|].
    rewrite (zsub_step _ _ _ _ Hc) by lia. cbn [existsb]. unfold test_at at 1, char_at. rewrite Hc.
    rewrite IH by (auto; lia). reflexivity.
Qed.
Lemma forallb_ext' {A} (f g : A -> bool) l : (forall x, f x = g x) -> forallb f l = forallb g l.
Proof. intros H. induction l as [|x l IH]; [reflexivity|]. cbn. rewrite H, IH. reflexivity. Qed.
Lemma str_is_class_eq cls i : fwf i -> str_is_class cls i = py_all_class cls (ito_str i).
Proof.
  intros H. pose proof H as [H1 H2]. unfold str_is_class, is_helper_all. pose proof (ito_str_len i H) as Hl.
  destruct (Z.eqb_spec (f_start i) (f_stop i)) as [E|E].
  - assert (Hz : zlen (ito_str i) = 0) by (rewrite Hl; unfold ito_len; lia). apply zlen_0 in Hz. rewrite Hz. reflexivity.
  - rewrite forallb_window by lia. rewrite <- (ito_str_zsub i H).
    destruct (ito_str i) as [|c s] eqn:Es; [unfold zlen, ito_len in Hl; cbn in Hl; lia|].
    unfold py_all_class at 2. apply forallb_ext'. intros x. cbn. apply andb_true_r.
Qed.
Lemma str_isascii_eq cls i : fwf i -> str_isascii cls i = py_all_class_e cls (ito_str i).
Proof.
  intros H. pose proof H as [H1 H2]. unfold str_isascii, is_helper_all. pose proof (ito_str_len i H) as Hl.
  destruct (Z.eqb_spec (f_start i) (f_stop i)) as [E|E].
  - assert (Hz : zlen (ito_str i) = 0) by (rewrite Hl; unfold ito_len; lia). apply zlen_0 in Hz. rewrite Hz. reflexivity.
  - rewrite forallb_window by lia. rewrite <- (ito_str_zsub i H).
    unfold py_all_class_e at 2. apply forallb_ext'. intros x. cbn. apply andb_true_r.
Qed.
Lemma str_isprintable_char cls i : fwf i ->
  str_isprintable cls i = match ito_str i with [] => true | s => existsb cls s end.
Proof.
  intros H. pose proof H as [H1 H2]. unfold str_isprintable, is_helper_any. pose proof (ito_str_len i H) as Hl.
  destruct (Z.eqb_spec (f_start i) (f_stop i)) as [E|E].
  - assert (Hz : zlen (ito_str i) = 0) by (rewrite Hl; unfold ito_len; lia). apply zlen_0 in Hz. rewrite Hz. reflexivity.
  - rewrite existsb_window by lia. rewrite <- (ito_str_zsub i H).
    destruct (ito_str i) as [|c s] eqn:Es; [unfold zlen, ito_len in Hl; cbn in Hl; lia|].
    apply existsb_ext'. intros x. cbn. apply andb_true_r.
Qed.
Lemma str_isprintable_eq cls i v : fwf i -> (forall c, In c (ito_str i) -> cls c = v) ->
  str_isprintable cls i = py_all_class_e cls (ito_str i).
Proof.
  intros H Hv. rewrite str_isprintable_char by exact H. unfold py_all_class_e.
  destruct (ito_str i) as [|c s] eqn:Es; [reflexivity|].
  destruct v.
  - rewrite (proj2 (forallb_forall cls (c :: s)) Hv). apply existsb_exists. exists c. split; [left; reflexivity|apply Hv; left; reflexivity].
  - cbn. rewrite (Hv c) by (left; reflexivity). cbn. apply existsb_false. intros; apply Hv; right; assumption.
Qed.

Fixpoint cased_chars (alpha low : Z -> bool) (alphas : bool) (s : pystr) : bool :=
  match s with
  | [] => alphas
  | c :: s' => if alpha c then if low c then cased_chars alpha low true s' else false
               else cased_chars alpha low alphas s'
  end.
Lemma cased_loop_window i alpha low : forall a v, 0 <= a -> f_stop i <= zlen (f_str i) ->
  cased_loop i alpha low v (zrange a (f_stop i)) = cased_chars alpha low v (zsub (f_str i) a (f_stop i)).
Proof.
  intros a. pattern a. apply (zrange_up _ (f_stop i)); clear a.
  - intros a Hb v _ _. rewrite zrange_nil, zsub_nil by lia. reflexivity.
  - intros a Hab IH v Ha Hs. rewrite zrange_cons by lia. cbn [cased_loop].
    destruct (zget_some (f_str i) a) as [c Hc]; [lia|].
    rewrite (zsub_step _ _ _ _ Hc) by lia. cbn [cased_chars]. unfold test_at, char_at. rewrite Hc.
    rewrite !IH by (auto; lia). reflexivity.
Qed.
Lemma cased_lower alpha low upper title s : forall v,
  (forall c, In c s -> alpha c = (low c || (upper c || title c)) /\ (low c = true -> (upper c || title c) = false)) ->
  cased_chars alpha low v s = py_islower_from low upper title v s.
Proof.
  induction s as [|c s IH]; intros v H; [reflexivity|]. cbn [cased_chars py_islower_from].
  destruct (H c) as [Ha Hl]; [left; reflexivity|]. rewrite Ha.
  assert (Hs : forall v, cased_chars alpha low v s = py_islower_from low upper title v s)
    by (intros; apply IH; intros; apply H; right; assumption).
  destruct (low c) eqn:El.
  - rewrite (Hl eq_refl). cbn. rewrite orb_true_r. apply Hs.
  - cbn. destruct (upper c || title c); [reflexivity|]. rewrite orb_false_r. apply Hs.
Qed.
Lemma cased_upper alpha upper low title s : forall v,
  (forall c, In c s -> alpha c = (upper c || (low c || title c)) /\ (upper c = true -> (low c || title c) = false)) ->
  cased_chars alpha upper v s = py_isupper_from low upper title v s.
Proof.
  induction s as [|c s IH]; intros v H; [reflexivity|]. cbn [cased_chars py_isupper_from].
  destruct (H c) as [Ha Hl]; [left; reflexivity|]. rewrite Ha.
  assert (Hs : forall v, cased_chars alpha upper v s = py_isupper_from low upper title v s)
    by (intros; apply IH; intros; apply H; right; assumption).
  destruct (upper c) eqn:El.
  - rewrite (Hl eq_refl). cbn. rewrite orb_true_r. apply Hs.
  - cbn. destruct (low c || title c); [reflexivity|]. rewrite orb_false_r. apply Hs.
Qed.
(** on text whose letters are exactly its cased characters *)
Definition case_agrees (alpha low upper title : Z -> bool) (s : pystr) : Prop :=
  forall c, In c s ->
    alpha c = (low c || upper c || title c) /\
    (low c = true -> upper c = false /\ title c = false) /\
    (upper c = true -> low c = false /\ title c = false).
Lemma str_islower_eq alpha low upper title i : fwf i -> case_agrees alpha low upper title (ito_str i) ->
  str_islower alpha low i = py_islower low upper title (ito_str i) /\
  str_isupper alpha upper i = py_isupper low upper title (ito_str i).
Proof.
  intros H Hc. pose proof H as [H1 H2]. unfold str_islower, str_isupper, py_islower, py_isupper.
  rewrite !cased_loop_window by lia. rewrite <- (ito_str_zsub i H). split.
  - apply cased_lower. intros c Hin. destruct (Hc c Hin) as (Ha & Hl & Hu).
    split; [rewrite Ha; apply eq_sym, orb_assoc|]. intros El. destruct (Hl El) as [-> ->]. reflexivity.
  - apply cased_upper. intros c Hin. destruct (Hc c Hin) as (Ha & Hl & Hu).
    split; [rewrite Ha; destruct (low c), (upper c), (title c); reflexivity|].
    intros El. destruct (Hu El) as [-> ->]. reflexivity.
Qed.

Lemma getitem_slice_step i a b k :
  getitem_slice i a b (Some k) = if k =? 1 then getitem_slice i a b None else Err IndexError.
Proof. destruct k as [|[p|p|]|p]; reflexivity. Qed.
