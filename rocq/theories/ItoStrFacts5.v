(** Proofs: remaining facts for C09 (identity of str_strip), C12 (the loop that
    never ends), C13 (pieces of splitlines), C07 (exact exclusion). *)
From Verif Require Export ItoStrFacts4.

Lemma drop_while_same p s : zlen (drop_while p s) = zlen s -> drop_while p s = s.
Proof.
  destruct s as [|c s]; [reflexivity|]. cbn [drop_while]. destruct (p c); [|reflexivity].
  intros H. pose proof (drop_while_len p s). rewrite zlen_cons in H. lia.
Qed.
Lemma str_strip_identity isspace i chars : fwf i -> ito_len i > 0 ->
  (str_strip isspace i chars = RSelf <-> ito_str (deref i (str_strip isspace i chars)) = ito_str i).
Proof.
  intros H Hl. destruct (str_strip_eff isspace i chars H) as (_ & _ & Ht).
  split; [intros ->; reflexivity|]. rewrite Ht. intros E. set (p := eff_set isspace chars) in *.
  assert (E1 : drop_while p (ito_str i) = ito_str i).
  { apply drop_while_same. pose proof (drop_while_len p (ito_str i)).
    pose proof (drop_while_len p (rev (drop_while p (ito_str i)))).
    apply (f_equal zlen) in E. rewrite zlen_rev in E. rewrite zlen_rev in *. lia. }
  rewrite E1 in E.
  destruct (str_lstrip_eff isspace i chars H) as (_ & Hi). fold p in Hi. apply Hi in E1.
  unfold str_strip. rewrite E1. destruct (str_rstrip_eff isspace i chars H) as (_ & Hr). apply Hr; [lia|exact E].
Qed.

(** Ito(' ab', 1).str_rsplit(): once i = 0 the loop stays there *)
Definition bad_rsplit : fito := FI [32; 97; 98] 1 3 None None.
Definition sp32 (c : Z) : bool := c =? 32.
Lemma bad_rsplit_loop : forall n m rv, m < 0 -> rwsplit_loop n sp32 bad_rsplit 0 m rv = Err OutOfFuel.
Proof.
  induction n as [|n IH]; intros m rv Hm; [reflexivity|].
  cbn [rwsplit_loop]. change (nearest_non_ws sp32 bad_rsplit 0 true) with (@Ok (option fito) (Some (FI [32; 97; 98] 1 2 None None))).
  cbn [bind f_start]. destruct (Z.eqb_spec m 0); [lia|]. change (1 - 1) with 0. apply IH. lia.
Qed.
Lemma bad_rsplit_diverges : forall fuel, str_rwsplit fuel sp32 bad_rsplit (-1) = Err OutOfFuel.
Proof.
  intros [|n]; [reflexivity|].
  assert (E : rwsplit_loop (S n) sp32 bad_rsplit (ito_len bad_rsplit - 1) (-1) [] = Err OutOfFuel).
  { cbn [rwsplit_loop].
    change (nearest_non_ws sp32 bad_rsplit (ito_len bad_rsplit - 1) true)
      with (@Ok (option fito) (Some (FI [32; 97; 98] 1 3 None None))).
    cbn [bind]. change (-1 =? 0) with false. cbv iota. apply bad_rsplit_loop. lia. }
  unfold str_rwsplit. rewrite E. reflexivity.
Qed.

(** the pieces of splitlines lie in order inside self *)
Lemma str_splitlines_within self keep desc : fwf self ->
  Forall (fun p => within p self /\ f_desc p = desc) (str_splitlines self keep desc).
Proof.
  intros H. pose proof H as [H1 H2]. unfold str_splitlines.
  assert (Hs : forall n pos, 0 <= pos <= f_stop self -> match_seq pos (f_stop self) (linebreak_matches n (f_str self) pos (f_stop self))).
  { induction n as [|n IH]; intros pos Hp; cbn [linebreak_matches]; [cbn; lia|].
    destruct (Z.leb_spec (f_stop self) pos); [cbn; lia|].
    destruct (zget (f_str self) pos) as [c|]; [|cbn; lia].
    destruct ((c =? 13) && (pos + 1 <? f_stop self) && _) eqn:E.
    - cbn [match_seq fst snd]. repeat split; try lia. apply IH. lia.
    - destruct (is_linebreak c).
      + cbn [match_seq fst snd]. repeat split; try lia. apply IH. lia.
      + specialize (IH (pos + 1) ltac:(lia)). destruct (linebreak_matches n (f_str self) (pos + 1) (f_stop self)); cbn in IH |- *; [lia|]. intuition lia. }
  destruct (split_iter_spec self (linebreak_matches (Z.to_nat (f_stop self - f_start self)) (f_str self) (f_start self) (f_stop self)) 0 keep desc H) as (_ & Hf); [lia|apply Hs; lia|].
  set (l := split_iter _ _ _ _ _) in *. clearbody l.
  destruct (rev l) as [|x r] eqn:E; [exact Hf|]. destruct (ito_len x =? 0); [|exact Hf].
  apply Forall_rev in Hf. rewrite E in Hf. inversion Hf; subst. apply Forall_rev. assumption.
Qed.

Lemma from_substrings_chain_text s i j subs l : leftmost_chain s i j subs l -> map ito_str l = subs.
Proof.
  revert i l; induction subs as [|x subs IH]; intros i [|y l]; cbn [leftmost_chain]; try tauto.
  intros (_&_&_&_&Ht&_&Hr). cbn [map]. rewrite Ht. f_equal. eapply IH. exact Hr.
Qed.

(** negative integer index: the segment returned is the right one exactly when
    self.start = 1 *)
Lemma getitem_int_neg_exact i k : fwf i -> - ito_len i <= k < 0 ->
  exists r, getitem_int i k = Ok r /\ within (deref i r) i /\
    ((f_start (deref i r) = f_stop i + k /\ f_stop (deref i r) = f_stop i + k + 1) <-> f_start i = 1).
Proof.
  intros H Hk. pose proof H as [H1 H2]. unfold getitem_int.
  assert (E1 : (0 <=? k) && (k <? ito_len i) = false) by lia. rewrite E1.
  assert (E2 : (- ito_len i <=? k) && (k <? 0) = true) by lia. rewrite E2. cbv zeta.
  set (s := f_stop i + k - 1).
  pose proof (from_indices_range (ito_len i) (Some s) (Some (s + 1)) (ito_len_nonneg i H)) as Hr.
  assert (Ex : fst (from_indices (ito_len i) (Some s) (Some (s + 1))) = if 0 <=? s then Z.min (ito_len i) s else Z.max 0 (ito_len i + s)) by reflexivity.
  assert (Ey : snd (from_indices (ito_len i) (Some s) (Some (s + 1))) = Z.max (if 0 <=? s then Z.min (ito_len i) s else Z.max 0 (ito_len i + s))
      (if 0 <=? s + 1 then Z.min (ito_len i) (s + 1) else Z.max 0 (ito_len i + (s + 1)))) by reflexivity.
  destruct (from_indices (ito_len i) (Some s) (Some (s + 1))) as [x y]. cbn [fst snd] in *.
  rewrite offset_nonneg by (cbn [fst snd]; lia). cbn [bind fst snd].
  replace (x + f_start i) with (f_start i + x) by lia. replace (y + f_start i) with (f_start i + y) by lia.
  destruct (getitem_tail_facts i x y H) as (Hw & _ & _ & Hs); [lia|lia|].
  eexists; split; [reflexivity|]. split; [exact Hw|].
  assert (Ed : f_start (deref i (getitem_tail i (f_start i + x, f_start i + y))) = f_start i + x /\
               f_stop (deref i (getitem_tail i (f_start i + x, f_start i + y))) = f_start i + y).
  { unfold getitem_tail. cbn [fst snd]. destruct ((f_start i =? f_start i + x) && (f_stop i =? f_start i + y)) eqn:E; cbn [deref]; [lia|].
    unfold ito_len in *. destruct (clone_f_seg i (f_start i + x) (f_start i + y) None H) as (-> & _); [lia|lia|]. cbn. lia. }
  destruct Ed as [-> ->]. unfold ito_len in *.
  destruct (Z.leb_spec 0 s), (Z.leb_spec 0 (s + 1)); unfold s in *; try lia.
Qed.

Lemma lstrip_thm isspace i chars : fwf i -> chars <> Some [] ->
  within (deref i (str_lstrip isspace i chars)) i /\
  ito_str (deref i (str_lstrip isspace i chars)) = py_lstrip isspace (ito_str i) chars /\
  (str_lstrip isspace i chars = RSelf <-> py_lstrip isspace (ito_str i) chars = ito_str i).
Proof.
  intros H Hc. destruct (str_lstrip_eff isspace i chars H) as ((?&_&?)&?). unfold py_lstrip.
  rewrite <- eff_set_strip by exact Hc. auto.
Qed.
Lemma rstrip_thm isspace i chars : fwf i -> chars <> Some [] ->
  within (deref i (str_rstrip isspace i chars)) i /\
  ito_str (deref i (str_rstrip isspace i chars)) = py_rstrip isspace (ito_str i) chars /\
  (ito_len i > 0 -> (str_rstrip isspace i chars = RSelf <-> py_rstrip isspace (ito_str i) chars = ito_str i)).
Proof.
  intros H Hc. destruct (str_rstrip_eff isspace i chars H) as ((?&_&?)&?). unfold py_rstrip.
  rewrite <- eff_set_strip by exact Hc. auto.
Qed.
Lemma strip_thm isspace i chars : fwf i -> chars <> Some [] ->
  within (deref i (str_strip isspace i chars)) i /\
  ito_str (deref i (str_strip isspace i chars)) = py_strip isspace (ito_str i) chars /\
  (ito_len i > 0 -> (str_strip isspace i chars = RSelf <-> py_strip isspace (ito_str i) chars = ito_str i)).
Proof.
  intros H Hc. destruct (str_strip_eff isspace i chars H) as (Hw&_&Ht).
  pose proof (str_strip_identity isspace i chars H) as Hi. rewrite Ht in Hi.
  unfold py_strip, py_rstrip, py_lstrip. rewrite <- eff_set_strip by exact Hc. auto.
Qed.
Lemma split_iter_tiles self ms m desc : fwf self -> m <= 0 -> match_seq (f_start self) (f_stop self) ms ->
  tiles (f_str self) (f_start self) (f_stop self) (split_iter self ms m true desc) /\
  concat (map ito_str (split_iter self ms m true desc)) = ito_str self.
Proof.
  intros H Hm Hs. destruct (split_iter_spec self ms m true desc H Hm Hs) as (E & Hf).
  assert (Ht : tiles (f_str self) (f_start self) (f_stop self) (split_iter self ms m true desc)).
  { apply (keep_tiles _ ms); auto. eapply Forall_impl; [|exact Hf]. intros p [[Hp _] _]. exact Hp. }
  split; [exact Ht|]. pose proof H as [H1 H2].
  destruct (tiles_text _ _ _ _ (proj1 H1) H2 Ht) as [-> _]. symmetry. apply ito_str_zsub. exact H.
Qed.
Lemma split_iter_positive' self ms m keep desc : fwf self -> 0 < m -> ms <> [] ->
  split_iter self ms m keep desc = [clone_f self (Some (f_start self)) (Some (f_stop self)) (Some desc)].
Proof.
  intros H Hm Hne. pose proof H as [H1 _]. destruct (split_iter_positive self ms m keep desc H Hm ltac:(lia)) as [E|E]; [exact E|contradiction].
Qed.
Lemma to_line_col_re_eq i ms :
  fst (to_line_col_re i ms) = 1 + zlen ms /\
  (ms = [] -> snd (to_line_col_re i ms) = 1 + f_start i) /\
  (forall ms' m, ms = ms' ++ [m] -> snd (to_line_col_re i ms) = 1 + (f_start i - snd m)).
Proof.
  split; [reflexivity|]. split; [intros ->; reflexivity|]. intros ms' m ->. unfold to_line_col_re. cbn [snd].
  rewrite rev_app_distr. reflexivity.
Qed.
