(** The built-in str methods that C04–C14 compare pawpaw's methods with, characterised
    without their algorithms (vocabulary: SpecPy).  Only statements, with examples. *)
From Verif Require Import PyFacts PyChar PyUniq.
From Verif Require Import SpecPy.
Open Scope Z_scope.
Import ListNotations.

(** seq[a:b] *)
Theorem C04_python_slice : forall (s : pystr) a b, let n := zlen s in let i := clipped n 0 a in let j := clipped n n b in
  (i <= j -> exists p q, s = p ++ py_slice s a b ++ q /\ zlen p = i /\ zlen q = n - j) /\ (j < i -> py_slice s a b = []).
Proof. exact slice_char. Qed.
(** seq[k] *)
Theorem C05_python_index : forall (s : pystr) k,
  (forall x, py_index s k = Ok x <-> exists p q, s = p ++ x :: q /\ (k = zlen p \/ k = zlen p - zlen s)) /\
  (forall e, py_index s k = Err e -> e = IndexError).
Proof. exact (fun s k => conj (index_char s k) (index_err s k)). Qed.
(** [occ sub s k], used in C06_python_find_is_leftmost: sub stands at position k of s *)
Theorem C06_python_occurrence : forall sub s k, occ sub s k <-> exists a b, s = a ++ sub ++ b /\ zlen a = k.
Proof. exact occ_split. Qed.
Theorem C06_python_index : forall s sub a b,
  py_index_of s sub a b = (if py_find s sub a b =? -1 then Err ValueError else Ok (py_find s sub a b)) /\
  py_rindex_of s sub a b = (if py_rfind s sub a b =? -1 then Err ValueError else Ok (py_rfind s sub a b)).
Proof. exact (fun s sub a b => conj eq_refl eq_refl). Qed.
(** s.count(sub, a, b), sub nonempty, counts in the window s[a:b] *)
Theorem C06_python_count : forall s sub a b, sub <> [] -> counted sub (py_slice s a b) (py_count s sub a b).
Proof.
  intros s sub a b S0. unfold py_count, py_slice. pose proof (zlen_nonneg s).
  assert (L1 : 1 <= zlen sub) by (destruct sub; [congruence|rewrite zlen_cons; pose proof (zlen_nonneg sub); lia]).
  assert (E2 : slice_adjust (zlen s) (zlen s) b = adj_end (zlen s) b).
  { unfold slice_adjust, adj_end. destruct b as [v|]; [|reflexivity]. destruct (Z.ltb_spec v 0); destruct (Z.ltb_spec (zlen s) v); try lia; try reflexivity; destruct (Z.leb_spec (zlen s) v); lia. }
  rewrite E2. assert (E1 : slice_adjust (zlen s) 0 a = adj_start (zlen s) a \/ zlen s <= slice_adjust (zlen s) 0 a /\ zlen s <= adj_start (zlen s) a).
  { unfold slice_adjust, adj_start. destruct a as [v|]; [|left; reflexivity]. destruct (Z.ltb_spec v 0); [left; reflexivity|]. destruct (Z.leb_spec (zlen s) v); [right; lia|left; reflexivity]. }
  assert (E3 : adj_end (zlen s) b <= zlen s) by (rewrite <- E2; destruct (slice_clipped (zlen s) (zlen s) b) as (-> & ?); lia).
  assert (N : absent sub []) by (apply none_absent, find_in_short; rewrite zlen_nil; lia).
  destruct E1 as [E1|(E1 & E1')].
  - rewrite E1. assert (E4 : 0 <= adj_start (zlen s) a) by (rewrite <- E1; destruct (slice_clipped (zlen s) 0 a) as (-> & ?); lia).
    destruct (Z.ltb_spec (adj_start (zlen s) a) (adj_end (zlen s) b)).
    + destruct (Z.ltb_spec (adj_end (zlen s) b - adj_start (zlen s) a) (zlen sub)).
      * apply counted_none. apply none_absent, find_in_short. rewrite zsub_len; lia.
      * destruct sub as [|c sub]; [congruence|]. apply counted_count; [discriminate|reflexivity].
    + destruct (Z.ltb_spec (adj_end (zlen s) b - adj_start (zlen s) a) (zlen sub)); [apply counted_none, N|lia].
  - destruct (Z.ltb_spec (slice_adjust (zlen s) 0 a) (adj_end (zlen s) b)); [lia|].
    destruct (Z.ltb_spec (adj_end (zlen s) b - adj_start (zlen s) a) (zlen sub)); [apply counted_none, N|lia].
Qed.
(** s.startswith(p, a, b) and s.endswith(p, a, b) *)
Theorem C07_python_affix : forall s p a b, let i := adj_start (zlen s) a in let j := adj_end (zlen s) b in
  (py_startswith1 s p a b = true <-> i + zlen p <= j /\ occ p s i) /\ (py_endswith1 s p a b = true <-> i + zlen p <= j /\ occ p s (j - zlen p)).
Proof. exact (fun s p a b => conj (start1_char s p a b) (end1_char s p a b)). Qed.
Theorem C07_python_affix_all : forall s p,
  (py_startswith s (AStr p) None None = true <-> exists r, s = p ++ r) /\ (py_endswith s (AStr p) None None = true <-> exists r, s = r ++ p).
Proof.
  intros s p. cbn [py_startswith py_endswith]. rewrite start1_char, end1_char. cbn [adj_start adj_end]. rewrite !occ_split. split; split.
  - intros (_ & a & b & -> & A). destruct a; [exists b; reflexivity|rewrite zlen_cons in A; pose proof (zlen_nonneg a); lia].
  - intros (r & ->). rewrite zlen_app. pose proof (zlen_nonneg r). split; [lia|]. exists [], r. split; reflexivity.
  - intros (_ & a & b & -> & A). rewrite !zlen_app in A. destruct b; [exists a; rewrite app_nil_r; reflexivity|rewrite zlen_cons in A; pose proof (zlen_nonneg b); lia].
  - intros (r & ->). rewrite zlen_app. pose proof (zlen_nonneg r). split; [lia|]. exists r, []. rewrite app_nil_r. split; [reflexivity|lia].
Qed.
Theorem C07_python_affix_tuple : forall s ps a b,
  (py_startswith s (ATuple ps) a b = true <-> exists p, In p ps /\ py_startswith s (AStr p) a b = true) /\
  (py_endswith s (ATuple ps) a b = true <-> exists p, In p ps /\ py_endswith s (AStr p) a b = true).
Proof. exact (fun s ps a b => conj (existsb_exists _ _) (existsb_exists _ _)). Qed.
(** str.isalnum and the like; str.isascii and str.isprintable; str.islower and str.isupper *)
Theorem C08_python_classes : forall cls low upper title s,
  (py_all_class cls s = true <-> s <> [] /\ all_of cls s) /\ (py_all_class_e cls s = true <-> all_of cls s) /\
  (py_islower low upper title s = true <-> none_of upper s /\ none_of title s /\ exists c, In c s /\ low c = true) /\
  (py_isupper low upper title s = true <-> none_of low s /\ none_of title s /\ exists c, In c s /\ upper c = true).
Proof.
  intros cls low upper title s. split.
  - unfold py_all_class. destruct s as [|c s]; [split; [discriminate|intros ([] & _); reflexivity]|]. rewrite <- all_of_forallb. split; [intros H; split; [discriminate|exact H]|intros (_ & H); exact H].
  - split; [symmetry; apply all_of_forallb|]. unfold py_islower, py_isupper. rewrite islower_char, isupper_char. unfold none_of. split; split.
    + intros (H & [D|D]); [discriminate|]. split; [intros c I; exact (proj1 (H c I))|]. split; [intros c I; exact (proj2 (H c I))|exact D].
    + intros (H1 & H2 & D). split; [intros c I; exact (conj (H1 c I) (H2 c I))|right; exact D].
    + intros (H & [D|D]); [discriminate|]. split; [intros c I; exact (proj1 (H c I))|]. split; [intros c I; exact (proj2 (H c I))|exact D].
    + intros (H1 & H2 & D). split; [intros c I; exact (conj (H1 c I) (H2 c I))|right; exact D].
Qed.
(** str.lstrip, rstrip and strip: [in_set] is blank, or one of the given characters *)
Definition in_set (isspace : Z -> bool) (chars : option pystr) (c : Z) : Prop := match chars with None => isspace c = true | Some cs => In c cs end.
Theorem C09_python_strip : forall isspace s chars, exists p, (forall c, p c = true <-> in_set isspace chars c) /\
  (exists a, s = a ++ py_lstrip isspace s chars /\ all_of p a /\ begins_out p (py_lstrip isspace s chars)) /\
  (exists b, s = py_rstrip isspace s chars ++ b /\ all_of p b /\ ends_out p (py_rstrip isspace s chars)) /\
  (exists a b, s = a ++ py_strip isspace s chars ++ b /\ all_of p a /\ all_of p b /\ begins_out p (py_strip isspace s chars) /\ ends_out p (py_strip isspace s chars)).
Proof.
  intros isspace s chars. exists (strip_set isspace chars). split.
  { intros c. unfold strip_set, in_set, mem_char. destruct chars as [cs|]; [|reflexivity]. rewrite existsb_exists. split; [intros (x & I & E); apply Z.eqb_eq in E; subst; exact I|intros I; exists c; split; [exact I|apply Z.eqb_refl]]. }
  set (p := strip_set isspace chars). split; [|split].
  - destruct (take_drop p s) as (E & A). exists (take_while p s). split; [exact E|]. split; [exact A|apply drop_begins].
  - unfold py_rstrip. fold p. destruct (take_drop p (rev s)) as (E & A). exists (rev (take_while p (rev s))). split; [rewrite <- rev_app_distr, <- E; symmetry; apply rev_involutive|].
    split; [apply all_of_rev; exact A|]. intros c r Q. apply (drop_begins p (rev s) c (rev r)). rewrite <- (rev_involutive (drop_while p (rev s))), Q, rev_app_distr. reflexivity.
  - exact (strip_char p s).
Qed.
(** str.partition and rpartition *)
Theorem C10_python_partition : forall s sep,
  ((exists a b, first_at sep s a b /\ py_partition s sep = (a, sep, b)) \/ (absent sep s /\ py_partition s sep = (s, [], []))) /\
  ((exists a b, last_at sep s a b /\ py_rpartition s sep = (a, sep, b)) \/ (absent sep s /\ py_rpartition s sep = ([], [], s))).
Proof.
  intros s sep. unfold py_partition, py_rpartition. split.
  - destruct (find_in sep s) as [k|] eqn:F; [left|right; split; [apply none_absent, F|reflexivity]]. do 2 eexists. split; [exact (find_first_at _ _ _ F)|reflexivity].
  - destruct (rfind_in sep s) as [k|] eqn:F; [left|right; split; [apply rnone_absent, F|reflexivity]]. do 2 eexists. split; [exact (rfind_last_at _ _ _ F)|reflexivity].
Qed.
(** str.split(sep, m), str.rsplit(sep, m) *)
Theorem C11_python_split : forall s sep m, sep <> [] -> split_at sep m s (py_split s sep m) /\ rsplit_at sep m s (py_rsplit s sep m).
Proof. exact (fun s sep m S0 => conj (split_char sep S0 _ s m (Nat.lt_succ_diag_r _)) (rsplit_char sep S0 _ s m (Nat.lt_succ_diag_r _))). Qed.
(** str.split(None, m), str.rsplit(None, m) *)
Theorem C12_python_split : forall isspace s m, words isspace m s (py_wsplit isspace s m) /\ rwords isspace m s (py_rwsplit isspace s m).
Proof.
  intros p s m. split; [exact (wsplit_char p _ s m (Nat.lt_succ_diag_r _))|]. unfold py_rwsplit. rewrite <- (rev_involutive s) at 1. apply words_rev.
  exact (wsplit_char p _ (rev s) m (Nat.lt_succ_diag_r _)).
Qed.
(** str.splitlines(keepends) *)
Theorem C13_python_splitlines : forall s keep, lines keep s (py_splitlines s keep).
Proof. exact (fun s keep => splitlines_char keep _ s (le_n _)). Qed.
(** str.removeprefix and removesuffix *)
Theorem C14_python_remove : forall s p,
  (forall r, s = p ++ r -> py_removeprefix s p = r) /\ ((forall r, s <> p ++ r) -> py_removeprefix s p = s) /\
  (forall r, s = r ++ p -> py_removesuffix s p = r) /\ ((forall r, s <> r ++ p) -> py_removesuffix s p = s).
Proof.
  intros s p. unfold py_removeprefix, py_removesuffix. split; [|split; [|split]].
  - intros r ->. assert (E : prefixb p (p ++ r) = true) by (apply prefixb_spec; eauto). rewrite E, skipn_app, skipn_all, Nat.sub_diag. reflexivity.
  - intros H. destruct (prefixb p s) eqn:E; [|reflexivity]. apply prefixb_spec in E. destruct E as (r & E). destruct (H r E).
  - intros r ->. destruct p as [|c p]; [apply app_nil_r|]. set (q := c :: p). assert (E : prefixb (rev q) (rev (r ++ q)) = true) by (apply prefixb_spec; exists (rev r); apply rev_app_distr). rewrite E.
    rewrite app_length, Nat.add_sub, firstn_app, firstn_all, Nat.sub_diag, firstn_O. apply app_nil_r.
  - intros H. destruct p as [|c p]; [reflexivity|]. destruct (prefixb (rev (c :: p)) (rev s)) eqn:E; [|reflexivity]. apply prefixb_spec in E. destruct E as (r & E). exfalso. apply (H (rev r)).
    rewrite <- (rev_involutive s), E, rev_app_distr, rev_involutive. reflexivity.
Qed.
(** and these descriptions leave no choice *)
Theorem C06_python_count_unique : forall sub s n n', counted sub s n -> counted sub s n' -> n = n'.
Proof. exact counted_unique. Qed.
Theorem C11_python_split_unique : forall sep m s l l', (split_at sep m s l -> split_at sep m s l' -> l = l') /\ (rsplit_at sep m s l -> rsplit_at sep m s l' -> l = l').
Proof. exact (fun sep m s l l' => conj (split_unique sep m s l l') (rsplit_unique sep m s l l')). Qed.
Theorem C12_python_split_unique : forall p m s l l', (words p m s l -> words p m s l' -> l = l') /\ (rwords p m s l -> rwords p m s l' -> l = l').
Proof. exact (fun p m s l l' => conj (words_unique p m s l l') (rwords_unique p m s l l')). Qed.
Theorem C13_python_splitlines_unique : forall keep s l l', lines keep s l -> lines keep s l' -> l = l'.
Proof. exact lines_unique. Qed.
Print Assumptions C06_python_count.
Print Assumptions C09_python_strip.
Print Assumptions C11_python_split.
Print Assumptions C12_python_split.
Print Assumptions C13_python_splitlines.
(** what the descriptions say of particular texts *)
Example C12_python_case : py_wsplit (Z.eqb 32) (lit " a  b c ") 1 = [lit "a"; lit "b c "] /\ py_rwsplit (Z.eqb 32) (lit " a  b c ") 1 = [lit " a  b"; lit "c"] /\
  words (Z.eqb 32) 1 (lit " a  b c ") [lit "a"; lit "b c "].
Proof. split; [reflexivity|]. split; [reflexivity|]. exact (wsplit_char (Z.eqb 32) 9 (lit " a  b c ") 1 (le_n _)). Qed.
