(** Facts behind Properties_Py: the definitions of Py.v meet SpecPy. *)
From Verif Require Import PyFacts SpecPy ItoStrFacts2 ItoStrFacts3 ItoStrFacts4.
From Coq Require Import Lia.
Open Scope Z_scope.
Import ListNotations.

Lemma occ_split sub s k : occ sub s k <-> exists a b, s = a ++ sub ++ b /\ zlen a = k.
Proof.
  unfold occ. split.
  - intros (A & B & C). exists (zsub s 0 k), (zsub s (k + zlen sub) (zlen s)). pose proof (zlen_nonneg sub).
    split; [|rewrite zsub_len; lia].
    rewrite <- C at 1. rewrite (zsub_app_split s k (k + zlen sub) (zlen s)) by lia. rewrite (zsub_app_split s 0 k (zlen s)) by lia. symmetry. apply zsub_full.
  - intros (a & b & -> & <-). rewrite !zlen_app. pose proof (zlen_nonneg a). pose proof (zlen_nonneg b). split; [lia|]. split; [lia|].
    unfold zsub. replace (Z.to_nat (zlen a)) with (length a) by (unfold zlen; lia). rewrite skipn_app, skipn_all, Nat.sub_diag. cbn [skipn app].
    replace (Z.to_nat (zlen a + zlen sub - zlen a)) with (length sub) by (unfold zlen; lia). rewrite firstn_app, firstn_all, Nat.sub_diag, firstn_O, app_nil_r. reflexivity.
Qed.
Lemma absent_occ sub s : absent sub s <-> forall k, ~ occ sub s k.
Proof.
  unfold absent. split.
  - intros H k O. apply occ_split in O. destruct O as (a & b & E & _). exact (H a b E).
  - intros H a b E. apply (H (zlen a)). apply occ_split. eauto.
Qed.
Lemma zlen_length {A} (l : list A) : zlen l = Z.of_nat (length l). Proof. reflexivity. Qed.
Lemma cut_at sub s k : occ sub s k -> s = zsub s 0 k ++ sub ++ zsub s (k + zlen sub) (zlen s) /\ zlen (zsub s 0 k) = k.
Proof.
  intros (A & B & C). pose proof (zlen_nonneg sub). split; [|rewrite zsub_len; lia].
  rewrite <- C at 1. rewrite (zsub_app_split s k (k + zlen sub) (zlen s)) by lia. rewrite (zsub_app_split s 0 k (zlen s)) by lia. symmetry. apply zsub_full.
Qed.
Lemma find_first_at sub s k : find_in sub s = Some k -> first_at sub s (zsub s 0 k) (zsub s (k + zlen sub) (zlen s)).
Proof.
  intros E. apply find_in_Some in E. destruct E as (O & M). destruct (cut_at _ _ _ O) as (C & L). split; [exact C|].
  intros a' b' E. assert (O' : occ sub s (zlen a')) by (apply occ_split; eauto). apply M in O'. rewrite !zlen_length in *. lia.
Qed.
Lemma rfind_last_at sub s k : rfind_in sub s = Some k -> last_at sub s (zsub s 0 k) (zsub s (k + zlen sub) (zlen s)).
Proof.
  intros E. apply rfind_in_Some in E. destruct E as (O & M). destruct (cut_at _ _ _ O) as (C & L). split; [exact C|].
  intros a' b' E. assert (O' : occ sub s (zlen a')) by (apply occ_split; eauto). apply M in O'. rewrite !zlen_length in *. lia.
Qed.
Lemma none_absent sub s : find_in sub s = None -> absent sub s.
Proof. intros E. apply absent_occ. apply find_in_None. exact E. Qed.
Lemma rnone_absent sub s : rfind_in sub s = None -> absent sub s.
Proof. intros E. apply absent_occ. apply rfind_in_None. exact E. Qed.

(** slices and indices *)
Lemma slice_clipped n d i : 0 <= n -> 0 <= d <= n -> slice_adjust n d i = clipped n d i /\ 0 <= clipped n d i <= n.
Proof. intros N D. unfold slice_adjust, clipped. destruct i as [v|]; [|lia]. destruct (Z.ltb_spec v 0); [destruct (Z.ltb_spec (v + n) 0); lia|destruct (Z.leb_spec n v); lia]. Qed.
Lemma slice_char {A} (l : list A) a b : let n := zlen l in let i := clipped n 0 a in let j := clipped n n b in
  (i <= j -> exists p q, l = p ++ py_slice l a b ++ q /\ zlen p = i /\ zlen q = n - j) /\ (j < i -> py_slice l a b = []).
Proof.
  intros n i j. pose proof (zlen_nonneg l) as N. destruct (slice_clipped n 0 a) as (E1 & B1); [exact N|unfold n; lia|]. destruct (slice_clipped n n b) as (E2 & B2); [exact N|unfold n; lia|].
  unfold py_slice. fold n. rewrite E1, E2. fold i in B1 |- *. fold j in B2 |- *. split.
  - intros L. exists (zsub l 0 i), (zsub l j n). split; [|split; rewrite zsub_len; unfold n in *; lia].
    assert (E : (if i <? j then zsub l i j else []) = zsub l i j) by (destruct (Z.ltb_spec i j); [reflexivity|symmetry; apply zsub_nil; lia]). rewrite E.
    rewrite (zsub_app_split l i j n), (zsub_app_split l 0 i n) by (unfold n in *; lia). symmetry. apply zsub_full.
  - intros L. destruct (Z.ltb_spec i j); [lia|reflexivity].
Qed.
Lemma index_char {A} (l : list A) k x : py_index l k = Ok x <-> exists p q, l = p ++ x :: q /\ (k = zlen p \/ k = zlen p - zlen l).
Proof.
  unfold py_index, zget. split.
  - set (k' := if k <? 0 then k + zlen l else k). destruct (k' <? 0) eqn:N; [discriminate|]. apply Z.ltb_ge in N. destruct (nth_error l (Z.to_nat k')) as [y|] eqn:E; [|discriminate].
    intros [= <-]. apply nth_error_split in E. destruct E as (p & q & -> & L). exists p, q. split; [reflexivity|]. unfold k' in *. clear k'. destruct (Z.ltb_spec k 0); unfold zlen in *; [right|left]; lia.
  - intros (p & q & -> & D). rewrite zlen_app, zlen_cons in D. pose proof (zlen_nonneg p). pose proof (zlen_nonneg q).
    assert (E : (if k <? 0 then k + zlen (p ++ x :: q) else k) = zlen p) by (rewrite zlen_app, zlen_cons; destruct (Z.ltb_spec k 0); lia). rewrite E.
    destruct (Z.ltb_spec (zlen p) 0); [lia|]. replace (Z.to_nat (zlen p)) with (length p) by (unfold zlen; lia). rewrite nth_error_app2, Nat.sub_diag by lia. reflexivity.
Qed.
Lemma index_err {A} (l : list A) k e : py_index l k = Err e -> e = IndexError.
Proof. unfold py_index. destruct (zget l _); [discriminate|]. congruence. Qed.

(** counting *)
Lemma counted_count sub : sub <> [] -> forall n s, (length s <= n)%nat -> counted sub s (count_in n sub s).
Proof.
  intros S0 n. induction n as [|n IH]; intros s L.
  - destruct s; [|cbn in L; lia]. cbn. apply counted_none. apply none_absent. apply find_in_short. destruct sub; [congruence|]. rewrite zlen_cons, zlen_nil. pose proof (zlen_nonneg sub). lia.
  - rewrite (count_in_find sub S0 (S n) s L). destruct (find_in sub s) as [k|] eqn:F; [|apply counted_none, none_absent, F].
    pose proof (find_in_range _ _ _ F) as R. pose proof (find_first_at _ _ _ F) as A. assert (1 <= zlen sub) by (destruct sub; [congruence|rewrite zlen_cons; pose proof (zlen_nonneg sub); lia]).
    eapply counted_more; [exact A|]. 
    set (r := zsub s (k + zlen sub) (zlen s)) in *. assert (Lr : (length r <= n)%nat).
    { assert (zlen r = zlen s - (k + zlen sub)) by (unfold r; rewrite zsub_len; lia). unfold zlen in *. lia. }
    rewrite (count_in_fuel sub S0 _ n r) by lia. exact (IH r Lr).
Qed.

(** str.split and str.rsplit *)
Lemma split_char sep : sep <> [] -> forall n s m, (length s < n)%nat -> split_at sep m s (py_split_fuel n s sep m).
Proof.
  intros S0 n. induction n as [|n IH]; intros s m L; [lia|]. cbn [py_split_fuel]. destruct (Z.eqb_spec m 0) as [M|M]; [apply split_end; left; exact M|].
  destruct (find_in sep s) as [k|] eqn:F; [|apply split_end; right; apply none_absent, F].
  pose proof (find_in_range _ _ _ F) as R. assert (1 <= zlen sep) by (destruct sep; [congruence|rewrite zlen_cons; pose proof (zlen_nonneg sep); lia]).
  eapply split_more; [exact M|exact (find_first_at _ _ _ F)|]. apply IH.
  assert (zlen (zsub s (k + zlen sep) (zlen s)) = zlen s - (k + zlen sep)) by (rewrite zsub_len; lia). unfold zlen in *. lia.
Qed.
Lemma rsplit_char sep : sep <> [] -> forall n s m, (length s < n)%nat -> rsplit_at sep m s (py_rsplit_fuel n s sep m).
Proof.
  intros S0 n. induction n as [|n IH]; intros s m L; [lia|]. cbn [py_rsplit_fuel]. destruct (Z.eqb_spec m 0) as [M|M]; [apply rsplit_end; left; exact M|].
  destruct (rfind_in sep s) as [k|] eqn:F; [|apply rsplit_end; right; apply rnone_absent, F].
  pose proof (rfind_in_range _ _ _ F) as R. assert (1 <= zlen sep) by (destruct sep; [congruence|rewrite zlen_cons; pose proof (zlen_nonneg sep); lia]).
  eapply rsplit_more; [exact M|exact (rfind_last_at _ _ _ F)|]. apply IH.
  assert (zlen (zsub s 0 k) = k) by (rewrite zsub_len; lia). unfold zlen in *. lia.
Qed.

(** blanks *)
Lemma all_of_forallb p s : all_of p s <-> forallb p s = true.
Proof. unfold all_of. rewrite forallb_forall. reflexivity. Qed.
Lemma drop_begins p s : begins_out p (drop_while p s).
Proof. intros c r E. exact (drop_while_hd p s c r E). Qed.
Lemma take_drop p s : s = take_while p s ++ drop_while p s /\ all_of p (take_while p s).
Proof. split; [exact (drop_while_split p s)|apply all_of_forallb, take_while_all]. Qed.
Lemma strip_char p s : exists a b, s = a ++ rev (drop_while p (rev (drop_while p s))) ++ b /\ all_of p a /\ all_of p b /\
  begins_out p (rev (drop_while p (rev (drop_while p s)))) /\ ends_out p (rev (drop_while p (rev (drop_while p s)))).
Proof.
  destruct (take_drop p s) as (E & A). set (d := drop_while p s) in *. destruct (take_drop p (rev d)) as (E' & A'). set (r := drop_while p (rev d)) in *.
  assert (Ed : d = rev r ++ rev (take_while p (rev d))) by (rewrite <- rev_app_distr, <- E'; symmetry; apply rev_involutive).
  exists (take_while p s), (rev (take_while p (rev d))). split; [rewrite <- Ed; exact E|]. split; [exact A|].
  split; [intros c I; apply A'; apply in_rev; exact I|]. split.
  - intros c q Q. rewrite Q in Ed. apply (drop_while_hd p s c (q ++ rev (take_while p (rev d)))). fold d. rewrite Ed at 1. reflexivity.
  - intros c q Q. apply (drop_while_hd p (rev d) c (rev q)). fold r. rewrite <- (rev_involutive r), Q, rev_app_distr. reflexivity.
Qed.
Lemma take_drop_not p s : s = take_while (fun c => negb (p c)) s ++ skipn (length (take_while (fun c => negb (p c)) s)) s /\
  none_of p (take_while (fun c => negb (p c)) s) /\ begins_in p (skipn (length (take_while (fun c => negb (p c)) s)) s).
Proof.
  pose proof (drop_while_split (fun c => negb (p c)) s) as E. set (w := take_while _ s) in *. set (d := drop_while _ s) in *.
  assert (K : skipn (length w) s = d) by (rewrite E at 1; rewrite skipn_app, skipn_all, Nat.sub_diag; reflexivity). rewrite K. split; [exact E|]. split.
  - intros c I. pose proof (take_while_all (fun c => negb (p c)) s) as T. fold w in T. rewrite forallb_forall in T. apply T in I. destruct (p c); [discriminate|reflexivity].
  - intros c r D. unfold d in D. apply drop_while_hd in D. destruct (p c); [reflexivity|discriminate].
Qed.
Lemma wsplit_char p : forall n s m, (length s < n)%nat -> words p m s (py_wsplit_fuel n p s m).
Proof.
  intros n. induction n as [|n IH]; intros s m L; [lia|]. cbn [py_wsplit_fuel]. destruct (take_drop p s) as (E & A). pose proof (drop_begins p s) as B.
  set (d := drop_while p s) in *. set (a := take_while p s) in *. clearbody d a. subst s. destruct d as [|c d].
  - rewrite app_nil_r. apply words_end. exact A.
  - destruct (Z.eqb_spec m 0) as [->|M]; [apply words_rest; [exact A|discriminate|exact B]|].
    destruct (take_drop_not p (c :: d)) as (E1 & N1 & B1). set (w := take_while (fun x => negb (p x)) (c :: d)) in *.
    assert (W : w <> []) by (unfold w; cbn; rewrite (B c d eq_refl); discriminate).
    rewrite E1 at 1. apply words_more; [exact M|exact A|exact W|exact N1|exact B1|]. apply IH.
    rewrite app_length in L. rewrite skipn_length. destruct w; [congruence|]. cbn in *. lia.
Qed.
Lemma all_of_rev p s : all_of p s -> all_of p (rev s).
Proof. intros H c I. apply H. apply in_rev. exact I. Qed.
Lemma words_rev p m s l : words p m s l -> rwords p m (rev s) (rev (map (@rev Z) l)).
Proof.
  intros W. induction W as [m s A|a s A S0 B|m a w s l M A W0 N B W IH].
  - apply rwords_end. apply all_of_rev. exact A.
  - rewrite rev_app_distr. apply rwords_rest; [apply all_of_rev; exact A| |].
    + intros E. apply S0. rewrite <- (rev_involutive s), E. reflexivity.
    + intros c r E. apply (B c (rev r)). rewrite <- (rev_involutive s), E, rev_app_distr. reflexivity.
  - rewrite !rev_app_distr, <- app_assoc. cbn [map rev]. apply rwords_more; [exact M|apply all_of_rev; exact A| | | |exact IH].
    + intros E. apply W0. rewrite <- (rev_involutive w), E. reflexivity.
    + intros c I. apply N. apply in_rev. exact I.
    + intros c r E. apply (B c (rev r)). rewrite <- (rev_involutive s), E, rev_app_distr. reflexivity.
Qed.

(** lines *)
Lemma boundary_spec c : is_linebreak c = true <-> boundary c.
Proof.
  unfold is_linebreak, boundary, mem_char. rewrite existsb_exists. split.
  - intros (x & I & E). apply Z.eqb_eq in E. subst. exact I.
  - intros I. exists c. split; [exact I|apply Z.eqb_refl].
Qed.
Lemma take_line_char t : t <> [] -> let '(b, e, r) := take_line t in
  t = b ++ e ++ r /\ (forall c, In c b -> ~ boundary c) /\ ((e = [] /\ r = [] /\ b <> []) \/ eol e r).
Proof.
  induction t as [|c t IH]; [congruence|]. intros _. cbn [take_line]. destruct (is_linebreak c) eqn:E.
  - apply boundary_spec in E. destruct t as [|d t'].
    + split; [reflexivity|]. split; [intros ? []|]. right. right. exists c. split; [reflexivity|]. split; [exact E|]. intros (_ & r & ?). discriminate.
    + destruct ((c =? 13) && (d =? 10)) eqn:CD.
      * apply andb_prop in CD. destruct CD as (C1 & C2). apply Z.eqb_eq in C1, C2. subst. split; [reflexivity|]. split; [intros ? []|]. right. left. reflexivity.
      * split; [reflexivity|]. split; [intros ? []|]. right. right. exists c. split; [reflexivity|]. split; [exact E|]. intros (-> & r & [= -> ->]). discriminate CD.
  - assert (NB : ~ boundary c) by (intros B; apply boundary_spec in B; congruence). destruct t as [|d t'].
    + cbn. split; [reflexivity|]. split; [intros x [<-|[]]; exact NB|]. left. repeat split; discriminate.
    + specialize (IH ltac:(discriminate)). destruct (take_line (d :: t')) as [[b e] r]. destruct IH as (E1 & N1 & D). split; [cbn [app]; rewrite <- E1; reflexivity|].
      split; [intros x [<-|I]; [exact NB|exact (N1 x I)]|]. destruct D as [(-> & -> & B)|D]; [left; repeat split; discriminate|right; exact D].
Qed.
Lemma splitlines_char keep : forall n s, (length s <= n)%nat -> lines keep s (py_splitlines_fuel n keep s).
Proof.
  intros n. induction n as [|n IH]; intros s L.
  - destruct s; [apply lines_none|cbn in L; lia].
  - cbn [py_splitlines_fuel]. destruct s as [|c t]; [apply lines_none|]. pose proof (take_line_char (c :: t) ltac:(discriminate)) as T.
    set (s := c :: t) in *. destruct (take_line s) as [[b e] r]. destruct T as (E & N & [(-> & -> & B)|D]).
    + rewrite !app_nil_r in E. rewrite E. destruct n; cbn [py_splitlines_fuel]; rewrite app_nil_r; destruct keep; apply lines_last; assumption.
    + rewrite E. apply lines_more; [exact N|exact D|]. apply IH. assert (e <> []) by (destruct D as [->|(x & -> & _)]; discriminate).
      rewrite E, !app_length in L. destruct e; [congruence|]. cbn in L. lia.
Qed.

(** letters *)
Lemma islower_char low upper title s : forall v, py_islower_from low upper title v s = true <->
  (forall c, In c s -> upper c = false /\ title c = false) /\ (v = true \/ exists c, In c s /\ low c = true).
Proof.
  induction s as [|c s IH]; intros v; cbn [py_islower_from].
  - split; [intros ->; split; [intros ? []|left; reflexivity]|]. intros (_ & [H|(c & [] & _)]). exact H.
  - destruct (upper c || title c) eqn:U.
    + split; [discriminate|]. intros (H & _). destruct (H c (or_introl eq_refl)) as (H1 & H2). rewrite H1, H2 in U. discriminate.
    + apply orb_false_elim in U. rewrite IH. split.
      * intros (H & D). split; [intros x [<-|I]; [exact U|exact (H x I)]|]. destruct D as [D|(x & I & X)]; [|right; exists x; split; [right; exact I|exact X]].
        apply orb_prop in D. destruct D as [D|D]; [left; exact D|right; exists c; split; [left; reflexivity|exact D]].
      * intros (H & D). split; [intros x I; exact (H x (or_intror I))|]. destruct D as [->|(x & [<-|I] & X)]; [left; reflexivity|left; rewrite X; apply orb_true_r|right; eauto].
Qed.
Lemma isupper_char low upper title s : forall v, py_isupper_from low upper title v s = true <->
  (forall c, In c s -> low c = false /\ title c = false) /\ (v = true \/ exists c, In c s /\ upper c = true).
Proof.
  intros v. rewrite <- (islower_char upper low title s v). revert v. induction s as [|c s IH]; intros v; cbn; [reflexivity|]. destruct (low c || title c); [reflexivity|apply IH].
Qed.
Lemma start1_char s p a b : py_startswith1 s p a b = true <-> adj_start (zlen s) a + zlen p <= adj_end (zlen s) b /\ occ p s (adj_start (zlen s) a).
Proof.
  unfold py_startswith1, occ. pose proof (zlen_nonneg s). pose proof (zlen_nonneg p).
  assert (0 <= adj_start (zlen s) a) by (unfold adj_start; destruct a as [v|]; [|lia]; destruct (Z.ltb_spec v 0); [destruct (Z.ltb_spec (v + zlen s) 0); lia|lia]).
  assert (adj_end (zlen s) b <= zlen s) by (unfold adj_end; destruct b as [v|]; [|lia]; destruct (Z.ltb_spec (zlen s) v); [lia|]; destruct (Z.ltb_spec v 0); [destruct (Z.ltb_spec (v + zlen s) 0); lia|lia]).
  destruct (Z.ltb_spec (adj_end (zlen s) b - zlen p) (adj_start (zlen s) a)).
  - split; [discriminate|]. lia.
  - rewrite eqb_str_eq. split; [intros E; repeat split; [lia|lia|lia|exact E]|intros (_ & _ & _ & E); exact E].
Qed.
Lemma end1_char s p a b : py_endswith1 s p a b = true <-> adj_start (zlen s) a + zlen p <= adj_end (zlen s) b /\ occ p s (adj_end (zlen s) b - zlen p).
Proof.
  unfold py_endswith1, occ. pose proof (zlen_nonneg s). pose proof (zlen_nonneg p).
  assert (0 <= adj_start (zlen s) a) by (unfold adj_start; destruct a as [v|]; [|lia]; destruct (Z.ltb_spec v 0); [destruct (Z.ltb_spec (v + zlen s) 0); lia|lia]).
  assert (adj_end (zlen s) b <= zlen s) by (unfold adj_end; destruct b as [v|]; [|lia]; destruct (Z.ltb_spec (zlen s) v); [lia|]; destruct (Z.ltb_spec v 0); [destruct (Z.ltb_spec (v + zlen s) 0); lia|lia]).
  replace (adj_end (zlen s) b - zlen p + zlen p) with (adj_end (zlen s) b) by lia.
  destruct (Z.ltb_spec (adj_end (zlen s) b - zlen p) (adj_start (zlen s) a)).
  - split; [discriminate|]. lia.
  - rewrite eqb_str_eq. split; [intros E; repeat split; [lia|lia|lia|exact E]|intros (_ & _ & _ & E); exact E].
Qed.
