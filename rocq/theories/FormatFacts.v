(** Proofs about Ito.__format__ (C61, C68). *)
From Verif Require Export SpecFormat HighlightFacts2.

(** -- slices -- *)
Lemma slice_to {A} (l : list A) b : 0 <= b <= zlen l -> py_slice l None (Some b) = zsub l 0 b.
Proof. intros H. rewrite py_slice_zsub. unfold from_indices. cbn [fst snd]. destruct (Z.leb_spec 0 b); [|lia]. f_equal. lia. Qed.
Lemma slice_from {A} (l : list A) a : 0 <= a <= zlen l -> py_slice l (Some a) None = zsub l a (zlen l).
Proof. intros H. rewrite py_slice_zsub. unfold from_indices. cbn [fst snd]. destruct (Z.leb_spec 0 a); [|lia]. f_equal; lia. Qed.
Lemma slice_last {A} (l : list A) k : 0 < k <= zlen l -> py_slice l (Some (- k)) None = zsub l (zlen l - k) (zlen l).
Proof. intros H. rewrite py_slice_zsub. unfold from_indices. cbn [fst snd]. destruct (Z.leb_spec 0 (- k)); [lia|]. f_equal; lia. Qed.
Lemma zsub_app_1 {A} (a b : list A) x y : 0 <= x -> y <= zlen a -> zsub (a ++ b) x y = zsub a x y.
Proof.
  intros H0 H. unfold zsub. rewrite skipn_app, firstn_app.
  replace (Z.to_nat (y - x) - length (skipn (Z.to_nat x) a))%nat with 0%nat; [cbn; apply app_nil_r|].
  rewrite skipn_length. unfold zlen in H. lia.
Qed.
Lemma zsub_app_2 {A} (a b : list A) x y : 0 <= x -> zsub (a ++ b) (zlen a + x) (zlen a + y) = zsub b x y.
Proof.
  intros H. unfold zsub. rewrite skipn_app, skipn_all2 by (unfold zlen; lia). cbn [app].
  f_equal; [lia|]. f_equal. unfold zlen. lia.
Qed.

(** -- where directives start -- *)
Lemma find_escapes_str spec : find_escapes (UStr spec) [37] None None = (escan 37 0 spec false, None).
Proof.
  unfold find_escapes. cbn [u_len u_offset u_string]. unfold from_indices, offset. cbn [Z.eqb fst snd].
  rewrite Z.max_r by apply zlen_nonneg. f_equal. rewrite escapes_loop_scan by lia. rewrite zsub_full. reflexivity.
Qed.
Fixpoint end_esc (w : pystr) (esc : bool) : bool :=
  match w with [] => esc | c :: r => end_esc r (if c =? 37 then negb esc else false) end.
Lemma escan_app a : forall b k esc, escan 37 k (a ++ b) esc =
  escan 37 k a esc ++ escan 37 (k + zlen a) b (end_esc a esc).
Proof.
  induction a as [|c a IH]; intros b k esc; cbn [app escan end_esc].
  - rewrite zlen_nil, Z.add_0_r. reflexivity.
  - rewrite zlen_cons. replace (k + (1 + zlen a)) with (k + 1 + zlen a) by lia.
    destruct (c =? 37); [apply IH|]. destruct esc; [cbn [app]; f_equal|]; apply IH.
Qed.
Lemma end_closed a : closed_end a -> end_esc a false = false.
Proof.
  intros C. destruct a as [|x a _] using rev_ind; [reflexivity|].
  assert (E : forall u esc, end_esc (u ++ [x]) esc = if x =? 37 then negb (end_esc u esc) else false).
  { induction u as [|y u IH]; intros esc; cbn [app end_esc]; [reflexivity|]. apply IH. }
  rewrite E. destruct (Z.eqb_spec x 37) as [->|]; [destruct (C a eq_refl)|reflexivity].
Qed.
Lemma escan_lone b k : lone b -> exists r, escan 37 k b false = k :: r.
Proof.
  intros (c & r & -> & H). cbn [escan Z.eqb Pos.eqb negb]. destruct (Z.eqb_spec c 37) as [|_]; [contradiction|].
  eexists. f_equal. lia.
Qed.
Lemma escan_sorted spec : StronglySorted Z.lt (escan 37 0 spec false) /\ forall y, In y (escan 37 0 spec false) -> 0 <= y < zlen spec.
Proof.
  pose proof (escan_spec 37 spec []) as [S P]. cbn [app] in *. rewrite zlen_nil in *. change (Nat.odd (esc_run 37 [])) with false in *.
  split; [exact S|]. intros y I. apply P in I. destruct I as [I (Hg & _)]. apply zget_bounds in Hg. exact Hg.
Qed.

(** -- expansion of one segment -- *)
Definition expand (E : fmt_env) (i : fito) (seg : pystr) : res pystr :=
  match fmt_match E seg with
  | None => Ok seg
  | Some (it, rest) => do v <- fmt_item E i it; Ok (v ++ rest)
  end.
Fixpoint expand_all (E : fmt_env) (i : fito) (segs : list pystr) : res pystr :=
  match segs with [] => Ok [] | s :: r => do R <- expand_all E i r; do v <- expand E i s; Ok (v ++ R) end.
Lemma expand_all_app E i a : forall b, expand_all E i (a ++ b) =
  (do R <- expand_all E i b; do Q <- expand_all E i a; Ok (Q ++ R)).
Proof.
  induction a as [|s a IH]; intros b; cbn [app expand_all].
  - destruct (expand_all E i b) as [R|e]; cbn [bind]; [|reflexivity]. reflexivity.
  - rewrite IH. destruct (expand_all E i b) as [R|e]; cbn [bind]; [|reflexivity].
    destruct (expand_all E i a) as [Q|e]; cbn [bind]; [|reflexivity]. destruct (expand E i s) as [v|e]; cbn [bind]; [|reflexivity].
    rewrite app_assoc. reflexivity.
Qed.
Definition hd_or (n : Z) (l : list Z) : Z := match l with [] => n | a :: _ => a end.
Fixpoint segs (spec : pystr) (ys : list Z) : list pystr :=
  match ys with [] => [] | a :: r => zsub spec a (hd_or (zlen spec) r) :: segs spec r end.

(** what is matched is a prefix of the segment *)
Definition suffix_of (r s : pystr) : Prop := exists u, s = u ++ r.
Lemma suffix_refl s : suffix_of s s. Proof. exists []. reflexivity. Qed.
Lemma suffix_cons r c s : suffix_of r s -> suffix_of r (c :: s).
Proof. intros [u ->]. exists (c :: u). reflexivity. Qed.
Lemma suffix_trans r s t : suffix_of r s -> suffix_of s t -> suffix_of r t.
Proof. intros [u ->] [v ->]. exists (v ++ u). rewrite <- app_assoc. reflexivity. Qed.
Lemma suffix_nil s : suffix_of [] s. Proof. exists s. rewrite app_nil_r. reflexivity. Qed.
Lemma strip_pre_some p : forall s r, strip_pre p s = Some r <-> s = p ++ r.
Proof.
  induction p as [|x p IH]; intros s r; cbn [strip_pre app]; [split; [intros [= <-]|intros ->]; reflexivity|].
  destruct s as [|y s]; [split; discriminate|]. destruct (Z.eqb_spec x y) as [->|N].
  - rewrite IH. split; [intros ->; reflexivity|intros [= ->]; reflexivity].
  - split; [discriminate|intros [= -> _]; contradiction].
Qed.
Lemma first_alt_some {A} (name : A -> pystr) l : forall s d r, first_alt name l s = Some (d, r) -> s = name d ++ r.
Proof.
  induction l as [|d0 l IH]; intros s d r; cbn [first_alt]; [discriminate|]. destruct (strip_pre (name d0) s) as [s'|] eqn:E.
  - intros [= <- <-]. apply strip_pre_some. exact E.
  - apply IH.
Qed.
Lemma digits_split E s : s = fst (digits E s) ++ snd (digits E s).
Proof.
  induction s as [|c s IH]; cbn [digits]; [reflexivity|]. destruct (fe_digit E c); [|reflexivity].
  destruct (digits E s) as [a b]. cbn [fst snd] in *. rewrite IH at 1. reflexivity.
Qed.
Lemma opt_class_suffix cs s : suffix_of (opt_class cs s) s.
Proof. destruct s as [|c s]; cbn; [apply suffix_refl|]. destruct (mem_char c cs); [apply suffix_cons|]; apply suffix_refl. Qed.
Lemma digits_suffix E s : suffix_of (snd (digits E s)) s.
Proof. exists (fst (digits E s)). apply digits_split. Qed.
Lemma fill_align_suffix s : suffix_of (fill_align s) s.
Proof.
  destruct s as [|f [|a r]]; cbn [fill_align]; [apply suffix_refl| |].
  - destruct (mem_char f _); [apply suffix_nil|apply suffix_refl].
  - destruct (mem_char a _); [apply suffix_cons, suffix_cons, suffix_refl|]. destruct (mem_char f _); [apply suffix_cons|]; apply suffix_refl.
Qed.
Lemma int_fields_suffix E s : suffix_of (int_fields E s) s.
Proof.
  unfold int_fields. repeat (eapply suffix_trans; [apply opt_class_suffix|]). eapply suffix_trans; [apply digits_suffix|].
  repeat (eapply suffix_trans; [apply opt_class_suffix|]). apply fill_align_suffix.
Qed.
Lemma int_tail_suffix E s : suffix_of (snd (int_tail E s)) s.
Proof.
  assert (D : forall c r, s = c :: r -> (exists x, int_tail E s = (x, int_fields E r) /\ c = 58) \/ int_tail E s = ([], s)).
  { intros c r ->. unfold int_tail. destruct (Z.eq_dec c 58) as [->|N]; [left; eexists; split; reflexivity|right].
    destruct c as [|p|p]; try reflexivity. do 6 (destruct p as [p|p|]; try reflexivity). exfalso. lia. }
  destruct s as [|c r]; [apply suffix_refl|]. destruct (D c r eq_refl) as [(x & -> & ->)| ->]; cbn [snd]; [|apply suffix_refl].
  apply suffix_cons, int_fields_suffix.
Qed.
Lemma conv_tail_eq E c r : conv_tail E (c :: r) =
  if c =? 33 then
    let (l, r1) := digits E r in
    match r1 with
    | k :: r2 => if mem_char k (lit "ar") then let (x, r3) := digits E r2 in (Some (l, k, x), r3) else (None, c :: r)
    | [] => (None, c :: r)
    end
  else (None, c :: r).
Proof.
  destruct (Z.eqb_spec c 33) as [->|N]; [reflexivity|]. unfold conv_tail.
  destruct c as [|p|p]; try reflexivity. do 6 (destruct p as [p|p|]; try reflexivity). exfalso. lia.
Qed.
Lemma width_tail_eq E c r : width_tail E (c :: r) =
  if c =? 58 then
      let (p, r1) := match r with c :: r' => if mem_char c (lit "<^>") then (Some c, r') else (None, r) | [] => (None, r) end in
      match digits E r1 with
      | ([], _) => (None, c :: r)
      | (w, abbr) => (Some (p, w, abbr), [])
      end
  else (None, c :: r).
Proof.
  destruct (Z.eqb_spec c 58) as [->|N]; [reflexivity|]. unfold width_tail.
  destruct c as [|p|p]; try reflexivity. do 6 (destruct p as [p|p|]; try reflexivity). exfalso. lia.
Qed.
Lemma conv_tail_suffix E s : suffix_of (snd (conv_tail E s)) s.
Proof.
  destruct s as [|c s]; [apply suffix_refl|]. rewrite conv_tail_eq. destruct (c =? 33); [|apply suffix_refl].
  pose proof (digits_suffix E s) as D. destruct (digits E s) as [l r1]. cbn [snd] in D. destruct r1 as [|k r2]; [apply suffix_refl|].
  destruct (mem_char k _); [|apply suffix_refl]. pose proof (digits_suffix E r2) as D2. destruct (digits E r2) as [x r3]. cbn [snd] in *.
  apply suffix_cons. eapply suffix_trans; [apply suffix_cons; exact D2|exact D].
Qed.
Lemma width_tail_suffix E s : suffix_of (snd (width_tail E s)) s.
Proof.
  destruct s as [|c s]; [apply suffix_refl|]. rewrite width_tail_eq. destruct (c =? 58); [|apply suffix_refl].
  destruct (match s with [] => _ | _ :: _ => _ end) as [p r1]. destruct (digits E r1) as [[|w ws] ab]; [apply suffix_refl|apply suffix_nil].
Qed.
Lemma fmt_match_eq E c s : fmt_match E (c :: s) =
  if c =? 37 then
    match s with
    | 32 :: r => Some (FZws, r)
    | _ =>
      match first_alt dir_int_name [DSpan; DStart; DStop] s with
      | Some (d, r) => let (f, rest) := int_tail E r in Some (FInt d f, rest)
      | None =>
        match first_alt dir_str_name [DDesc; DString; DSubstr; DValue] s with
        | Some (d, r) => let (c, r1) := conv_tail E r in let (w, rest) := width_tail E r1 in Some (FStr d c w, rest)
        | None => None
        end
      end
    end
  else None.
Proof.
  destruct (Z.eqb_spec c 37) as [->|N]; [reflexivity|]. unfold fmt_match.
  destruct c as [|p|p]; try reflexivity. do 6 (destruct p as [p|p|]; try reflexivity). exfalso. lia.
Qed.
Definition is_space (s : pystr) : option pystr := match s with c :: r => if c =? 32 then Some r else None | [] => None end.
Lemma space_case {A} (s : pystr) (f : pystr -> A) (g : A) :
  match s with 32 :: r => f r | _ => g end = match is_space s with Some r => f r | None => g end.
Proof.
  destruct s as [|c s]; [reflexivity|]. cbn [is_space]. destruct (Z.eqb_spec c 32) as [->|N]; [reflexivity|].
  destruct c as [|p|p]; try reflexivity. do 6 (destruct p as [p|p|]; try reflexivity). exfalso. lia.
Qed.
Lemma fmt_match_suffix E s it r : fmt_match E s = Some (it, r) -> suffix_of r s.
Proof.
  destruct s as [|c s]; [discriminate|]. rewrite fmt_match_eq. destruct (c =? 37); [|discriminate]. rewrite space_case.
  destruct (is_space s) as [r0|] eqn:Es.
  - intros [= <- <-]. destruct s as [|c' s]; [discriminate|]. cbn [is_space] in Es. destruct (c' =? 32); [|discriminate].
    injection Es as <-. apply suffix_cons, suffix_cons, suffix_refl.
  - destruct (first_alt dir_int_name _ s) as [[d r1]|] eqn:E1.
    + apply first_alt_some in E1. pose proof (int_tail_suffix E r1) as T. destruct (int_tail E r1) as [f rest]. cbn [snd] in T.
      intros [= <- <-]. apply suffix_cons. eapply suffix_trans; [exact T|]. exists (dir_int_name d). exact E1.
    + destruct (first_alt dir_str_name _ s) as [[d r1]|] eqn:E2; [|discriminate]. apply first_alt_some in E2.
      pose proof (conv_tail_suffix E r1) as T. destruct (conv_tail E r1) as [cv r2]. cbn [snd] in T.
      pose proof (width_tail_suffix E r2) as T2. destruct (width_tail E r2) as [w r3]. cbn [snd] in T2.
      intros [= <- <-]. apply suffix_cons. eapply suffix_trans; [exact T2|]. eapply suffix_trans; [exact T|]. exists (dir_str_name d). exact E2.
Qed.

(** -- replacing from the last match to the first is expanding the segments -- *)
Lemma replace_spec E i spec : forall ys, StronglySorted Z.lt ys -> (forall y, In y ys -> 0 <= y < zlen spec) ->
  fmt_replace E i (fmt_matches E spec ys) spec = (do R <- expand_all E i (segs spec ys); Ok (zsub spec 0 (hd_or (zlen spec) ys) ++ R)).
Proof.
  induction ys as [|a ys IH]; intros S B.
  - cbn [fmt_matches fmt_replace segs expand_all bind hd_or]. rewrite zsub_full, app_nil_r. reflexivity.
  - inversion S as [|? ? S' F]; subst. assert (B' : forall y, In y ys -> 0 <= y < zlen spec) by (intros y I; apply B; right; exact I).
    specialize (IH S' B'). pose proof (B a (or_introl eq_refl)) as Ba. cbn [fmt_matches segs expand_all hd_or].
    set (n := hd_or (zlen spec) ys) in *.
    assert (Hn : a < n <= zlen spec).
    { unfold n. destruct ys as [|b ys]; cbn [hd_or]; [lia|]. inversion F; subst. specialize (B' b (or_introl eq_refl)). lia. }
    assert (Es : py_slice spec (Some a) (match ys with [] => None | b :: _ => Some b end) = zsub spec a n).
    { unfold n. destruct ys as [|b ys]; cbn [hd_or]; [apply slice_from; lia|]. apply py_slice_in; [|specialize (B' b (or_introl eq_refl)); lia].
      inversion F; subst. lia. }
    rewrite Es. clear Es. unfold expand at 1.
    destruct (fmt_match E (zsub spec a n)) as [[it rest]|] eqn:Em.
    + cbn [app fmt_replace]. rewrite IH. destruct (expand_all E i (segs spec ys)) as [R|e]; cbn [bind]; [|reflexivity].
      destruct (fmt_item E i it) as [v|e]; cbn [bind]; [|reflexivity]. f_equal.
      apply fmt_match_suffix in Em. destruct Em as [u Eu].
      assert (Ln : zlen (zsub spec a n) = n - a) by (apply zsub_len; lia).
      assert (Lu : zlen u + zlen rest = n - a) by (rewrite <- Ln, Eu, zlen_app; reflexivity).
      rewrite Ln. pose proof (zlen_nonneg u). pose proof (zlen_nonneg rest). pose proof (zlen_nonneg R).
      assert (L0 : zlen (zsub spec 0 n ++ R) = n + zlen R) by (rewrite zlen_app, zsub_len by lia; lia).
      rewrite slice_to by lia. rewrite slice_from by lia.
      replace (a + (n - a) - zlen rest) with (a + zlen u) by lia.
      rewrite zsub_app_1 by (rewrite ?zsub_len by lia; lia). rewrite zsub_zsub by lia. replace (0 + a) with a by lia. rewrite Z.add_0_l.
      f_equal. rewrite <- app_assoc. f_equal.
      rewrite L0. rewrite <- (zsub_app_split _ (a + zlen u) n (n + zlen R)) by lia.
      rewrite zsub_app_1 by (rewrite ?zsub_len by lia; lia). rewrite zsub_zsub by lia. rewrite !Z.add_0_l.
      assert (Er : zsub spec (a + zlen u) n = rest).
      { assert (X : zsub (zsub spec a n) (zlen u) (n - a) = rest).
        { rewrite Eu. replace (zlen u) with (zlen u + 0) at 1 by lia. rewrite <- Lu, zsub_app_2 by lia. apply zsub_full. }
        rewrite zsub_zsub in X by lia. rewrite <- X. f_equal. lia. }
      rewrite Er. f_equal.
      replace n with (zlen (zsub spec 0 n) + 0) at 2 by (rewrite zsub_len; lia). replace (n + zlen R) with (zlen (zsub spec 0 n) + zlen R) by (rewrite zsub_len; lia).
      rewrite zsub_app_2 by lia. apply zsub_full.
    + cbn [app]. rewrite IH. destruct (expand_all E i (segs spec ys)) as [R|e]; cbn [bind]; [|reflexivity].
      f_equal. rewrite app_assoc. f_equal. symmetry. apply zsub_app_split; lia.
Qed.
Lemma format_expand E i spec : spec <> [] -> ito_format E i spec =
  (do R <- expand_all E i (segs spec (escan 37 0 spec false)); Ok (zsub spec 0 (hd_or (zlen spec) (escan 37 0 spec false)) ++ R)).
Proof.
  intros N. unfold ito_format. destruct spec as [|c spec]; [congruence|]. rewrite find_escapes_str.
  destruct (escan_sorted (c :: spec)) as [S B]. apply replace_spec; assumption.
Qed.

(** -- homomorphism -- *)
Lemma segs_shift a b : forall ys, (forall y, In y ys -> 0 <= y) -> segs (a ++ b) (map (fun y => y + zlen a) ys) = segs b ys.
Proof.
  induction ys as [|y ys IH]; intros P; cbn [map segs]; [reflexivity|]. pose proof (P y (or_introl eq_refl)) as Py.
  rewrite IH by (intros z I; apply P; right; exact I). f_equal.
  assert (H : hd_or (zlen (a ++ b)) (map (fun y => y + zlen a) ys) = zlen a + hd_or (zlen b) ys).
  { destruct ys; cbn [map hd_or]; [apply zlen_app|lia]. }
  rewrite H, Z.add_comm, zsub_app_2 by lia. reflexivity.
Qed.
Lemma segs_left a b ys' : (exists r, ys' = zlen a :: r) -> forall ys, (forall y, In y ys -> 0 <= y <= zlen a) ->
  segs (a ++ b) (ys ++ ys') = segs a ys ++ segs (a ++ b) ys'.
Proof.
  intros [r ->]. induction ys as [|y ys IH]; intros P; cbn [app segs]; [reflexivity|].
  rewrite IH by (intros z I; apply P; right; exact I). cbn [app]. f_equal.
  pose proof (P y (or_introl eq_refl)). destruct ys as [|z ys]; cbn [app hd_or]; apply zsub_app_1; try lia. apply P. right. left. reflexivity.
Qed.
Theorem format_app E i a b : a <> [] -> closed_end a -> lone b ->
  ito_format E i (a ++ b) = (do y <- ito_format E i b; do x <- ito_format E i a; Ok (x ++ y)).
Proof.
  intros NA C L. assert (NB : b <> []) by (destruct L as (c & r & -> & _); discriminate).
  rewrite !format_expand; auto; [|destruct a; [congruence|discriminate]].
  rewrite escan_app, (end_closed a C). replace (0 + zlen a) with (0 + zlen a) by lia. rewrite (escan_shift 37 b 0 (zlen a) false).
  destruct (escan_sorted a) as [_ Ba]. destruct (escan_sorted b) as [_ Bb]. destruct (escan_lone b 0 L) as [rb Eb].
  set (ya := escan 37 0 a false) in *. set (yb := escan 37 0 b false) in *.
  rewrite (segs_left a b).
  - rewrite segs_shift by (intros y I; apply Bb in I; lia). rewrite expand_all_app.
    destruct (expand_all E i (segs b yb)) as [R|e]; cbn [bind]; [|reflexivity].
    destruct (expand_all E i (segs a ya)) as [Q|e]; cbn [bind]; [|reflexivity]. f_equal.
    rewrite Eb. cbn [hd_or]. rewrite (zsub_nil b 0 0) by lia. cbn [app]. rewrite app_assoc. f_equal. f_equal.
    destruct ya as [|y ya']; cbn [app map hd_or].
    + rewrite Z.add_0_l. apply zsub_app_1; lia.
    + apply zsub_app_1; [lia|]. pose proof (Ba y (or_introl eq_refl)). lia.
  - rewrite Eb. cbn [map]. rewrite Z.add_0_l. eexists. reflexivity.
  - intros y I. apply Ba in I. lia.
Qed.
(** no directive: the text itself *)
Lemma escan_none s : (forall k, ~ lone_escape 37 s 0 (zlen s) k) -> escan 37 0 s false = [].
Proof.
  intros H. pose proof (escan_spec 37 s []) as [S P]. cbn [app] in *. rewrite zlen_nil in *. change (Nat.odd (esc_run 37 [])) with false in *.
  destruct (escan 37 0 s false) as [|y ys]; [reflexivity|]. destruct (P y) as [P1 _]. destruct (P1 (or_introl eq_refl)) as [_ X]. destruct (H y X).
Qed.
Theorem format_plain E i s : s <> [] -> (forall k, ~ lone_escape 37 s 0 (zlen s) k) -> ito_format E i s = Ok s.
Proof.
  intros N H. rewrite format_expand by exact N. rewrite (escan_none s H). cbn [segs expand_all bind hd_or]. rewrite zsub_full, app_nil_r. reflexivity.
Qed.
(** one directive and nothing else to escape *)
Lemma escan_no_pct s : ~ In 37 s -> forall k, escan 37 k s false = [].
Proof.
  induction s as [|c s IH]; intros N k; cbn [escan]; [reflexivity|]. destruct (Z.eqb_spec c 37) as [->|]; [destruct N; left; reflexivity|].
  apply IH. intros I. apply N. right. exact I.
Qed.
Lemma format_one E i s : s <> [] -> ~ In 37 s -> ito_format E i (37 :: s) = expand E i (37 :: s).
Proof.
  intros N H. rewrite format_expand by discriminate.
  assert (Es : escan 37 0 (37 :: s) false = [0]).
  { cbn [escan Z.eqb Pos.eqb negb]. destruct s as [|c s]; [congruence|]. cbn [escan]. destruct (Z.eqb_spec c 37) as [->|]; [destruct H; left; reflexivity|].
    rewrite escan_no_pct by (intros I; apply H; right; exact I). reflexivity. }
  rewrite Es. cbn [segs expand_all bind hd_or]. rewrite zsub_full, (zsub_nil _ 0 0) by lia. destruct (expand E i (37 :: s)) as [v|e]; cbn [bind]; [|reflexivity].
  rewrite app_nil_r. reflexivity.
Qed.
