(** Proofs about the highlighter (C60) and SGR codes (C67). *)
From Verif Require Export SpecHighlight ArborFacts4 QueryFacts14.

Fixpoint picked (pred : nat -> bool) (rs : list paint_run) : nat :=
  match rs with [] => O | (o, _) :: r => if pred o then S (picked pred r) else picked pred r end.
Lemma coloured_app s pred pal reset a : forall k b,
  coloured s pred pal reset k (a ++ b) = coloured s pred pal reset k a ++ coloured s pred pal reset (k + picked pred a) b.
Proof.
  induction a as [|[o [x y]] a IH]; intros k b; cbn [app coloured picked].
  - rewrite Nat.add_0_r. reflexivity.
  - destruct (pred o); rewrite IH; rewrite <- !app_assoc; [|reflexivity]. replace (k + S (picked pred a))%nat with (S k + picked pred a)%nat by lia. reflexivity.
Qed.
Lemma picked_app pred a b : picked pred (a ++ b) = (picked pred a + picked pred b)%nat.
Proof. induction a as [|[o x] a IH]; cbn [app picked]; [reflexivity|]. destruct (pred o); rewrite IH; reflexivity. Qed.

Section Print.
Context (h : heap) (H : hwf h) (pred : nat -> bool) (backs : list pystr) (HB : backs <> []).

Definition shows (f : nat -> painted) (s : pystr) (rs : list paint_run) : Prop :=
  forall k, f k = (coloured s pred backs (pl_reset back) k rs, (k + picked pred rs)%nat, None).
Lemma shows_nil f s : shows f s [] <-> forall k, f k = ([], k, None).
Proof. unfold shows. cbn [coloured picked]. split; intros E k; rewrite E; f_equal; f_equal; lia. Qed.
Lemma shows_then f g s rs rs' : shows f s rs -> shows g s rs' -> shows (fun k => p_then (f k) g) s (rs ++ rs').
Proof. intros F G k. rewrite F. cbn [p_then]. rewrite G, coloured_app, picked_app, Nat.add_assoc. reflexivity. Qed.
Lemma compose_shows i a b : 0 <= a <= b -> b <= zlen (h_string h i) ->
  shows (hl_compose h pred backs i a b) (h_string h i) [(i, (a, b))].
Proof.
  intros A B k. unfold hl_compose. rewrite py_slice_in by lia. cbn [coloured picked].
  destruct (pred i); cbn [coloured picked]; [|rewrite app_nil_r, Nat.add_0_r; reflexivity].
  assert (L : (k mod length backs < length backs)%nat) by (apply Nat.mod_upper_bound; destruct backs; [congruence|discriminate]).
  rewrite (nth_error_nth' backs [] L), !app_nil_r, Nat.add_1_r. reflexivity.
Qed.

Definition covers (i : nat) (A B : Z) (rs : list paint_run) : Prop :=
  tiles_from A (map snd rs) B /\ Forall (deepest h i) rs /\ Forall (uncut h i) rs.
Lemma anc_in i x : anc h i x -> h_start h i <= h_start h x /\ h_stop h x <= h_stop h i.
Proof.
  intros A. induction A as [x E|x p E A IH].
  - apply (hwf_par h H) in E. destruct E as [E _]. apply (hwf_kid h H) in E. destruct E as (_ & (_ & F) & _). exact F.
  - apply (hwf_par h H) in E. destruct E as [E _]. apply (hwf_kid h H) in E. destruct E as (_ & (_ & F) & _). lia.
Qed.
Lemma span_le x : h_start h x <= h_stop h x.
Proof. destruct (hwf_span h H x). unfold h_start, h_stop. lia. Qed.
(** a descendant of i is under one of its children *)
Lemma anc_kid i x : anc h i x -> exists c, In c (n_kids (nd h i)) /\ (x = c \/ anc h c x).
Proof.
  intros A. induction A as [x E|x p E A IH].
  - exists x. split; [apply (hwf_par h H) in E; apply E|left; reflexivity].
  - destruct IH as (c & Ic & D). exists c. split; [exact Ic|]. right. destruct D as [->|D]; [apply anc_parent; exact E|eapply anc_up; eassumption].
Qed.
Lemma kid_sub i c x : In c (n_kids (nd h i)) -> (x = c \/ anc h c x) -> h_start h c <= h_start h x /\ h_stop h x <= h_stop h c.
Proof. intros _ [->|A]; [lia|apply anc_in; exact A]. Qed.
Lemma deepest_up i c r : In c (n_kids (nd h i)) -> deepest h c r -> deepest h i r.
Proof.
  intros Ic. destruct r as [o [a b]]. intros (D & X). split; [|exact X]. right.
  pose proof (hwf_kid h H _ _ Ic) as (P & _). destruct D as [->|D]; [apply anc_parent; exact P|].
  eapply anc_trans; [apply anc_parent; exact P|exact D].
Qed.
(** the run of i between children: children before end at or before a, children after start at or after b *)
Lemma own_run i a b : h_start h i <= a -> b <= h_stop h i ->
  (forall c, In c (n_kids (nd h i)) -> h_stop h c <= a \/ b <= h_start h c) -> deepest h i (i, (a, b)) /\ uncut h i (i, (a, b)).
Proof.
  intros A B C. split; [split; [left; reflexivity|auto]|]. intros x [->|X]; [lia|].
  apply anc_kid in X. destruct X as (c & Ic & X). pose proof (kid_sub i c x Ic X) as K. pose proof (span_le x). specialize (C c Ic). lia.
Qed.
(** a run inside a child c of i is not cut by anything in i *)
Lemma uncut_up i c l r o a b : n_kids (nd h i) = l ++ c :: r -> h_start h c <= a -> b <= h_stop h c -> uncut h c (o, (a, b)) -> uncut h i (o, (a, b)).
Proof.
  intros E A B U x X. destruct X as [->|X].
  - assert (Ic : In c (n_kids (nd h i))) by (rewrite E; apply in_or_app; right; left; reflexivity).
    apply (hwf_kid h H) in Ic. destruct Ic as (_ & (_ & F) & _). lia.
  - apply anc_kid in X. destruct X as (c' & Ic & X). pose proof (kid_sub i c' x Ic X) as K. pose proof (span_le x) as Sx.
    pose proof (hwf_sorted h H i) as SS. unfold kids_sorted in SS. rewrite E in SS, Ic. apply in_app_or in Ic.
    destruct Ic as [Ic|[->|Ic]].
    + apply SS_app_inv in SS. destruct SS as (_ & _ & SS). specialize (SS c' c Ic (or_introl eq_refl)). destruct SS. lia.
    + apply U. exact X.
    + apply SS_app_inv in SS. destruct SS as (_ & SS & _). inversion SS as [|? ? _ F]; subst. rewrite Forall_forall in F. destruct (F _ Ic). pose proof (span_le c). lia.
Qed.
Lemma tiles_bounds l : forall A B, tiles_from A l B -> A <= B /\ forall a b, In (a, b) l -> A <= a /\ b <= B.
Proof.
  induction l as [|[a b] l IH]; intros A B; cbn [tiles_from]; [intros ->; split; [lia|intros ? ? []]|].
  intros (-> & L & T). apply IH in T. destruct T as [L2 T]. split; [lia|]. intros a' b' [[= <- <-]|I]; [lia|]. apply T in I. lia.
Qed.

Definition prints (f : nat -> painted) (i : nat) : Prop :=
  exists rs, shows f (h_string h i) rs /\ covers i (h_start h i) (h_stop h i) rs.

Lemma gaps_prints f i : forall done kids last, n_kids (nd h i) = done ++ kids ->
  Forall (fun c => prints (f c) c) kids ->
  h_start h i <= last -> (forall c, In c done -> h_stop h c <= last) -> (forall c, In c kids -> last <= h_start h c) -> last <= h_stop h i ->
  exists rs, shows (hl_gaps f h pred backs i kids last) (h_string h i) rs /\ covers i last (h_stop h i) rs.
Proof.
  intros done kids. revert done. destruct (hwf_span h H i) as [S1 S2]. change (f_start (n_f (nd h i))) with (h_start h i) in S1. 
  change (f_stop (n_f (nd h i))) with (h_stop h i) in S1, S2. change (f_str (n_f (nd h i))) with (h_string h i) in S2.
  induction kids as [|c kids IH]; intros done last E FP L0 L1 L2 L3.
  - destruct (Z.ltb_spec last (h_stop h i)) as [L|L].
    + exists [(i, (last, h_stop h i))]. split.
      * intros k. cbn [hl_gaps]. rewrite (proj2 (Z.ltb_lt _ _) L). apply compose_shows; lia.
      * assert (O : deepest h i (i, (last, h_stop h i)) /\ uncut h i (i, (last, h_stop h i))).
        { apply own_run; try lia. intros c Ic. rewrite E, app_nil_r in Ic. left. apply L1. exact Ic. }
        split; [cbn; lia|]. split; (constructor; [apply O|constructor]).
    + exists []. split; [apply shows_nil; intros k; cbn [hl_gaps]; rewrite (proj2 (Z.ltb_ge _ _) L); reflexivity|].
      split; [cbn; lia|]. split; constructor.
  - inversion_clear FP as [|? ? Pc Pk].
    assert (Ic : In c (n_kids (nd h i))) by (rewrite E; apply in_or_app; right; left; reflexivity).
    pose proof (hwf_kid h H _ _ Ic) as (_ & (Fs & Fb) & _). pose proof (span_le c) as Sc.
    pose proof (hwf_sorted h H i) as SS. unfold kids_sorted in SS. rewrite E in SS. apply SS_app_inv in SS. destruct SS as (_ & SS & _).
    inversion SS as [|? ? _ SF]; subst. rewrite Forall_forall in SF.
    assert (Lc : last <= h_start h c) by (apply L2; left; reflexivity).
    destruct (IH (done ++ [c]) (h_stop h c)) as (rs & Sh & Cv).
    { rewrite <- app_assoc. exact E. } { exact Pk. } { lia. }
    { intros x Ix. apply in_app_or in Ix. destruct Ix as [Ix|[->|[]]]; [specialize (L1 x Ix); lia|lia]. }
    { intros x Ix. destruct (SF x Ix). lia. } { lia. }
    destruct Pc as (rc & Shc & Tc & Dc & Uc).
    assert (P0 : exists r0, shows (fun k => if last <? h_start h c then hl_compose h pred backs i last (h_start h c) k else ([], k, None)) (h_string h i) r0 /\ covers i last (h_start h c) r0).
    { destruct (Z.ltb_spec last (h_start h c)) as [L|L].
      - exists [(i, (last, h_start h c))]. split; [apply compose_shows; lia|].
        assert (O : deepest h i (i, (last, h_start h c)) /\ uncut h i (i, (last, h_start h c))).
        { apply own_run; try lia. intros x Ix. rewrite E in Ix. apply in_app_or in Ix. destruct Ix as [Ix|[->|Ix]]; [left; apply L1; exact Ix|right; lia|].
          destruct (SF x Ix). right. lia. }
        split; [cbn; lia|]. split; (constructor; [apply O|constructor]).
      - exists []. split; [apply shows_nil; reflexivity|]. split; [cbn; lia|]. split; constructor. }
    destruct P0 as (r0 & Sh0 & T0 & D0 & U0). destruct Cv as (T1 & D1 & U1).
    exists (r0 ++ rc ++ rs). split.
    + rewrite Fs in Shc. exact (shows_then _ _ _ _ _ Sh0 (shows_then _ _ _ _ _ Shc Sh)).
    + split; [|split].
      * rewrite !map_app. eapply tiles_app; [exact T0|]. eapply tiles_app; [exact Tc|exact T1].
      * apply Forall_app. split; [exact D0|]. apply Forall_app. split; [|exact D1].
        eapply Forall_impl; [|exact Dc]. intros r. apply deepest_up. exact Ic.
      * apply Forall_app. split; [exact U0|]. apply Forall_app. split; [|exact U1]. rewrite Forall_forall in *.
        intros [o [a b]] Ir. apply (uncut_up i c done kids o a b E); [| |apply (Uc _ Ir)];
        destruct (tiles_bounds _ _ _ Tc) as [_ TB]; destruct (TB a b); try lia; apply (in_map snd) in Ir; exact Ir.
Qed.

Lemma print_tree t : forall fuel i, rep h t i -> (t_height t < fuel)%nat -> prints (hl_print fuel h pred backs i) i.
Proof.
  induction t as [f ts IH] using tree_ind'. intros [|fuel] i R L; [lia|]. apply rep_unfold in R. destruct R as [Ef F].
  apply (gaps_prints (hl_print fuel h pred backs) i [] (n_kids (nd h i)) (h_start h i)); [reflexivity| |lia|intros c []| |apply span_le].
  - apply Forall_forall. intros c Ic. destruct (Forall2_in_r _ _ _ c F Ic) as (t & It & Rt). rewrite Forall_forall in IH.
    apply (IH t It fuel c Rt). pose proof (t_height_kids f ts t It). lia.
  - intros c Ic. apply (hwf_kid h H) in Ic. destruct Ic as (_ & (_ & Fc) & _). lia.
Qed.
End Print.

Theorem highlight_full h pred backs i : hwf h -> acyclic h -> (i < length h)%nat -> backs <> [] ->
  exists rs, highlight h pred backs i = (coloured (h_string h i) pred backs (pl_reset back) 0 rs, None) /\
    tiles_from (h_start h i) (map snd rs) (h_stop h i) /\ Forall (deepest h i) rs /\ Forall (uncut h i) rs.
Proof.
  intros H Ha Hi HB. destruct (rep_ex h i H Ha Hi) as (t & R & L).
  destruct (print_tree h H pred backs HB t (depth_fuel h) i R) as (rs & S & C); [unfold depth_fuel; lia|].
  exists rs. split; [|exact C]. unfold highlight. rewrite S. reflexivity.
Qed.

(** -- codes -- *)
Lemma int_str_chars n c : In c (int_str n) -> 48 <= c <= 57 \/ c = 45.
Proof. destruct n; cbn [int_str]; [intros [<-|[]]; left; lia| |]; intros I; [left; exact (uint_digits _ _ I)|]. destruct I as [<-|I]; [right; reflexivity|left; exact (uint_digits _ _ I)]. Qed.
Lemma py_join_in sep l c : In c (py_join sep l) -> In c sep \/ exists x, In x l /\ In c x.
Proof.
  induction l as [|x l IH]; cbn [py_join]; [intros []|]. destruct l as [|y l]; [intros I; right; exists x; split; [left; reflexivity|exact I]|].
  intros I. apply in_app_or in I. destruct I as [I|I]; [right; exists x; split; [left; reflexivity|exact I]|].
  apply in_app_or in I. destruct I as [I|I]; [left; exact I|]. destruct (IH I) as [J|(z & Z1 & Z2)]; [left; exact J|right; exists z; split; [right; exact Z1|exact Z2]].
Qed.
Lemma strip_in_code u : forall r, ~ In 109 u -> strip_codes true (u ++ 109 :: r) = strip_codes false r.
Proof.
  induction u as [|c u IH]; intros r N; cbn [app strip_codes]; [reflexivity|]. destruct (Z.eqb_spec c 109) as [->|]; [destruct N; left; reflexivity|].
  cbn [negb]. apply IH. intros I. apply N. right. exact I.
Qed.
Lemma strip_encode n r : strip_codes false (sgr_encode n ++ r) = strip_codes false r.
Proof.
  unfold sgr_encode. rewrite <- !app_assoc. cbn [app]. cbn [strip_codes Z.eqb Pos.eqb]. cbn [lit]. 
  match goal with |- context [?u ++ _] => change (u ++ lit "m" ++ r) with (u ++ 109 :: r) end.
  cbn [negb Z.eqb]. apply strip_in_code. intros I.
  assert (K : forall l, In 109 (py_join (lit ";") (map int_str l)) -> False).
  { intros l J. apply py_join_in in J. destruct J as [[J|[]]|(x & X1 & X2)]; [discriminate|].
    apply in_map_iff in X1. destruct X1 as (z & <- & _). apply int_str_chars in X2. lia. }
  destruct n as [|z n]; [destruct I as [I|[]]; discriminate|exact (K _ I)].
Qed.
Lemma strip_plain u r : ~ In 27 u -> strip_codes false (u ++ r) = u ++ strip_codes false r.
Proof.
  induction u as [|c u IH]; cbn [app strip_codes]; intros N; [reflexivity|]. destruct (Z.eqb_spec c 27) as [->|]; [destruct N; left; reflexivity|].
  f_equal. apply IH. intros I. apply N. right. exact I.
Qed.
Definition is_code (s : pystr) : Prop := exists n, s = sgr_encode n.
Lemma hl_init_codes pal : forall l, hl_init pal = Ok l -> Forall is_code l /\ length l = length pal.
Proof.
  induction pal as [|c pal IH]; intros l; cbn [hl_init]; [intros [= <-]; split; [constructor|reflexivity]|].
  destruct (from_color back c) as [s|] eqn:E; cbn [bind]; [|discriminate]. destruct (hl_init pal) as [l'|]; cbn [bind]; [|discriminate].
  intros [= <-]. destruct (IH l' eq_refl) as [F L]. split; [|cbn; lia]. constructor; [|exact F].
  destruct c; cbn [from_color] in E; try discriminate; injection E as <-; eexists; reflexivity.
Qed.
Lemma strip_coloured s pred backs : Forall is_code backs -> backs <> [] -> forall rs A B k, 0 <= A -> B <= zlen s ->
  tiles_from A (map snd rs) B -> ~ In 27 (zsub s A B) -> strip_codes false (coloured s pred backs (pl_reset back) k rs) = zsub s A B.
Proof.
  intros FC NE. induction rs as [|[o [a b]] rs IH]; intros A B k HA HB T N.
  - cbn in T. subst B. cbn. unfold zsub. rewrite Z.sub_diag. reflexivity.
  - cbn [map snd tiles_from] in T. destruct T as (-> & L & T). destruct (tiles_bounds _ _ _ T) as [LB _].
    rewrite <- (zsub_app_split s A b B) by lia. rewrite <- (zsub_app_split s A b B) in N by lia.
    assert (N1 : ~ In 27 (zsub s A b)) by (intros I; apply N, in_or_app; left; exact I).
    assert (N2 : ~ In 27 (zsub s b B)) by (intros I; apply N, in_or_app; right; exact I).
    cbn [coloured]. destruct (pred o).
    + assert (M : (k mod length backs < length backs)%nat) by (apply Nat.mod_upper_bound; destruct backs; [congruence|discriminate]).
      rewrite Forall_forall in FC. destruct (FC _ (nth_In backs [] M)) as [n ->].
      rewrite strip_encode, strip_plain by exact N1. f_equal. cbn [pl_reset back]. rewrite strip_encode. apply IH; try lia; assumption.
    + rewrite strip_plain by exact N1. f_equal. apply IH; try lia; assumption.
Qed.
Theorem highlight_text h pred pal backs i : hwf h -> acyclic h -> (i < length h)%nat -> pal <> [] -> hl_init pal = Ok backs ->
  ~ In 27 (ito_str (n_f (nd h i))) ->
  exists out, highlight h pred backs i = (out, None) /\ strip_codes false out = ito_str (n_f (nd h i)).
Proof.
  intros H Ha Hi NP E N. destruct (hl_init_codes pal backs E) as [F L].
  assert (NB : backs <> []) by (intros ->; destruct pal; [congruence|discriminate]).
  destruct (highlight_full h pred backs i H Ha Hi NB) as (rs & -> & T & _). eexists. split; [reflexivity|].
  pose proof (hwf_span h H i) as W. rewrite (ito_str_zsub _ W) in N |- *. destruct W as [W1 W2].
  apply (strip_coloured _ pred backs F NB rs _ _ 0%nat); [unfold h_start; lia|unfold h_string, h_stop; lia|exact T|exact N].
Qed.
Theorem cycle_differs (backs : list pystr) k : NoDup backs -> (2 <= length backs)%nat ->
  nth (k mod length backs) backs [] <> nth (S k mod length backs) backs [].
Proof.
  intros N L E. set (n := length backs) in *. assert (P : n <> 0%nat) by lia.
  pose proof (Nat.mod_upper_bound k n P) as B1. pose proof (Nat.mod_upper_bound (S k) n P) as B2.
  rewrite (NoDup_nth backs []) in N. specialize (N _ _ B1 B2 E).
  pose proof (Nat.div_mod k n P) as D1. pose proof (Nat.div_mod (S k) n P) as D2. rewrite <- N in D2.
  assert (n * (S k / n) = 1 + n * (k / n))%nat by lia.
  assert (Q : (n * (S k / n - k / n) = 1)%nat) by (rewrite Nat.mul_sub_distr_l; lia).
  apply Nat.eq_mul_1 in Q. lia.
Qed.
