(** What each key of a filter means. *)
From Coq Require DecimalNat DecimalFacts.
From Verif Require Export QueryFacts13.

Lemma pieces_values vs : vs <> [] -> pieces (value_list vs) = (map escape vs, None).
Proof.
  intros H. unfold pieces, value_list. destruct (scan_join vs H) as (E1 & E2 & E3). change (lit ",") with [44] in *. change (lit "\") with [92]. set (t := py_join [44] (map escape vs)) in *.
  pose proof (split_unescaped_pieces (UStr t) 44 92 None None I) as (P1 & _ & _). pose proof (find_unescaped_scan (UStr t) [44] 92 None None I ltac:(discriminate)) as EF. cbv zeta in *. cbn [u_text] in *.
  assert (EI : from_indices (zlen t) None None = (0, zlen t)) by (unfold from_indices; pose proof (zlen_nonneg t); f_equal; lia).
  rewrite EI in EF. cbn [fst snd] in EF. rewrite zsub_full in EF. pose proof (find_unescaped_spec (UStr t) [44] 92 None None I ltac:(discriminate)) as (_ & _ & HL). cbn [u_text] in HL. rewrite EF in HL. cbn [snd] in HL. rewrite E1 in HL.
  destruct (P1 (proj1 HL eq_refl)) as [Q1 Q2]. rewrite EF in Q2. cbn [fst] in Q2. rewrite E2 in Q2. destruct (split_unescaped (UStr t) [44] [92] None None) as [ps er]. cbn [fst snd] in *. subst er.
  f_equal. exact Q2.
Qed.
Lemma map_list_descape {A} (k : pystr -> A) vs : map_list (fun s => do d <- descape s; Ok (k d)) (map escape vs) None = Ok (map k vs).
Proof. induction vs as [|v vs IH]; [reflexivity|]. cbn [map map_list]. rewrite descape_escape. cbn [bind]. rewrite IH. reflexivity. Qed.
Lemma descaped_values vs : vs <> [] -> descaped (value_list vs) = Ok vs.
Proof.
  intros H. unfold descaped, g_map. rewrite (pieces_values vs H). cbn [fst snd]. rewrite (map_list_ext descape (fun s => do d <- descape s; Ok ((fun d => d) d))) by (intros x _; destruct (descape x); reflexivity).
  rewrite map_list_descape, map_id. reflexivity.
Qed.
Lemma any_list_descape (k : pystr -> bool) vs : any_list (fun s => do d <- descape s; Ok (k d)) (map escape vs) None = Ok (existsb k vs).
Proof. induction vs as [|v vs IH]; [reflexivity|]. cbn [map any_list existsb]. rewrite descape_escape. cbn [bind]. destruct (k v); [reflexivity|exact IH]. Qed.
Lemma any_list_ext {A} (f g : A -> res bool) l e : (forall x, In x l -> f x = g x) -> any_list f l e = any_list g l e.
Proof. induction l as [|x l IH]; intros H; [reflexivity|]. cbn [any_list]. rewrite (H x (or_introl eq_refl)), IH; [reflexivity|]. intros y Hy. apply H. right. exact Hy. Qed.
(** casefold of a list of escaped values *)
Lemma flat_map_flat_map {A B C} (f : A -> list B) (g : B -> list C) l : flat_map g (flat_map f l) = flat_map (fun x => flat_map g (f x)) l.
Proof. induction l as [|x l IH]; [reflexivity|]. cbn. rewrite flat_map_app, IH. reflexivity. Qed.
Lemma casefold_values E vs : casefold_ok E -> py_casefold E (value_list vs) = value_list (map (py_casefold E) vs).
Proof.
  intros (cf & C1 & C2 & C3). assert (CE : forall v, py_casefold E (escape v) = escape (py_casefold E v)).
  { intros v. rewrite !C1, !escape_flat, !flat_map_flat_map. apply flat_map_ext'. intros x. unfold esc1 at 1. destruct (mem_char x must_escape) eqn:M.
    - apply mem_char_in in M. cbn [flat_map]. rewrite (C2 x M), (C2 92) by (cbn; tauto). cbn [app flat_map]. unfold esc1. replace (mem_char x must_escape) with true by (symmetry; apply mem_char_in; exact M). reflexivity.
    - cbn [flat_map]. rewrite List.app_nil_r. assert (N : ~ In x must_escape) by (intros C; apply mem_char_in in C; congruence). pose proof (C3 x) as C3x. clear -C3x N.
      assert (Q : forall y, In y (cf x) -> esc1 y = [y]). { intros y Hy. unfold esc1. destruct (mem_char y must_escape) eqn:My; [|reflexivity]. apply mem_char_in in My. destruct (C3x y N Hy My). }
      induction (cf x) as [|y l IH]; [reflexivity|]. cbn [flat_map]. rewrite (Q y (or_introl eq_refl)). cbn [app]. f_equal. apply IH; [intros z M Hz; apply (C3x z M); right; exact Hz|intros z Hz; apply Q; right; exact Hz]. }
  unfold value_list. change (lit ",") with [44]. induction vs as [|v vs IH]; [cbn; rewrite C1; reflexivity|]. cbn [map py_join]. destruct vs as [|v2 vs]; [cbn [map]; apply CE|]. cbn [map] in *.
  assert (C44 : py_casefold E [44] = [44]) by (rewrite C1; cbn [flat_map]; rewrite (C2 44) by (cbn; tauto); reflexivity).
  rewrite C1, !flat_map_app, <- !C1, CE, IH, C44. reflexivity.
Qed.
Lemma starts_spec s p : py_startswith s (AStr p) None None = true <-> exists t, s = p ++ t.
Proof.
  unfold py_startswith, py_startswith1. change (adj_start (zlen s) None) with 0. change (adj_end (zlen s) None) with (zlen s). rewrite <- prefixb_spec, prefixb_zsub. cbn [Z.add].
  destruct (Z.ltb_spec (zlen s - zlen p) 0) as [L|L]; [split; [discriminate|lia]|]. rewrite eqb_str_eq. split; [intros H; split; [lia|exact H]|intros [_ H]; exact H].
Qed.
Lemma ends_spec s p : py_endswith s (AStr p) None None = true <-> exists t, s = t ++ p.
Proof.
  unfold py_endswith, py_endswith1. change (adj_start (zlen s) None) with 0. change (adj_end (zlen s) None) with (zlen s). pose proof (zlen_nonneg p).
  destruct (Z.ltb_spec (zlen s - zlen p) 0) as [L|L].
  - split; [discriminate|]. intros (t & ->). rewrite zlen_app in L. pose proof (zlen_nonneg t). lia.
  - rewrite eqb_str_eq. split.
    + intros Hs. exists (zsub s 0 (zlen s - zlen p)). rewrite <- Hs at 2. rewrite zsub_app_split by lia. symmetry. apply zsub_full.
    + intros (t & ->). rewrite zlen_app. replace (zlen t + zlen p - zlen p) with (zlen t) by lia. rewrite zsub_app_r by (pose proof (zlen_nonneg t); lia). rewrite Z.sub_diag. replace (zlen t + zlen p - zlen t) with (zlen p) by lia. apply zsub_full.
Qed.
Lemma mem_str_In s l : mem_str s l = true <-> In s l.
Proof. unfold mem_str. rewrite existsb_exists. split; [intros (x & Hx & E); apply eqb_str_eq in E; subst; exact Hx|intros H; exists s; split; [exact H|apply eqb_str_eq; reflexivity]]. Qed.

Lemma text_filter E k name vs : key_name k name -> text_key k -> (match k with KCf | KCfSw | KCfEw => casefold_ok E | _ => True end) -> vs <> [] ->
  exists f, filter_func E false name (value_list vs) = Ok f /\
    forall h r ec, hwf h -> exists b, f h r ec = Ok b /\ (b = true <-> exists v, In v vs /\ meaning E h k (snd ec) v).
Proof.
  intros KN TK CF NE. destruct (key_names k name KN) as (FK & _). unfold filter_func. rewrite FK. unfold meaning.
  destruct k; try destruct TK; (eexists; split; [reflexivity|]; intros h r ec H).
  - rewrite (descaped_values vs NE). cbn [bind]. eexists. split; [reflexivity|]. destruct (f_desc (n_f (nd h (snd ec)))) as [d|]; cbn [opt_mem]; [|split; [discriminate|intros (v & _ & C); discriminate]].
    rewrite mem_str_In. split; [intros Hd; exists d; auto|intros (v & Hv & [= <-]); exact Hv].
  - rewrite (descaped_values vs NE). cbn [bind]. eexists. split; [reflexivity|]. rewrite mem_str_In. unfold node_str. split; [intros Hd; eexists; split; [exact Hd|reflexivity]|intros (v & Hv & <-); exact Hv].
  - rewrite (casefold_values E vs CF). unfold g_map. rewrite pieces_values by (destruct vs; [congruence|discriminate]). cbn [fst snd]. rewrite (map_list_descape (py_casefold E)). cbn [bind]. eexists. split; [reflexivity|]. rewrite mem_str_In, map_map. unfold node_str.
    split; [intros Hd; apply in_map_iff in Hd as (v & Hv & Iv); exists v; auto|intros (v & Hv & Ev); apply in_map_iff; exists v; auto].
  - rewrite (casefold_values E vs CF). unfold any_or_none, g_any. rewrite pieces_values by (destruct vs; [congruence|discriminate]). cbn [fst snd].
    rewrite (any_list_descape (fun d => py_endswith (py_casefold E (node_str h (snd ec))) (AStr (py_casefold E d)) None None)). eexists. split; [reflexivity|]. rewrite existsb_exists. unfold node_str.
    split; [intros (x & Hx & Ex); apply in_map_iff in Hx as (v & <- & Iv); apply ends_spec in Ex; exists v; auto|intros (v & Hv & Ev); exists (py_casefold E v); split; [apply in_map; exact Hv|apply ends_spec; exact Ev]].
  - rewrite (casefold_values E vs CF). unfold any_or_none, g_any. rewrite pieces_values by (destruct vs; [congruence|discriminate]). cbn [fst snd].
    rewrite (any_list_descape (fun d => py_startswith (py_casefold E (node_str h (snd ec))) (AStr (py_casefold E d)) None None)). eexists. split; [reflexivity|]. rewrite existsb_exists. unfold node_str.
    split; [intros (x & Hx & Ex); apply in_map_iff in Hx as (v & <- & Iv); apply starts_spec in Ex; exists v; auto|intros (v & Hv & Ev); exists (py_casefold E v); split; [apply in_map; exact Hv|apply starts_spec; exact Ev]].
  - unfold any_or_none, g_any. rewrite (pieces_values vs NE). cbn [fst snd].
    rewrite (any_list_ext _ (fun s => do d <- descape s; Ok (py_endswith (ito_str (n_f (nd h (snd ec)))) (AStr d) None None))).
    2:{ intros s _. destruct (descape s) as [d|]; [|reflexivity]. cbn [bind]. apply str_endswith_eq; [apply (hwf_span h H)|right; exact I]. }
    rewrite (any_list_descape (fun d => py_endswith (ito_str (n_f (nd h (snd ec)))) (AStr d) None None)). eexists. split; [reflexivity|]. rewrite existsb_exists.
    split; [intros (x & Hx & Ex); apply ends_spec in Ex; exists x; auto|intros (v & Hv & Ev); exists v; split; [exact Hv|apply ends_spec; exact Ev]].
  - unfold any_or_none, g_any. rewrite (pieces_values vs NE). cbn [fst snd].
    rewrite (any_list_ext _ (fun s => do d <- descape s; Ok (py_startswith (ito_str (n_f (nd h (snd ec)))) (AStr d) None None))).
    2:{ intros s _. destruct (descape s) as [d|]; [|reflexivity]. cbn [bind]. apply str_startswith_eq; [apply (hwf_span h H)|right; exact I]. }
    rewrite (any_list_descape (fun d => py_startswith (ito_str (n_f (nd h (snd ec)))) (AStr d) None None)). eexists. split; [reflexivity|]. rewrite existsb_exists.
    split; [intros (x & Hx & Ex); apply starts_spec in Ex; exists x; auto|intros (v & Hv & Ev); exists v; split; [exact Hv|apply starts_spec; exact Ev]].
Qed.
(** the results of axis[name:v1,...] *)
Lemma find_values E h r i a w k name vs ys : plain_delims E -> hwf h -> axis_text a w -> printable E w -> key_name k name -> text_key k ->
  (match k with KCf | KCfSw | KCfEw => casefold_ok E | _ => True end) -> vs <> [] -> writable E (value_list vs) -> axis_find h a ([i], None) = (ys, None) ->
  exists b, ito_find_all E h r i (w ++ written name (value_list vs)) = (map snd (filter b ys), None) /\ forall ec, b ec = true <-> exists v, In v vs /\ meaning E h k (snd ec) v.
Proof.
  intros HE H HA PR KN TK CF NE W AX. destruct (text_filter E k name vs KN TK CF NE) as (f & F1 & F2). destruct (key_names k name KN) as (_ & K1 & K2).
  exists (fun ec => match f h r ec with Ok b => b | Err _ => false end). split.
  - apply (find_written E h r i a w name (value_list vs) f ys); try assumption; [apply value_safe|]. intros ec _. destruct (F2 h r ec H) as (b & -> & _). reflexivity.
  - intros ec. destruct (F2 h r ec H) as (b & -> & B). exact B.
Qed.

(** -- index ranges -- *)
Lemma find_char_none c s : ~ In c s -> find_in [c] s = None.
Proof.
  induction s as [|x s IH]; intros H; [reflexivity|]. cbn [find_in]. rewrite prefixb_one. replace (c =? x) with false by (symmetry; apply Z.eqb_neq; intros ->; apply H; left; reflexivity).
  rewrite IH by (intros C; apply H; right; exact C). reflexivity.
Qed.
Lemma split_join_fuel c l : l <> [] -> (forall s, In s l -> ~ In c s) -> forall n m, m < 0 -> (length (py_join [c] l) < n)%nat -> py_split_fuel n (py_join [c] l) [c] m = l.
Proof.
  induction l as [|s l IH]; [congruence|]. intros _ H n m M L. destruct n as [|n]; [lia|]. cbn [py_split_fuel]. replace (m =? 0) with false by (symmetry; apply Z.eqb_neq; lia).
  pose proof (H s (or_introl eq_refl)) as Hs. destruct l as [|s2 l]; [cbn [py_join] in *; rewrite (find_char_none c s Hs); reflexivity|].
  change (py_join [c] (s :: s2 :: l)) with (s ++ [c] ++ py_join [c] (s2 :: l)) in *. cbn [app] in *. rewrite (find_char c s _ Hs), zsub_pre, zsub_post. f_equal.
  apply IH; [discriminate|intros x Hx; apply H; right; exact Hx|lia|]. rewrite app_length in L. cbn [length] in L. lia.
Qed.
Lemma split_join c l : l <> [] -> (forall s, In s l -> ~ In c s) -> py_split (py_join [c] l) [c] (-1) = l.
Proof. intros H1 H2. unfold py_split. apply split_join_fuel; [assumption|assumption|lia|lia]. Qed.
Lemma uint_digits u c : In c (uint_str u) -> 48 <= c <= 57.
Proof. induction u; cbn; [tauto|..]; intros [<-|H]; try lia; auto. Qed.
Lemma dec_digits n c : In c (dec n) -> 48 <= c <= 57.
Proof. apply uint_digits. Qed.
Lemma dec_ne n : dec n <> [].
Proof.
  assert (Q : forall u, Decimal.rev u = Decimal.Nil -> u = Decimal.Nil) by (intros u H; rewrite <- (DecimalFacts.rev_rev u), H; reflexivity).
  assert (P : forall m u, u <> Decimal.Nil -> Nat.to_little_uint m u <> Decimal.Nil) by (induction m as [|m IH]; intros u Hu; cbn; [exact Hu|apply IH; destruct u; cbn; discriminate]).
  unfold dec, Nat.to_uint. intros C. assert (D : Decimal.rev (Nat.to_little_uint n Decimal.zero) = Decimal.Nil) by (destruct (Decimal.rev _); cbn in C; try discriminate; reflexivity).
  apply Q in D. revert D. apply P. discriminate.
Qed.
Lemma uint_str_inj u : forall v, uint_str u = uint_str v -> u = v.
Proof. induction u as [|u IH|u IH|u IH|u IH|u IH|u IH|u IH|u IH|u IH|u IH]; intros [] H; cbn in H; try discriminate; try reflexivity; injection H as H; f_equal; apply IH; exact H. Qed.
Lemma dec_inj m n : dec m = dec n -> m = n.
Proof. intros H. apply uint_str_inj in H. rewrite <- (DecimalNat.Unsigned.of_to m), <- (DecimalNat.Unsigned.of_to n), H. reflexivity. Qed.
Lemma dec_no n c : ~ 48 <= c <= 57 -> ~ In c (dec n).
Proof. intros H C. apply dec_digits in C. contradiction. Qed.
Lemma index_one E c : ints_ok E -> exists rg, index_range E (chunk_text c) = Ok rg /\ forall k, in_range k rg = true <-> covers c k.
Proof.
  intros (I1 & I2). unfold index_range. change (lit "-") with [45]. destruct c as [n|a b|a]; cbn [chunk_text covers].
  - change (dec n) with (py_join [45] [dec n]) at 1. rewrite split_join; [|discriminate|intros s [<-|[]]; apply dec_no; lia]. rewrite I1. eexists. split; [reflexivity|]. intros k. unfold in_range. cbn [fst snd].
    rewrite andb_true_iff, Z.leb_le, Z.ltb_lt. lia.
  - change (dec a ++ lit "-" ++ dec b) with (py_join [45] [dec a; dec b]). rewrite split_join; [|discriminate|intros s [<-|[<-|[]]]; apply dec_no; lia]. rewrite !I1.
    replace (py_all_class (py_isdigit E) (dec b)) with true.
    + eexists. split; [reflexivity|]. intros k. unfold in_range. cbn [fst snd]. rewrite andb_true_iff, Z.leb_le, Z.ltb_lt. lia.
    + symmetry. unfold py_all_class. pose proof (dec_ne b) as N. pose proof (dec_digits b) as D. destruct (dec b) as [|x s]; [congruence|]. apply forallb_forall. intros c Hc. apply I2, D, Hc.
  - replace (dec a ++ lit "-") with (py_join [45] [dec a; []]) by reflexivity. rewrite split_join; [|discriminate|intros s [<-|[<-|[]]]; [apply dec_no; lia|intros []]]. rewrite I1. cbn [py_all_class].
    eexists. split; [reflexivity|]. intros k. unfold in_range. cbn [fst snd]. rewrite andb_true_r, Z.leb_le. lia.
Qed.
Lemma chunk_chars c x : In x (chunk_text c) -> 48 <= x <= 57 \/ x = 45.
Proof.
  destruct c as [n|a b|a]; cbn [chunk_text]; intros H; [left; apply (dec_digits n); exact H| |]; apply in_app_or in H as [H|H]; try (left; apply (dec_digits a); exact H).
  - destruct H as [<-|H]; [right; reflexivity|left; apply (dec_digits b); exact H].
  - destruct H as [<-|[]]. right. reflexivity.
Qed.
Lemma chunk_hd c : exists x t, chunk_text c = x :: t /\ 48 <= x <= 57.
Proof. destruct c as [a|a b|a]; cbn [chunk_text]; pose proof (dec_ne a) as N; pose proof (dec_digits a) as D; destruct (dec a) as [|x s]; try congruence; exists x; eexists; (split; [reflexivity|apply D; left; reflexivity]). Qed.
Lemma index_filter E name cs : ints_ok E -> key_name KIndex name -> cs <> [] ->
  exists f, filter_func E false name (index_list cs) = Ok f /\ forall h r ec, exists b, f h r ec = Ok b /\ (b = true <-> exists c, In c cs /\ covers c (fst ec)).
Proof.
  intros HI KN NE. destruct (key_names _ _ KN) as (FK & _). unfold filter_func. rewrite FK. unfold index_list. change (lit ",") with [44]. rewrite split_join.
  2:{ destruct cs; [congruence|discriminate]. }
  2:{ intros s Hs C. apply in_map_iff in Hs as (c & <- & _). apply chunk_chars in C. lia. }
  assert (X : exists rs, map_list (index_range E) (map chunk_text cs) None = Ok rs /\ forall k, existsb (in_range k) rs = true <-> exists c, In c cs /\ covers c k).
  { clear NE KN FK. induction cs as [|c cs IH]; [exists []; split; [reflexivity|]; intros k; split; [discriminate|intros (c & [] & _)]|]. destruct IH as (rs & R1 & R2). destruct (index_one E c HI) as (rg & G1 & G2).
    exists (rg :: rs). cbn [map map_list]. rewrite G1. cbn [bind]. rewrite R1. split; [reflexivity|]. intros k. cbn [existsb]. rewrite orb_true_iff, G2, R2. split.
    - intros [Hc|(c' & Hc & Cc)]; [exists c; split; [left; reflexivity|exact Hc]|exists c'; split; [right; exact Hc|exact Cc]].
    - intros (c' & [<-|Hc] & Cc); [left; exact Cc|right; exists c'; auto]. }
  destruct X as (rs & R1 & R2). rewrite R1. cbn [bind]. eexists. split; [reflexivity|]. intros h r ec. eexists. split; [reflexivity|]. apply R2.
Qed.
Lemma index_safe cs : safe (lit "[]/{}") false (index_list cs).
Proof.
  apply safe_plain. unfold index_list. change (lit ",") with [44]. induction cs as [|c cs IH]; [intros x []|]. cbn [map py_join]. intros x Hx. assert (C : forall y, In y (chunk_text c) -> y <> 92 /\ ~ In y (lit "[]/{}")).
  { intros y Hy. apply chunk_chars in Hy. cbn. lia. }
  destruct cs as [|c2 cs]; [cbn [map] in Hx; auto|]. cbn [map] in *. apply in_app_or in Hx as [Hx|Hx]; [auto|]. apply in_app_or in Hx as [[<-|[]]|Hx]; [cbn; lia|apply IH; exact Hx].
Qed.
Lemma index_writable E cs : ints_ok E -> cs <> [] -> writable E (index_list cs).
Proof.
  intros (_ & I2) NE. pose proof (index_safe cs) as S. split.
  - unfold index_list. destruct cs as [|c cs]; [congruence|]. destruct (chunk_hd c) as (x & t & E1 & D). cbn [map py_join]. rewrite E1. destruct (map chunk_text cs); exists x; eexists; (split; [reflexivity|apply I2; exact D]).
  - assert (N : forall x, In x (index_list cs) -> x <> 92).
    { clear S NE. unfold index_list. change (lit ",") with [44]. induction cs as [|c cs IH]; [intros x []|]. cbn [map py_join]. intros x Hx. assert (C : forall y, In y (chunk_text c) -> y <> 92) by (intros y Hy; apply chunk_chars in Hy; lia).
      destruct cs as [|c2 cs]; [cbn [map] in Hx; auto|]. cbn [map] in *. apply in_app_or in Hx as [Hx|Hx]; [auto|]. apply in_app_or in Hx as [[<-|[]]|Hx]; [lia|apply IH; exact Hx]. }
    destruct (index_list cs) as [|x s] eqn:Ei; [cbn; lia|]. destruct (exists_last (l := x :: s)) as (s' & y & Ey); [discriminate|]. rewrite Ey, last_last. apply N. rewrite Ey. apply in_or_app. right. left. reflexivity.
Qed.
Lemma find_indexes E h r i a w name cs ys : plain_delims E -> ints_ok E -> axis_text a w -> printable E w -> key_name KIndex name -> cs <> [] -> axis_find h a ([i], None) = (ys, None) ->
  exists b, ito_find_all E h r i (w ++ written name (index_list cs)) = (map snd (filter b ys), None) /\ forall ec, b ec = true <-> exists c, In c cs /\ covers c (fst ec).
Proof.
  intros HE HI HA PR KN NE AX. destruct (index_filter E name cs HI KN NE) as (f & F1 & F2). destruct (key_names _ name KN) as (_ & K1 & K2).
  exists (fun ec => match f h r ec with Ok b => b | Err _ => false end). split.
  - apply (find_written E h r i a w name (index_list cs) f ys); try assumption; [apply index_safe|apply index_writable; assumption|]. intros ec _. destruct (F2 h r ec) as (b & -> & _). reflexivity.
  - intros ec. destruct (F2 h r ec) as (b & -> & B). exact B.
Qed.
