(** C118: to_re_char_set. *)
From Verif Require Import SpecCharSet.

Lemma join_values l : join_all l = match fold_right (fun (o : option pystr) acc => match o, acc with Some x, Some r => Some (x :: r) | _, _ => None end) (Some []) l with Some v => Ok (concat v) | None => Err TypeError end.
Proof.
  induction l as [|[x|] l IH]; [reflexivity| |reflexivity]. cbn [join_all fold_right]. rewrite IH.
  destruct (fold_right _ (Some []) l); reflexivity.
Qed.
Lemma set_text esc a incl : to_re_char_set esc a incl = match values a with Some v => Ok (lit "[" ++ (if incl then [] else lit "^") ++ re_escape esc (concat v) ++ lit "]") | None => Err TypeError end.
Proof.
  destruct a as [l|l|]; [reflexivity| |reflexivity]. cbn [to_re_char_set values]. rewrite join_values.
  destruct (fold_right _ (Some []) l); reflexivity.
Qed.
(** the head of what is read is no closing bracket, and it is read as the character *)
Lemma one_read esc c t : escapes esc -> exists h r, (if esc c then [92; c] else [c]) ++ t = h :: r /\ h <> 93 /\ h <> 94 /\ h <> 45 /\ read_char (h :: r) = Some (c, t).
Proof.
  intros [H1 H2]. destruct (esc c) eqn:E.
  - exists 92, (c :: t). split; [reflexivity|]. split; [lia|]. split; [lia|]. split; [lia|]. cbn.
    destruct (ascii_word c) eqn:A; [|reflexivity]. rewrite (H2 c A) in E. discriminate.
  - exists c, t. assert (N : forall x, In x (lit "\]^-[&~|") -> c <> x) by (intros x Hx ->; rewrite (H1 x Hx) in E; discriminate).
    split; [reflexivity|]. split; [apply N; cbn; tauto|]. split; [apply N; cbn; tauto|]. split; [apply N; cbn; tauto|].
    assert (N1 : c <> 92) by (apply N; cbn; tauto). assert (N2 : c <> 91) by (apply N; cbn; tauto).
    unfold read_char. clear - N1 N2. repeat (match goal with |- context [match ?x with _ => _ end] => destruct x end; try reflexivity; try congruence).
Qed.
Lemma items_read esc : escapes esc -> forall v fuel first rest, (length v < fuel)%nat -> (first = true -> v <> []) ->
  read_items fuel first (re_escape esc v ++ lit "]" ++ rest) = Some (map One v, rest).
Proof.
  intros He. induction v as [|c v IH]; intros fuel first rest Hf Hn.
  - destruct fuel as [|n]; [lia|]. destruct first; [destruct (Hn eq_refl eq_refl)|]. reflexivity.
  - destruct fuel as [|n]; cbn [length] in Hf; [lia|]. cbn [re_escape flat_map]. rewrite <- app_assoc.
    change (flat_map (fun c0 => if esc c0 then [92; c0] else [c0]) v) with (re_escape esc v).
    destruct (one_read esc c (re_escape esc v ++ lit "]" ++ rest) He) as (h & r & E & N1 & N2 & N3 & R). rewrite E. cbn [read_items].
    assert (G : forall k, (if h =? 93 then k else
                match read_char (h :: r) with
                | None => None
                | Some (a, 45 :: 93 :: r) => Some ([One a; One 45], r)
                | Some (a, 45 :: r) => match read_char r with Some (b, r') => match read_items n false r' with Some (l, x) => Some (Range a b :: l, x) | None => None end | None => None end
                | Some (a, r) => match read_items n false r with Some (l, x) => Some (One a :: l, x) | None => None end
                end) = Some (map One (c :: v), rest)).
    { intros k. destruct (Z.eqb_spec h 93); [contradiction|]. rewrite R.
      assert (T : match read_items n false (re_escape esc v ++ lit "]" ++ rest) with Some (l, x) => Some (One c :: l, x) | None => None end = Some (map One (c :: v), rest)).
      { rewrite IH; [reflexivity|lia|discriminate]. }
      assert (D : exists h2 r2, re_escape esc v ++ lit "]" ++ rest = h2 :: r2 /\ h2 <> 45).
      { destruct v as [|c2 v]; [exists 93, rest; split; [reflexivity|lia]|]. cbn [re_escape flat_map]. rewrite <- app_assoc. change (flat_map (fun c0 => if esc c0 then [92; c0] else [c0]) v) with (re_escape esc v). destruct (one_read esc c2 (re_escape esc v ++ lit "]" ++ rest) He) as (h2 & r2 & E2 & _ & _ & N & _). exists h2, r2. split; [exact E2|exact N]. }
      destruct D as (h2 & r2 & E2 & N). rewrite E2 in *. rewrite <- T. clear - N. repeat (match goal with |- context [match ?x with _ => _ end] => is_var x; destruct x end; try reflexivity; try congruence). }
    specialize (G None). clear - G N1. destruct (Z.eqb_spec h 93) in G; [contradiction|]. rewrite <- G. clear - N1. repeat (match goal with |- context [match ?x with _ => _ end] => is_var x; destruct x end; try reflexivity; try congruence).
Qed.
Lemma ones_has c v : existsb (item_has c) (map One v) = true <-> In c v.
Proof. rewrite existsb_exists. split; [intros (i & Hi & E); apply in_map_iff in Hi; destruct Hi as (x & <- & Hx); cbn in E; apply Z.eqb_eq in E; subst; exact Hx|intros H; exists (One c); split; [apply in_map, H|cbn; apply Z.eqb_refl]]. Qed.
Lemma esc_len esc v : (length v <= length (re_escape esc v))%nat.
Proof. induction v as [|c v IH]; [apply le_n|]. cbn [re_escape flat_map length]. rewrite app_length. destruct (esc c); cbn [length]; unfold re_escape in IH; lia. Qed.

(** C118: whatever comes behind it in a pattern, the text is one set, which matches exactly the characters given (inclusive)
    or exactly the others (not inclusive) *)
Theorem C118_class_partial : forall esc chars inclusive l, escapes esc -> values chars = Some l -> concat l <> [] ->
  exists t, to_re_char_set esc chars inclusive = Ok t /\
  forall rest, exists items, read_set (t ++ rest) = Some (negb inclusive, items, rest) /\
  forall c, set_has (negb inclusive) items c = true <-> (if inclusive then In c (concat l) else ~ In c (concat l)).
Proof.
  intros esc chars inclusive l He Hv Hn. rewrite set_text, Hv. eexists. split; [reflexivity|]. intros rest. exists (map One (concat l)). split.
  - pose proof (esc_len esc (concat l)) as Hl. destruct inclusive; cbn [negb].
    + cbn [app]. rewrite <- app_assoc. destruct (concat l) as [|c v] eqn:E; [destruct (Hn eq_refl)|].
      cbn [re_escape flat_map]. change (flat_map (fun c0 => if esc c0 then [92; c0] else [c0]) v) with (re_escape esc v). rewrite <- app_assoc.
      destruct (one_read esc c (re_escape esc v ++ lit "]" ++ rest) He) as (h & r & E2 & N1 & N2 & N3 & R).
      pose proof (items_read esc He (c :: v) (length ((91 :: h :: r) : pystr)) true rest) as X. cbn [re_escape flat_map] in X. change (flat_map (fun c0 => if esc c0 then [92; c0] else [c0]) v) with (re_escape esc v) in X. rewrite <- app_assoc, E2 in X. change (lit "[") with [91]. cbn [app]. rewrite <- !app_assoc. rewrite E2. unfold read_set.
      assert (Lr : (length (c :: v) < length (91%Z :: h :: r))%nat). { cbn [length]. apply (f_equal (@length Z)) in E2. rewrite !app_length in E2. pose proof (esc_len esc v). cbn [length] in E2. destruct (esc c); cbn [length] in E2; lia. }
      assert (Nn : true = true -> c :: v <> []) by discriminate; specialize (X Lr Nn). clear - X N2. rewrite X.
      repeat (match goal with |- context [match ?x with _ => _ end] => is_var x; destruct x end; try reflexivity; try congruence).
    + cbn [app]. rewrite <- app_assoc. change (lit "[") with [91]. change (lit "^") with [94]. cbn [app]. rewrite <- ?app_assoc. unfold read_set.
      rewrite (items_read esc He (concat l)); [reflexivity| |intros _; exact Hn]. cbn [length]. rewrite app_length. lia.
  - intros c. unfold set_has. pose proof (ones_has c (concat l)) as O. destruct inclusive; cbn [negb]; [rewrite Bool.xorb_false_l; exact O|]. rewrite <- O. destruct (existsb (item_has c) (map One (concat l))); cbn; intuition congruence.
Qed.
(** an argument that is not iterable, or yields something that is no str, raises TypeError; nothing else raises *)
Theorem C118_type : forall esc chars inclusive, to_re_char_set esc chars inclusive = Err TypeError <-> values chars = None.
Proof. intros. rewrite set_text. destruct (values chars); split; intros H; try discriminate; reflexivity. Qed.
Theorem C118_raises : forall esc chars inclusive e, to_re_char_set esc chars inclusive = Err e -> e = TypeError.
Proof. intros esc chars inclusive e. rewrite set_text. destruct (values chars); [discriminate|]. intros [= <-]. reflexivity. Qed.
(** ... without any character the result is no set of its own: the closing bracket is taken for a member, and the set goes on
    into the pattern behind it *)
Theorem C118_empty_refuted : forall esc, to_re_char_set esc (CIter []) true = Ok (lit "[]") /\
  read_set (lit "[]" ++ lit "a]b") = Some (false, [One 93; One 97], lit "b") /\ read_set (lit "[]") = None.
Proof. intros esc. repeat split. Qed.

(** the characters regex.escape escapes, without those str.isspace is true of beyond ASCII *)
Definition regex_esc (c : Z) : bool := existsb (Z.eqb c) (lit "()[]{}?*+|^$\.-#&~" ++ [9; 10; 11; 12; 13; 28; 29; 30; 31; 32]).
Example C118_case : escapes regex_esc /\ values (CDict [(lit "a", lit "^"); (lit "b", lit "]x"); (lit "c", lit "-")]) = Some [lit "^"; lit "]x"; lit "-"] /\
  to_re_char_set regex_esc (CDict [(lit "a", lit "^"); (lit "b", lit "]x"); (lit "c", lit "-")]) false = Ok (lit "[^\^\]x\-]").
Proof.
  split; [|split; reflexivity]. split.
  - intros c H. cbn in H. repeat (destruct H as [<-|H]; [reflexivity|]). destruct H.
  - intros c H. unfold regex_esc. apply Bool.not_true_is_false. intros X. apply existsb_exists in X. destruct X as (x & Hx & E). apply Z.eqb_eq in E. subst x. cbn in Hx. repeat (destruct Hx as [<-|Hx]; [discriminate H|]). destruct Hx.
Qed.
Print Assumptions C118_class_partial.
Print Assumptions C118_type.
Print Assumptions C118_raises.
Print Assumptions C118_empty_refuted.
