(** Paths: axis texts, splitting into phrases, fuel. *)
From Verif Require Export QueryFacts8.

Lemma parse_axis_spec a w t : axis_text a w -> axis_ends t -> parse_axis (w ++ t) = Some (a, length w).
Proof.
  destruct a as [k rv os]. intros (sg & S & ->) T. cbn [ax_rev ax_key ax_self] in *.
  assert (X : match t with [] => True | x :: _ => (x =? 46) = false /\ (x =? 42) = false /\ (x =? 60) = false /\ (x =? 62) = false /\ (x =? 33) = false end).
  { destruct t as [|x t]; [exact I|]. cbn in T. repeat split; apply Z.eqb_neq; lia. }
  destruct rv; [subst sg|destruct S as [-> | ->]]; destruct k, os, t as [|x t]; try reflexivity;
    destruct X as (X1 & X2 & X3 & X4 & X5); repeat (progress (cbn; rewrite ?X1, ?X2, ?X3, ?X4, ?X5)); reflexivity.
Qed.

(** -- splitting -- *)
Lemma after_app s t : forall esc d, after esc d (s ++ t) = after (fst (after esc d s)) (snd (after esc d s)) t.
Proof. induction s as [|x s IH]; intros esc d; [reflexivity|]. cbn [app after]. destruct esc; [apply IH|]. destruct (x =? 92); apply IH. Qed.
Lemma after_shift s : forall esc d e, after esc (d + e) s = (fst (after esc d s), snd (after esc d s) + e).
Proof.
  induction s as [|x s IH]; intros esc d e; [reflexivity|]. cbn [after]. destruct esc; [apply IH|]. destruct (x =? 92); [apply IH|].
  replace (d + e + (if x =? 123 then 1 else if x =? 125 then -1 else 0)) with (d + (if x =? 123 then 1 else if x =? 125 then -1 else 0) + e) by lia. apply IH.
Qed.
Lemma after_base s esc d : after esc d s = (fst (after esc 0 s), snd (after esc 0 s) + d).
Proof. exact (after_shift s esc 0 d). Qed.
Lemma split_app_gen p q : forall esc d cur, after esc d p = (false, 0) ->
  split_phrases (p ++ 47 :: q) esc d cur = do l <- split_phrases p esc d cur; do m <- split_phrases q false 0 []; Ok (l ++ m).
Proof.
  induction p as [|x p IH]; intros esc d cur H.
  - cbn [after] in H. injection H as -> ->. cbn [app split_phrases bind]. cbn. destruct (split_phrases q false 0 []); reflexivity.
  - cbn [after] in H. cbn [app split_phrases]. destruct esc; [exact (IH _ _ _ H)|]. destruct (x =? 92); [exact (IH _ _ _ H)|].
    destruct (x =? 123); [exact (IH _ _ _ H)|]. destruct (x =? 125); [replace (d - 1) with (d + -1) by lia; exact (IH _ _ _ H)|]. rewrite Z.add_0_r in H.
    destruct ((x =? 47) && (d =? 0)) eqn:C; [|exact (IH _ _ _ H)]. apply andb_true_iff in C as [_ C]. apply Z.eqb_eq in C. subst d.
    rewrite (IH false 0 [] H). destruct (split_phrases p false 0 []); cbn [bind]; [|reflexivity]. destruct (split_phrases q false 0 []); reflexivity.
Qed.
Lemma split_single_gen p : forall esc d cur, fst (after esc d p) = false -> (forall u v, p = u ++ 47 :: v -> after esc d u <> (false, 0)) ->
  split_phrases p esc d cur = Ok [rev cur ++ p].
Proof.
  induction p as [|x p IH]; intros esc d cur H F.
  - cbn in H. subst esc. cbn. rewrite app_nil_r. reflexivity.
  - assert (N : forall e' d', after esc d (x :: p) = after e' d' p -> (forall u, after esc d (x :: u) = after e' d' u) -> split_phrases p e' d' (x :: cur) = Ok [rev cur ++ x :: p]).
    { intros e' d' E1 E2. rewrite (IH e' d' (x :: cur)).
      - cbn [rev]. rewrite <- app_assoc. reflexivity.
      - rewrite <- E1. exact H.
      - intros u v Ep. rewrite <- E2. apply (F (x :: u) v). rewrite Ep. reflexivity. }
    cbn [split_phrases]. cbn [after] in N. destruct esc; [apply N; reflexivity|]. destruct (x =? 92); [apply N; reflexivity|].
    destruct (x =? 123); [apply N; reflexivity|]. destruct (x =? 125); [apply N; reflexivity|].
    destruct ((x =? 47) && (d =? 0)) eqn:C; [|rewrite Z.add_0_r in N; apply N; reflexivity].
    apply andb_true_iff in C as [C1 C2]. apply Z.eqb_eq in C1, C2. subst x d. exfalso. apply (F [] p eq_refl). reflexivity.
Qed.
Lemma split_single p : single_phrase p -> split_phrases p false 0 [] = Ok [p].
Proof. intros [H1 H2]. exact (split_single_gen p false 0 [] H1 H2). Qed.
Lemma split_lengths s : forall esc d cur l, split_phrases s esc d cur = Ok l -> Forall (fun p => (length p <= length s + length cur)%nat) l.
Proof.
  induction s as [|x s IH]; intros esc d cur l H.
  - cbn [split_phrases] in H. destruct esc; [discriminate|]. injection H as <-. constructor; [rewrite rev_length; cbn; lia|constructor].
  - cbn [split_phrases] in H.
    assert (N : forall e' d', split_phrases s e' d' (x :: cur) = Ok l -> Forall (fun p => (length p <= length (x :: s) + length cur)%nat) l).
    { intros e' d' E1. eapply Forall_impl; [|exact (IH _ _ _ _ E1)]. cbn [length]. intros; lia. }
    destruct esc; [exact (N _ _ H)|]. destruct (x =? 92); [exact (N _ _ H)|]. destruct (x =? 123); [exact (N _ _ H)|]. destruct (x =? 125); [exact (N _ _ H)|].
    destruct ((x =? 47) && (d =? 0)); [|exact (N _ _ H)]. destruct (split_phrases s false d []) as [m|e] eqn:Em; cbn [bind] in H; [|discriminate]. injection H as <-.
    constructor; [rewrite rev_length; lia|]. eapply Forall_impl; [|exact (IH _ _ _ _ Em)]. cbn [length]. intros; lia.
Qed.

(** -- fuel -- *)
Lemma groups_lengths o c s : forall bs depth pre cur y, groups o c s bs depth pre cur = Ok y ->
  Forall (fun g => (length (snd g) <= length s + length cur)%nat /\ (1 <= length (snd g))%nat) (fst y).
Proof.
  induction s as [|x s IH]; intros bs depth pre cur y H.
  - cbn [groups] in H. destruct depth; [|discriminate]. injection H as <-. constructor.
  - cbn [groups] in H. assert (N : forall bs' d' p' c', groups o c s bs' d' p' c' = Ok y -> (length c' <= S (length cur))%nat -> Forall (fun g => (length (snd g) <= length (x :: s) + length cur)%nat /\ (1 <= length (snd g))%nat) (fst y)).
    { intros bs' d' p' c' E1 L. eapply Forall_impl; [|exact (IH _ _ _ _ _ E1)]. cbn [length]. intros g [G1 G2]. lia. }
    destruct depth as [|d].
    + destruct ((x =? o) && negb bs); apply (N _ _ _ _ H); cbn; lia.
    + destruct ((x =? o) && negb bs); [apply (N _ _ _ _ H); cbn; lia|]. destruct ((x =? c) && negb bs); [|apply (N _ _ _ _ H); cbn; lia].
      destruct d; [|apply (N _ _ _ _ H); cbn; lia].
      destruct (groups o c s (x =? 92) 0 [] []) as [z|e] eqn:Ez; cbn [bind] in H; [|discriminate]. injection H as <-. cbn [fst].
      constructor; [cbn [snd rev]; rewrite app_length, rev_length; cbn [length]; lia|]. eapply Forall_impl; [|exact (IH _ _ _ _ _ Ez)]. cbn [length]. intros g [G1 G2]. lia.
Qed.
Lemma map_list_ext {A B} (f g : A -> res B) l e : (forall x, In x l -> f x = g x) -> map_list f l e = map_list g l e.
Proof. induction l as [|x l IH]; intros H; [reflexivity|]. cbn [map_list]. rewrite (H x (or_introl eq_refl)), IH; [reflexivity|]. intros y Hy. apply H. right. exact Hy. Qed.
Lemma removelast_len {A} (l : list A) : length (removelast l) = (length l - 1)%nat.
Proof. induction l as [|x l IH]; [reflexivity|]. destruct l; [reflexivity|]. change (removelast (x :: a :: l)) with (x :: removelast (a :: l)). cbn [length] in *. lia. Qed.
Lemma find_curl_bound s : forall run k, find_curl s run = Some k -> (k < length s)%nat.
Proof.
  induction s as [|x s IH]; intros run k H; [discriminate|]. cbn [find_curl] in H.
  assert (N : forall r', option_map S (find_curl s r') = Some k -> (k < length (x :: s))%nat).
  { intros r' E. destruct (find_curl s r') eqn:Er; cbn in E; [|discriminate]. injection E as <-. apply IH in Er. cbn. lia. }
  destruct (x =? 92); [exact (N _ H)|]. destruct ((x =? 123) && _); [injection H as <-; cbn; lia|exact (N _ H)].
Qed.
Lemma ecf_subquery_ext E f g s bs : (forall t, (length t < length s)%nat -> f t = g t) -> ecf_subquery E f s bs = ecf_subquery E g s bs.
Proof.
  intros H. unfold ecf_subquery. destruct (find_curl s _) as [k|] eqn:Ek; [|reflexivity]. pose proof (find_curl_bound _ _ _ Ek) as Lk. destruct (negb _); [reflexivity|].
  destruct (groups 123 125 (skipn k s) _ 0 [] (rev (firstn k s))) as [y|e] eqn:Ey; cbn [bind]; [|reflexivity]. destruct (group_ops E true (fst y) (snd y)); cbn [bind]; [|reflexivity].
  rewrite (map_list_ext (fun g0 => do q <- f (removelast (tl (snd g0))); Ok (sub_func q)) (fun g0 => do q <- g (removelast (tl (snd g0))); Ok (sub_func q)) (fst y)); [reflexivity|].
  intros z Hz. apply groups_lengths in Ey. rewrite Forall_forall in Ey. apply Ey in Hz as [H1 H2]. rewrite rev_length, firstn_length, skipn_length in H1. rewrite H; [reflexivity|]. rewrite removelast_len.
  destruct (snd z); cbn [tl length] in *; lia.
Qed.
Lemma strip_len sp s : (length (py_strip sp s None) <= length s)%nat.
Proof. destruct (strip_shape sp s) as (w1 & w2 & Es & _). rewrite Es at 2. rewrite !app_length. lia. Qed.
Lemma parse_phrase_ext E f g p : (forall t, (length t < length p)%nat -> f t = g t) -> parse_phrase E f p = parse_phrase E g p.
Proof.
  intros H. unfold parse_phrase. destruct (parse_axis p) as [[ax n]|]; [|reflexivity]. destruct (g_next _) as [[z|]|e]; cbn [bind]; [|reflexivity..].
  rewrite (ecf_subquery_ext E f g); [reflexivity|]. intros t Ht. apply H. eapply Nat.lt_le_trans; [exact Ht|]. eapply Nat.le_trans; [apply strip_len|]. rewrite skipn_length. lia.
Qed.
Lemma parse_fuel E n : forall s m, (length s < n)%nat -> (length s < m)%nat -> parse_query_fuel E n s = parse_query_fuel E m s.
Proof.
  induction n as [|n IH]; intros s m Hn Hm; [lia|]. destruct m as [|m]; [lia|]. cbn [parse_query_fuel]. destruct (_ || _); [reflexivity|].
  destruct (split_phrases s false 0 []) as [l|e] eqn:El; cbn [bind]; [|reflexivity]. apply map_list_ext. intros p Hp. apply split_lengths in El. rewrite Forall_forall in El. apply El in Hp. cbn [length] in Hp.
  apply parse_phrase_ext. intros t Ht. apply IH; lia.
Qed.
Lemma parse_query_eq E s : parse_query E s = if (zlen s =? 0) || negb (existsb (py_isprintable E) s) then Err ValueError
  else do l <- split_phrases s false 0 []; map_list (parse_phrase E (parse_query E)) l None.
Proof.
  unfold parse_query at 1. cbn [parse_query_fuel]. destruct (_ || _); [reflexivity|]. destruct (split_phrases s false 0 []) as [l|e] eqn:El; cbn [bind]; [|reflexivity].
  apply map_list_ext. intros p Hp. apply split_lengths in El. rewrite Forall_forall in El. apply El in Hp. cbn [length] in Hp. apply parse_phrase_ext. intros t Ht. unfold parse_query. apply parse_fuel; lia.
Qed.
Lemma map_list_app {A B} (f : A -> res B) l m : map_list f (l ++ m) None = do a <- map_list f l None; do b <- map_list f m None; Ok (a ++ b).
Proof.
  induction l as [|x l IH]; cbn [app map_list bind]; [destruct (map_list f m None); reflexivity|]. destruct (f x); cbn [bind]; [|reflexivity]. rewrite IH. destruct (map_list f l None); cbn [bind]; [|reflexivity].
  destruct (map_list f m None); reflexivity.
Qed.
Lemma printable_check E s : printable E s -> (zlen s =? 0) || negb (existsb (py_isprintable E) s) = false.
Proof.
  intros (c & Hc & P). apply orb_false_iff. split; [apply Z.eqb_neq; destruct s; [destruct Hc|rewrite zlen_cons; pose proof (zlen_nonneg s); lia]|].
  replace (existsb (py_isprintable E) s) with true; [reflexivity|]. symmetry. apply existsb_exists. exists c. auto.
Qed.
Lemma parse_compose E p q c : complete p -> printable E p -> printable E q ->
  parse_query E (p ++ 47 :: q) = Ok c <-> exists a b, parse_query E p = Ok a /\ parse_query E q = Ok b /\ c = a ++ b.
Proof.
  intros C P Q. rewrite !parse_query_eq. rewrite (printable_check E p P), (printable_check E q Q), (printable_check E (p ++ 47 :: q)).
  2:{ destruct P as (x & Hx & Px). exists x. split; [apply in_or_app; left; exact Hx|exact Px]. }
  rewrite (split_app_gen p q false 0 [] C). destruct (split_phrases p false 0 []) as [l|e]; cbn [bind]; [|split; [discriminate|intros (a & b & ? & _); discriminate]].
  destruct (split_phrases q false 0 []) as [m|e]; cbn [bind]; [|split; [discriminate|intros (a & b & _ & ? & _); discriminate]].
  rewrite map_list_app. destruct (map_list _ l None) as [a|e]; cbn [bind]; [|split; [discriminate|intros (a & b & ? & _); discriminate]].
  destruct (map_list _ m None) as [b|e]; cbn [bind]; [|split; [discriminate|intros (a' & b' & _ & ? & _); discriminate]].
  split; [intros [= <-]; exists a, b; auto|intros (a' & b' & [= <-] & [= <-] & ->); reflexivity].
Qed.
Lemma parse_single E p : printable E p -> single_phrase p -> parse_query E p = do x <- parse_phrase E (parse_query E) p; Ok [x].
Proof.
  intros P S. rewrite parse_query_eq, (printable_check E p P), (split_single p S). cbn [bind map_list]. destruct (parse_phrase E (parse_query E) p); reflexivity.
Qed.
