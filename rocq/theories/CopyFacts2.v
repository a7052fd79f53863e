(** ... filters, combinations, sub-queries and whole queries. *)
From Verif Require Export CopyFacts.
From Verif Require Import SpecCopies.

Section S.
  Context (h h' : heap) (R : nat -> nat -> Prop) (H : hwf h) (H' : hwf h') (Ha : acyclic h) (Ha' : acyclic h') (M : sim h h' R).
  Context (e e' : renv) (V : alike R e e').
  Definition fair (f : ecf) : Prop := forall ec ec', R2 R ec ec' -> f h e ec = f h' e' ec'.

  Lemma node_str_same i i' : R i i' -> node_str h i = node_str h' i'.
  Proof. intros A. unfold node_str. rewrite (s_f _ _ _ M i i' A). reflexivity. Qed.
  Lemma all_list_same {A B} (Q : A -> B -> Prop) f f' l l' err : (forall x y, Q x y -> f x = f' y) -> Forall2 Q l l' -> all_list f l err = all_list f' l' err.
  Proof. intros Hf. induction 1 as [|x y l l' Hx F IH]; [reflexivity|]. cbn. rewrite (Hf x y Hx), IH. reflexivity. Qed.
  Lemma selected_same keys d d' : Forall2 (fun p p' : pystr * (nat * nat -> res bool) => fst p = fst p' /\ forall n i i', R i i' -> snd p (n, i) = snd p' (n, i')) d d' ->
    Forall2 (fun p p' : nat * nat -> res bool => forall n i i', R i i' -> p (n, i) = p' (n, i')) (selected d keys) (selected d' keys).
  Proof.
    unfold selected. induction 1 as [|x y d d' [Hx Hp] F IH]; [constructor|]. cbn. rewrite Hx. destruct (mem_str (fst y) keys); [cbn; constructor; assumption|exact IH].
  Qed.
  Lemma filter_fair E n k v f : filter_func E n k v = Ok f -> fair f.
  Proof.
    unfold filter_func. intros Q [a i] [b i'] [E1 A]. cbn [fst snd] in E1, A. subst b. pose proof (s_f _ _ _ M i i' A) as Ef. pose proof (node_str_same i i' A) as En. destruct V as (V1 & V2 & V3 & V4).
    destruct (filter_key k) as [[]|]; try discriminate; try (injection Q as <-; cbn [snd fst]; rewrite ?Ef, ?En; reflexivity).
    - destruct (map_list _ _ _) as [rs|]; [|discriminate]. cbn in Q. injection Q as <-. reflexivity.
    - destruct (descaped v) as [keys|]; [|discriminate]. cbn in Q. injection Q as <-. destruct (rv_preds e) as [d|], (rv_preds e') as [d'|]; try contradiction; [|reflexivity]. cbn.
      unfold g_all. cbn [fst snd]. apply (all_list_same (fun p p' : nat * nat -> res bool => forall n i i', R i i' -> p (n, i) = p' (n, i'))); [|exact (selected_same keys d d' V4)]. intros p p' Hp. rewrite (Hp a i i' A). reflexivity.
    - destruct (descaped v) as [keys|]; [|discriminate]. cbn in Q. injection Q as <-. cbn [snd]. rewrite (V3 i i' A), V1. destruct (rv_value e' i') as [x|]; [|reflexivity]. cbn. destruct (validate (rv_values e')) as [d|]; [|reflexivity]. cbn.
      assert (X : existsb (rv_eq e x) (selected d keys) = existsb (rv_eq e' x) (selected d keys)) by (induction (selected d keys) as [|y l IH]; [reflexivity|]; cbn; rewrite V2, IH; reflexivity). rewrite X. reflexivity.
  Qed.
  Lemma eval_all_same fs : Forall fair fs -> forall ops ec ec', R2 R ec ec' -> eval_all ops fs h e ec = eval_all ops fs h' e' ec'.
  Proof.
    induction 1 as [|f fs Hf F IH]; intros [|op ops] ec ec' A; try reflexivity. cbn. unfold eval_one. rewrite (Hf ec ec' A), (IH ops ec ec' A). reflexivity.
  Qed.
  Lemma combined_fair fs ops : Forall fair fs -> fair (combined_func fs ops).
  Proof. intros F ec ec' A. unfold combined_func. rewrite (eval_all_same fs F ops ec ec' A). reflexivity. Qed.
  Lemma Forall_firstn {A} (P : A -> Prop) n l : Forall P l -> Forall P (firstn n l).
  Proof. intros F. revert n. induction F; intros [|n]; cbn; constructor; auto. Qed.
  Lemma Forall_skipn {A} (P : A -> Prop) n l : Forall P l -> Forall P (skipn n l).
  Proof. intros F. revert n. induction F; intros [|n]; cbn; auto. Qed.
  Lemma paren_fair sub : (forall fs ops f, Forall fair fs -> sub fs ops = Ok f -> fair f) ->
    forall n fs ops x, Forall fair fs -> paren_loop sub n fs ops = Ok x -> Forall fair (fst x).
  Proof.
    intros Hs. induction n as [|n IH]; intros fs ops x F Q; cbn [paren_loop] in Q; [discriminate|]. destruct (last_with c_open ops 0 None) as [i|]; [|injection Q as <-; exact F].
    destruct (py_rpartition (nth i ops []) [c_open]) as [[pre sp] tmp]. destruct (has c_close tmp); [discriminate|]. destruct (first_with c_close (skipn (S i) ops) (S i)) as [j|]; [|discriminate].
    destruct (py_partition (nth j ops []) [c_close]) as [[inner sp'] post]. destruct (j - i =? 1)%nat; [exact (IH _ _ _ F Q)|].
    destruct (sub (firstn (j - i) (skipn i fs)) _) as [f|] eqn:Es; [|discriminate]. cbn [bind] in Q. apply (IH _ _ _) with (2 := Q).
    apply Forall_app. split; [apply Forall_firstn; exact F|]. constructor; [|apply Forall_skipn; exact F]. exact (Hs _ _ f (Forall_firstn _ _ _ (Forall_skipn _ _ _ F)) Es).
  Qed.
  Lemma ecf_combined_fair : forall n fs ops f, Forall fair fs -> ecf_combined n fs ops = Ok f -> fair f.
  Proof.
    induction n as [|n IH]; intros fs ops f F Q; [discriminate|]. cbn [ecf_combined] in Q. destruct (length fs =? 0)%nat; [discriminate|]. destruct (negb (length ops =? length fs + 1)%nat); [discriminate|].
    destruct (negb (forallb (fun op => forallb (fun c => mem_char c op_chars) op) ops)); [discriminate|]. destruct (negb (total_count c_open ops =? total_count c_close ops)%nat); [discriminate|].
    destruct (paren_loop (ecf_combined n) (S (total_count c_open ops)) fs ops) as [x|] eqn:Ep; [|discriminate]. cbn [bind] in Q. injection Q as <-. apply combined_fair. exact (paren_fair (ecf_combined n) IH _ _ _ x F Ep).
  Qed.
  Lemma map_list_all {A B} (P : B -> Prop) (f : A -> res B) err : (forall x y, f x = Ok y -> P y) -> forall l ys, map_list f l err = Ok ys -> Forall P ys.
  Proof.
    intros Hf. induction l as [|x l IH]; intros ys Q; cbn in Q; [destruct err; [discriminate|]; injection Q as <-; constructor|].
    destruct (f x) as [y|] eqn:Ef; [|discriminate]. cbn in Q. destruct (map_list f l err) as [ys'|]; [|discriminate]. cbn in Q. injection Q as <-. constructor; [exact (Hf x y Ef)|exact (IH ys' eq_refl)].
  Qed.
  Lemma ecf_filter_fair E s f : ecf_filter E s = Ok f -> fair f.
  Proof.
    unfold ecf_filter. destruct (negb _); [discriminate|]. destruct (groups 91 93 s false 0 [] []) as [y|]; [|discriminate]. cbn [bind]. destruct (group_ops E true (fst y) (snd y)) as [ops|]; [|discriminate]. cbn [bind].
    destruct (map_list (fun g => one_filter E (snd g)) (fst y) None) as [fs|] eqn:Em; [|discriminate]. cbn [bind]. intros Q. apply (ecf_combined_fair 2 fs _ f) with (2 := Q).
    apply (map_list_all fair _ None) with (2 := Em). intros x g. unfold one_filter. destruct (parse_filter E (snd x)) as [[[n k] v]|]; [|discriminate]. apply filter_fair.
  Qed.

  Definition fair_phrase (p : phrase) : Prop := fair (ph_filter p) /\ fair (ph_sub p).
  Lemma filter_list_same f f' err : forall l l' : list (nat * nat), (forall x y, R2 R x y -> f x = f' y) -> Forall2 (R2 R) l l' -> gsame (R2 R) (filter_list f l err) (filter_list f' l' err).
  Proof.
    intros l l' Hf F. induction F as [|x y l l' Hx F IH]; [split; [constructor|reflexivity]|]. cbn. rewrite (Hf x y Hx). destruct (f' y) as [[]|er]; [|exact IH|split; [constructor|reflexivity]].
    destruct IH as [I1 I2]. unfold gyield. destruct (filter_list f l err), (filter_list f' l' err). cbn in *. split; [constructor; assumption|exact I2].
  Qed.
  Lemma phrase_same p g g' : fair_phrase p -> gsame R g g' -> gsame R (phrase_find p h e g) (phrase_find p h' e' g').
  Proof.
    intros [P1 P2] G. unfold phrase_find, g_filter. destruct (axis_find_same h h' R H H' Ha Ha' M (ph_axis p) g g' G) as [F E]. rewrite E.
    assert (T : forall x y, R2 R x y -> phrase_test p h e x = phrase_test p h' e' y) by (intros x y Q; unfold phrase_test; rewrite (P1 x y Q); destruct (ph_filter p h' e' y) as [[]|]; cbn; [exact (P2 x y Q)|reflexivity|reflexivity]).
    destruct (filter_list_same (phrase_test p h e) (phrase_test p h' e') (snd (axis_find h' (ph_axis p) g')) _ _ T F) as [G1 G2].
    split; [|exact G2]. cbn [fst]. clear - G1. induction G1 as [|x y l l' [_ Hx] F IH]; constructor; assumption.
  Qed.
  Lemma query_same q i i' : Forall fair_phrase q -> R i i' -> gsame R (query_find_all q h e i) (query_find_all q h' e' i').
  Proof.
    intros F A. unfold query_find_all. assert (G : gsame R ([i], None) ([i'], None)) by (split; [repeat constructor; exact A|reflexivity]).
    revert G. generalize (([i], None) : gen nat) (([i'], None) : gen nat). induction F as [|p q Hp F IH]; intros g g' G; [exact G|]. cbn. apply IH. apply phrase_same; assumption.
  Qed.
  Lemma next_same (g g' : gen nat) : gsame R g g' -> ares (fun o o' => match o, o' with Some x, Some y => R x y | None, None => True | _, _ => False end) (g_next g) (g_next g').
  Proof. destruct g as [l er], g' as [l' er']. intros [F E]. cbn in F, E. subst er'. destruct F as [|x y l l' Hx F]; cbn; [destruct er; [reflexivity|exact Logic.I]|exact Hx]. Qed.
  Lemma sub_fair q : Forall fair_phrase q -> fair (sub_func q).
  Proof.
    intros F ec ec' [_ A]. unfold sub_func, query_find. pose proof (next_same _ _ (query_same q (snd ec) (snd ec') F A)) as N.
    destruct (g_next (query_find_all q h e (snd ec))) as [[x|]|er], (g_next (query_find_all q h' e' (snd ec'))) as [[y|]|er']; cbn in *; try contradiction; try reflexivity. subst. reflexivity.
  Qed.
  Lemma phrase_fair E parse p ph : (forall s q, parse s = Ok q -> Forall fair_phrase q) -> parse_phrase E parse p = Ok ph -> fair_phrase ph.
  Proof.
    intros Hp. unfold parse_phrase. destruct (parse_axis p) as [[ax n]|]; [|discriminate]. destruct (g_next (find_unescaped (UStr p) [123] (lit "\") (Some (Z.of_nat n)) None)) as [o|]; [|discriminate]. cbn [bind].
    assert (Ft : forall s f, match py_strip (py_isspace E) s None with [] => Ok tautology | f => ecf_filter E f end = Ok f -> fair f).
    { intros s f. destruct (py_strip (py_isspace E) s None) as [|c r]; [intros [= <-] ec ec' _; reflexivity|]. apply ecf_filter_fair. }
    destruct o as [z|].
    - destruct (ecf_subquery E parse _ _) as [sq|] eqn:Es; [|discriminate]. cbn [bind]. destruct (match py_strip (py_isspace E) (firstn (walk_back p (Z.to_nat z) - n) (skipn n p)) None with [] => Ok tautology | f => ecf_filter E f end) as [f|] eqn:Ef; [|discriminate].
      cbn [bind]. intros [= <-]. split; [exact (Ft _ f Ef)|]. cbn [ph_sub]. revert Es. unfold ecf_subquery. destruct (find_curl _ _) as [k|]; [|discriminate]. destruct (negb _); [discriminate|].
      destruct (groups 123 125 _ _ 0 [] _) as [y|]; [|discriminate]. cbn [bind]. destruct (group_ops E true (fst y) (snd y)) as [ops|]; [|discriminate]. cbn [bind].
      destruct (map_list _ (fst y) None) as [qs|] eqn:Em; [|discriminate]. cbn [bind]. intros Q. apply (ecf_combined_fair 2 qs _ sq) with (2 := Q). apply (map_list_all fair _ None) with (2 := Em).
      intros x g. destruct (parse (removelast (tl (snd x)))) as [q|] eqn:Eq; [|discriminate]. cbn. intros [= <-]. apply sub_fair. exact (Hp _ q Eq).
    - destruct (match py_strip (py_isspace E) (skipn n p) None with [] => Ok tautology | f => ecf_filter E f end) as [f|] eqn:Ef; [|discriminate]. cbn [bind]. intros [= <-]. split; [exact (Ft _ f Ef)|]. intros ec ec' _. reflexivity.
  Qed.
  Lemma parse_fair E : forall n s q, parse_query_fuel E n s = Ok q -> Forall fair_phrase q.
  Proof.
    induction n as [|n IH]; intros s q Q; [discriminate|]. cbn [parse_query_fuel] in Q. destruct ((zlen s =? 0) || negb (existsb (py_isprintable E) s)); [discriminate|].
    destruct (split_phrases s false 0 []) as [l|]; [|discriminate]. cbn [bind] in Q. apply (map_list_all fair_phrase _ None) with (2 := Q). intros x y. apply phrase_fair. exact IH.
  Qed.
  Lemma find_all_same E path i i' : R i i' -> same_results R (ito_find_all E h e i path) (ito_find_all E h' e' i' path).
  Proof.
    intros A. unfold ito_find_all. destruct (parse_query E path) as [q|er] eqn:Eq; [|split; [constructor|reflexivity]]. exact (query_same q i i' (parse_fair E _ path q Eq) A).
  Qed.
  Lemma find_same E path i i' : R i i' -> ares (fun o o' => match o, o' with Some x, Some y => R x y | None, None => True | _, _ => False end) (ito_find E h e i path) (ito_find E h' e' i' path).
  Proof.
    intros A. unfold ito_find. destruct (parse_query E path) as [q|er] eqn:Eq; [|reflexivity]. cbn [bind]. exact (next_same _ _ (query_same q i i' (parse_fair E _ path q Eq) A)).
  Qed.
End S.
