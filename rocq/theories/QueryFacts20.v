(** Facts for C127: boolean combinations of filters seen through the results of queries. *)
From Verif Require Import SpecQuery UtilFacts AxisFacts3 QueryFacts7 QueryFacts10 QueryFacts11 QueryFacts12 QueryFacts13 QueryFacts14 QueryFacts15 QueryFacts16.
From Verif Require Import SpecLogic.

Lemma filter_list_inv {A} (f : A -> res bool) l x : filter_list f l None = (x, None) ->
  (forall y, In y l -> f y = Ok (match f y with Ok b => b | Err _ => false end)) /\ x = filter (fun y => match f y with Ok b => b | Err _ => false end) l.
Proof.
  revert x. induction l as [|y l IH]; intros x; cbn [filter_list filter].
  - intros [= <-]. split; [intros ? []|reflexivity].
  - destruct (f y) as [[|]|] eqn:F; [| |discriminate].
    + unfold gyield. destruct (filter_list f l None) as [x' e'] eqn:R. cbn [fst snd]. intros [= <- ->]. destruct (IH x' eq_refl) as (Q & ->). split; [|reflexivity].
      intros z [<-|I]; [rewrite F; reflexivity|exact (Q z I)].
    + intros R. destruct (IH x R) as (Q & ->). split; [|reflexivity]. intros z [<-|I]; [rewrite F; reflexivity|exact (Q z I)].
Qed.
Lemma filter_list_all {A} (f : A -> res bool) l e : (forall y, f y = Ok true) -> filter_list f l e = (l, e).
Proof. intros H. induction l as [|y l IH]; [reflexivity|]. cbn [filter_list]. rewrite H, IH. reflexivity. Qed.

Lemma member_spec j l : member_of j l = true <-> In j l.
Proof. unfold member_of. rewrite existsb_exists. split; [intros (x & I & E); apply Nat.eqb_eq in E; subst; exact I|intros I; exists j; split; [exact I|apply Nat.eqb_refl]]. Qed.
Lemma member_filter (ys : list (nat * nat)) b ec : NoDup (map snd ys) -> In ec ys -> member_of (snd ec) (map snd (filter b ys)) = b ec.
Proof.
  intros N I. destruct (b ec) eqn:B.
  - apply member_spec. apply in_map. apply filter_In. split; assumption.
  - destruct (member_of _ _) eqn:M; [|reflexivity]. apply member_spec in M. apply in_map_iff in M. destruct M as (ec' & E & I'). apply filter_In in I'. destruct I' as (I' & B').
    assert (ec' = ec). { clear -N I I' E. induction ys as [|y ys IH]; [destruct I|]. cbn [map] in N. inversion N as [|? ? N1 N2]; subst. destruct I as [->|I], I' as [->|I']; [reflexivity| | |exact (IH N2 I I')].
      - destruct N1. rewrite <- E. apply in_map. exact I'.
      - destruct N1. rewrite E. apply in_map. exact I. }
    subst. congruence.
Qed.
Lemma map_filter_snd (ys : list (nat * nat)) b p : (forall ec, In ec ys -> b ec = p (snd ec)) -> map snd (filter b ys) = filter p (map snd ys).
Proof. induction ys as [|y ys IH]; intros H; [reflexivity|]. cbn [filter map]. rewrite (H y (or_introl eq_refl)). rewrite <- IH by (intros ec I; apply H; right; exact I). destruct (p (snd y)); reflexivity. Qed.

Lemma quiet_safe0 g : forall esc d, fst (after esc d g) = false -> (forall u c v, g = u ++ c :: v -> In c (lit "/{}") -> fst (after esc d u) = true) -> safe (lit "/{}") esc g.
Proof.
  induction g as [|x g IH]; intros esc d; cbn [after safe]; [intros E _; exact E|]. intros E N. destruct esc.
  - apply (IH false d E). intros u c v -> I. exact (N (x :: u) c v eq_refl I).
  - destruct (Z.eqb_spec x 92) as [->|Nx].
    + apply (IH true d E). intros u c v -> I. exact (N (92 :: u) c v eq_refl I).
    + split; [intros I; discriminate (N [] x g eq_refl I)|]. apply (IH false _ E). intros u c v -> I. specialize (N (x :: u) c v eq_refl I). cbn [after] in N. destruct (Z.eqb_spec x 92); [congruence|exact N].
Qed.
Lemma quiet_safe g : quiet g -> safe (lit "/{}") false g.
Proof. intros (E & N). exact (quiet_safe0 g false 0 E N). Qed.
(** the bare axis *)
Lemma axis_inv E h r i a w all : plain_delims E -> axis_text a w -> printable E w -> ito_find_all E h r i w = (all, None) ->
  exists ys, axis_find h a ([i], None) = (ys, None) /\ all = map snd ys.
Proof.
  intros HE HA PR. destruct (phrase_plain E (parse_query E) a w None [] HE HA) as (f & F1 & F2); [exact Logic.I|reflexivity|intros g []|intros u v Eu; destruct u; discriminate|reflexivity|].
  cbn [text_of] in F1. rewrite app_nil_r in F1. destruct (safe_single w (axis_safe a w HA)) as (S1 & _ & _).
  unfold ito_find_all. rewrite (parse_single E _ PR S1), F1. cbn [bind query_find_all fold_left]. unfold phrase_find, g_filter. cbn [ph_axis].
  rewrite (filter_list_all (phrase_test _ h r)). 2:{ intros ec. unfold phrase_test. cbn [ph_filter ph_sub]. rewrite F2. reflexivity. }
  cbn [fst snd]. destruct (axis_find h a ([i], None)) as [ys e]. cbn [fst snd]. intros [= <- ->]. exists ys. split; reflexivity.
Qed.
(** one filter *)
Lemma filter_inv E h r i a w g ys l : plain_delims E -> axis_text a w -> printable E w -> filter_group E g -> quiet g -> axis_find h a ([i], None) = (ys, None) ->
  ito_find_all E h r i (w ++ g) = (l, None) -> exists b, (forall ec, In ec ys -> filter_value E h r ec g = Ok (b ec)) /\ l = map snd (filter b ys).
Proof.
  intros HE HA PR G SG AX. apply quiet_safe in SG. destruct (safe_single g SG) as (_ & NB & CO). destruct (safe_single (w ++ g)) as (S1 & _ & _); [apply safe_app; [exact (axis_safe a w HA)|exact SG]|].
  pose proof (phrase_plain E (parse_query E) a w (Some (EAtom g)) [IF g] HE HA) as P. cbn [text_of] in P. rewrite app_nil_r in P. destruct P as (f & F1 & F2).
  - destruct G as (((g' & ->) & _) & _). cbn. lia.
  - exists false. do 3 apply r_up. apply r_atom.
  - intros g' [<-|[]]. exact G.
  - exact NB.
  - unfold complete in CO. rewrite CO. reflexivity.
  - assert (PR' : printable E (w ++ g)) by (destruct PR as (c & C1 & C2); exists c; split; [apply in_or_app; left; exact C1|exact C2]).
    unfold ito_find_all. rewrite (parse_single E _ PR' S1), F1. cbn [bind query_find_all fold_left]. unfold phrase_find, g_filter. cbn [ph_axis]. rewrite AX. cbn [fst snd].
    destruct (filter_list _ ys None) as [x e] eqn:R. cbn [fst snd]. intros [= <- ->]. destruct (filter_list_inv _ _ _ R) as (A & ->). eexists. split; [|reflexivity].
    intros ec I. specialize (A ec I). revert A. unfold phrase_test at 1. cbn [ph_filter ph_sub]. rewrite F2. cbn [part_value outcome]. fold (filter_value E h r ec g). 
    assert (T : phrase_test (PH a f tautology) h r ec = filter_value E h r ec g).
    { unfold phrase_test. cbn [ph_filter ph_sub]. rewrite F2. cbn [part_value outcome]. fold (filter_value E h r ec g). destruct (filter_value E h r ec g) as [[|]|]; reflexivity. }
    rewrite T. destruct (filter_value E h r ec g) as [[|]|]; cbn [bind]; unfold tautology; intros Q; congruence.
Qed.
(** one sub-query *)
Lemma sub_inv E h r i a w g ys l : plain_delims E -> axis_text a w -> printable E w -> sub_group (parse_query E) g -> single_phrase (w ++ g) -> axis_find h a ([i], None) = (ys, None) ->
  ito_find_all E h r i (w ++ g) = (l, None) -> exists b, (forall ec, In ec ys -> sub_value E h r ec g = Ok (b ec)) /\ l = map snd (filter b ys).
Proof.
  intros HE HA PR G S1 AX. pose proof (phrase_sub E (parse_query E) a w None [] (EAtom g) [IF g] HE HA) as P. cbn [text_of app] in P. rewrite app_nil_r in P. destruct P as (f & s & F1 & F2 & F3).
  - destruct G as (((g' & ->) & _) & _). cbn. lia.
  - reflexivity.
  - intros g' [].
  - intros u v Eu. destruct u; discriminate.
  - reflexivity.
  - left. reflexivity.
  - exists false. do 3 apply r_up. apply r_atom.
  - intros g' [<-|[]]. exact G.
  - assert (PR' : printable E (w ++ g)) by (destruct PR as (c & C1 & C2); exists c; split; [apply in_or_app; left; exact C1|exact C2]).
    unfold ito_find_all. rewrite (parse_single E _ PR' S1), F1. cbn [bind query_find_all fold_left]. unfold phrase_find, g_filter. cbn [ph_axis]. rewrite AX. cbn [fst snd].
    destruct (filter_list _ ys None) as [x e] eqn:R. cbn [fst snd]. intros [= <- ->]. destruct (filter_list_inv _ _ _ R) as (A & ->). eexists. split; [|reflexivity].
    assert (T : forall ec, phrase_test (PH a f s) h r ec = sub_value E h r ec g).
    { intros ec. unfold phrase_test. cbn [ph_filter ph_sub]. rewrite F2. cbn [part_value bind]. rewrite F3. cbn [outcome]. unfold sub_value, ito_find, sub_func. destruct (parse_query E (inside g)); reflexivity. }
    intros ec I. rewrite <- T. exact (A ec I).
Qed.
Lemma chars_text L : (forall c, In c (text_of L) -> In c (chars_of L) \/ exists g, In g (atoms L) /\ In c g).
Proof.
  induction L as [|[c|g] L IH]; intros x; cbn [text_of chars_of atoms]; [intros []| |].
  - intros [<-|I]; [left; left; reflexivity|]. destruct (IH x I) as [J|(g & G & J)]; [left; right; exact J|right; exists g; split; assumption].
  - intros I. apply in_app_or in I. destruct I as [I|I]; [right; exists g; split; [left; reflexivity|exact I]|]. destruct (IH x I) as [J|(g' & G & J)]; [left; exact J|right; exists g'; split; [right; exact G|exact J]].
Qed.
Lemma text_safe cs L : (forall c, In c (chars_of L) -> In c op_chars) -> (forall c, In c cs -> ~ In c op_chars) -> ~ In 92 op_chars -> (forall g, In g (atoms L) -> safe cs false g) -> safe cs false (text_of L).
Proof.
  intros O D B. induction L as [|[c|g] L IH]; intros G; cbn [text_of]; [reflexivity| |].
  - change (c :: text_of L) with ([c] ++ text_of L). apply safe_app; [|apply IH; [intros x I; apply O; right; exact I|exact G]]. apply safe_plain. intros x [<-|[]].
    assert (I : In c op_chars) by (apply O; left; reflexivity). split; [intros ->; exact (B I)|intros J; exact (D c J I)].
  - apply safe_app; [apply G; left; reflexivity|]. apply IH; [exact O|intros g' I; apply G; right; exact I].
Qed.
Lemma first_char L : (forall c, In c (chars_of L) -> In c op_chars) -> (forall g, In g (atoms L) -> exists c g', g = c :: g' /\ (c = 91 \/ c = 123)) -> axis_ends (text_of L).
Proof.
  intros O G. destruct L as [|[c|g] L]; cbn [text_of]; [exact Logic.I| |].
  - assert (I : In c op_chars) by (apply O; left; reflexivity). cbn in I |- *. lia.
  - destruct (G g (or_introl eq_refl)) as (c & g' & -> & D). cbn. lia.
Qed.
Lemma truth_ext {A} (u v : A -> bool) (e : expr A) : (forall a, In a (leaves e) -> u a = v a) -> truth u e = truth v e.
Proof.
  induction e as [a|e IH|e1 IH1 e2 IH2|e1 IH1 e2 IH2|e1 IH1 e2 IH2]; cbn [truth leaves]; intros H; [apply H; left; reflexivity|rewrite IH by exact H; reflexivity| | |];
    rewrite IH1, IH2; try reflexivity; intros a I; apply H; apply in_or_app; auto.
Qed.
Theorem filters_by_results E h r i a w e L all found : plain_delims E -> axis_text a w -> printable E w -> writes e L ->
  (forall g, In g (atoms L) -> filter_group E g /\ quiet g) -> ito_find_all E h r i w = (all, None) -> NoDup all ->
  (forall g, In g (atoms L) -> ito_find_all E h r i (w ++ g) = (found g, None)) ->
  ito_find_all E h r i (w ++ text_of L) = (filter (fun j => truth (fun g => member_of j (found g)) e) all, None).
Proof.
  intros HE HA PR W G EA ND EF. destruct (axis_inv E h r i a w all HE HA PR EA) as (ys & AX & ->).
  set (b := fun (ec : nat * nat) (g : pystr) => match filter_value E h r ec g with Ok x => x | Err _ => false end).
  assert (B : forall g ec, In g (atoms L) -> In ec ys -> filter_value E h r ec g = Ok (b ec g) /\ member_of (snd ec) (found g) = b ec g).
  { intros g ec Ig Ie. destruct (G g Ig) as (G1 & G2). destruct (filter_inv E h r i a w g ys (found g) HE HA PR G1 G2 AX (EF g Ig)) as (b' & V & F).
    unfold b. rewrite (V ec Ie). split; [reflexivity|]. rewrite F. apply member_filter; assumption. }
  assert (SL : safe (lit "/{}") false (text_of L)).
  { apply text_safe; [intros c; exact (writes_chars e L c W)|intros c; cbn; lia|cbn; lia|intros g Ig; apply quiet_safe; exact (proj2 (G g Ig))]. }
  destruct (safe_single _ SL) as (_ & NB & CO). destruct (safe_single (w ++ text_of L)) as (S1 & _ & _); [apply safe_app; [exact (axis_safe a w HA)|exact SL]|].
  rewrite (find_filters E h r i a w (Some e) L ys b HE HA).
  - f_equal. apply map_filter_snd. intros ec Ie. cbn [part_truth]. apply truth_ext. rewrite (writes_leaves e L W). intros g Ig. symmetry. exact (proj2 (B g ec Ig Ie)).
  - apply first_char; [intros c; exact (writes_chars e L c W)|]. intros g Ig. destruct (G g Ig) as ((((g' & ->) & _) & _) & _). eauto.
  - exact W.
  - intros g Ig. exact (proj1 (G g Ig)).
  - exact NB.
  - exact S1.
  - unfold complete in CO. rewrite CO. reflexivity.
  - destruct PR as (c & C1 & C2). exists c. split; [apply in_or_app; left; exact C1|exact C2].
  - exact AX.
  - intros g ec Ig Ie. exact (proj1 (B g ec Ig Ie)).
Qed.
Theorem subs_by_results E h r i a w e L all found : plain_delims E -> axis_text a w -> printable E w -> writes e L ->
  (forall g, In g (atoms L) -> sub_group (parse_query E) g /\ single_phrase (w ++ g)) -> single_phrase (w ++ text_of L) -> ito_find_all E h r i w = (all, None) -> NoDup all ->
  (forall g, In g (atoms L) -> ito_find_all E h r i (w ++ g) = (found g, None)) ->
  ito_find_all E h r i (w ++ text_of L) = (filter (fun j => truth (fun g => member_of j (found g)) e) all, None).
Proof.
  intros HE HA PR W G SP EA ND EF. destruct (axis_inv E h r i a w all HE HA PR EA) as (ys & AX & ->).
  set (b := fun (ec : nat * nat) (g : pystr) => match sub_value E h r ec g with Ok x => x | Err _ => false end).
  assert (B : forall g ec, In g (atoms L) -> In ec ys -> sub_value E h r ec g = Ok (b ec g) /\ member_of (snd ec) (found g) = b ec g).
  { intros g ec Ig Ie. destruct (G g Ig) as (G1 & G2). destruct (sub_inv E h r i a w g ys (found g) HE HA PR G1 G2 AX (EF g Ig)) as (b' & V & F).
    unfold b. rewrite (V ec Ie). split; [reflexivity|]. rewrite F. apply member_filter; assumption. }
  pose proof (find_filters_subs E h r i a w None [] e L ys (fun _ _ => true) b HE HA) as T. cbn [text_of app part_truth andb] in T. rewrite T.
  - f_equal. apply map_filter_snd. intros ec Ie. apply truth_ext. rewrite (writes_leaves e L W). intros g Ig. symmetry. exact (proj2 (B g ec Ig Ie)).
  - apply first_char; [intros c; exact (writes_chars e L c W)|]. intros g Ig. destruct (G g Ig) as ((((g' & ->) & _) & _) & _). eauto.
  - reflexivity.
  - intros g [].
  - intros u v Eu. destruct u; discriminate.
  - reflexivity.
  - left. reflexivity.
  - exact W.
  - intros g Ig. exact (proj1 (G g Ig)).
  - exact SP.
  - destruct PR as (c & C1 & C2). exists c. split; [apply in_or_app; left; exact C1|exact C2].
  - exact AX.
  - intros g ec [].
  - intros g ec Ig Ie. exact (proj1 (B g ec Ig Ie)).
Qed.
(** [~ ... ] selects what [ ... ] leaves *)
Theorem negated_by_results E h r i a w t all l : plain_delims E -> axis_text a w -> printable E w -> hd 0 t <> 126 -> (forall k, written_key E t = Some k -> is_pred k = false) ->
  filter_group E (91 :: t) -> quiet (91 :: t) -> filter_group E (91 :: 126 :: t) -> ito_find_all E h r i w = (all, None) -> NoDup all ->
  ito_find_all E h r i (w ++ 91 :: t) = (l, None) -> ito_find_all E h r i (w ++ 91 :: 126 :: t) = (filter (fun j => negb (member_of j l)) all, None).
Proof.
  intros HE HA PR HT HK G SG G' EA ND EF. destruct (axis_inv E h r i a w all HE HA PR EA) as (ys & AX & ->).
  destruct (filter_inv E h r i a w _ ys l HE HA PR G SG AX EF) as (b & V & ->).
  assert (SG' : safe (lit "/{}") false (91 :: 126 :: t)).
  { apply quiet_safe in SG. cbn [safe] in SG |- *. change (91 =? 92) with false in *. change (126 =? 92) with false. cbv iota in *. destruct SG as (S1 & S2). split; [exact S1|]. split; [cbn; lia|exact S2]. }
  set (g := 91 :: 126 :: t) in *. destruct (safe_single g SG') as (_ & NB & CO). destruct (safe_single (w ++ g)) as (S1 & _ & _); [apply safe_app; [exact (axis_safe a w HA)|exact SG']|].
  pose proof (find_filters E h r i a w (Some (EAtom g)) [IF g] ys (fun ec _ => negb (b ec)) HE HA) as T. cbn [text_of atoms part part_truth truth] in T. rewrite app_nil_r in T. rewrite T.
  - f_equal. apply map_filter_snd. intros ec Ie. f_equal. symmetry. apply member_filter; assumption.
  - cbn. lia.
  - exists false. do 3 apply r_up. apply r_atom.
  - intros x [<-|[]]. exact G'.
  - exact NB.
  - exact S1.
  - unfold complete in CO. rewrite CO. reflexivity.
  - destruct PR as (c & C1 & C2). exists c. split; [apply in_or_app; left; exact C1|exact C2].
  - exact AX.
  - intros x ec [<-|[]] Ie. specialize (V ec Ie). unfold filter_value in *. pose proof (one_filter_not E t HT HK) as N. fold g in N. destruct G as (_ & _ & f & F). destruct G' as (_ & _ & f' & F').
    rewrite F in V, N. rewrite F' in *. cbn [res_ecf] in *. rewrite N, V. reflexivity.
Qed.
