(** Facts for XmlHelp.v: the queries on a known tree. *)
From Verif Require Import SpecXmlHelp XmlFacts5 XmlFacts7 PyFacts ItoStrFacts UtilFacts HeapFacts HeapFacts2 HeapFacts3 HeapFacts4 HierHeap CombinFacts3 AxisFacts AxisFacts3 QueryFacts9 QueryFacts11 QueryFacts12 QueryFacts13 QueryFacts14 QueryFacts15 QueryFacts16 XmlHelpFacts XmlHelpFacts2 XmlHelpFacts3.

(** a tree and all its subtrees, a parent before its children *)
Fixpoint t_all (t : tree) : list tree := t :: flat_map t_all (let (_, ts) := t in ts).
Definition t_subs (t : tree) : list tree := flat_map t_all (t_kids t).
Lemma t_all_eq t : t_all t = t :: t_subs t. Proof. destruct t; reflexivity. Qed.
Definition t_has (v : pystr) (t : tree) : bool := match f_desc (t_f t) with Some d => eqb_str d v | None => false end.
Lemma walk_reps h : forall t fuel i level l, rep h t i -> walk_levels fuel h i level false = Ok l -> Forall2 (rep h) (t_subs t) (map snd l).
Proof.
  induction t as [f ts IH] using tree_ind'. intros [|fuel] i level l Hr E; [discriminate|]. rewrite walk_unfold in E. cbn [rev] in E. cbv iota in E.
  apply rep_unfold in Hr. destruct Hr as [_ F]. unfold t_subs. cbn [t_kids]. revert l E. induction F as [|t k ts' ks Ht F IHF]; intros l E.
  - cbn in E. injection E as <-. constructor.
  - inversion IH as [|? ? I1 I2]; subst. cbn [walk_go] in E. fold (walk_go (fun c => walk_levels fuel h c (level + 1) false) level false) in E.
    destruct (walk_levels fuel h k (level + 1) false) as [w|] eqn:Ew; cbn [bind] in E; [|discriminate].
    destruct (walk_go _ level false ks) as [r|] eqn:Er; cbn [bind] in E; [|discriminate]. injection E as <-.
    cbn [flat_map]. rewrite t_all_eq. cbn [app map snd]. rewrite map_app. constructor; [exact Ht|]. apply Forall2_app; [exact (I1 fuel k _ w Ht Ew)|exact (IHF I2 r eq_refl)].
Qed.
Lemma reps_filter h v ts ks : Forall2 (rep h) ts ks -> Forall2 (rep h) (filter (t_has v) ts) (filter (has_desc h v) ks).
Proof.
  induction 1 as [|t k ts ks R F IH]; [constructor|]. cbn [filter]. assert (E : has_desc h v k = t_has v t) by (unfold has_desc, t_has; rewrite (rep_f _ _ _ R); reflexivity). rewrite E. destruct (t_has v t); [constructor; assumption|exact IH].
Qed.
Section Env.
  Variables (E : pyenv) (HE : graphic_env E).
  Let PD : plain_delims E := proj1 HE.
  Lemma kids_found h r t i v : hwf h -> plain_value E v -> rep h t i -> exists l, ito_find_all E h r i (lit "*" ++ written (lit "d") v) = (l, None) /\ Forall2 (rep h) (filter (t_has v) (t_kids t)) l.
  Proof. intros H V R. eexists. split; [exact (kids_desc E HE h r i v H V)|]. apply reps_filter. exact (rep_kids h t i R). Qed.
  Lemma subs_found h r t i v : hwf h -> acyclic h -> (i < length h)%nat -> plain_value E v -> rep h t i ->
    exists l, ito_find_all E h r i (lit "**" ++ written (lit "d") v) = (l, None) /\ Forall2 (rep h) (filter (t_has v) (t_subs t)) l.
  Proof.
    intros H Ha Hi V R. destruct (walk_total h i 0 H Ha Hi) as (l & W & _).
    assert (AF : axis_find h (AX AxDescs false OsNo) ([i], None) = (number (map snd l), None)).
    { rewrite axis_find_one. cbn [axis_of]. unfold walk. rewrite W. cbn [bind gen_of_res]. apply to_ecs_plain. reflexivity. }
    assert (AT : axis_text (AX AxDescs false OsNo) (lit "**")) by (exists []; split; [left; reflexivity|reflexivity]).
    assert (PR : printable E (lit "**")) by (apply (graphic_printable E HE 42); [lia|left; reflexivity]).
    eexists. split; [exact (find_desc E h r i _ _ v _ PD H AT PR V AF)|]. apply reps_filter. exact (walk_reps h t _ i 0 l R W).
  Qed.
  Lemma first_found h r i (w : pystr) l ts : ito_find_all E h r i w = (l, None) -> Forall2 (rep h) ts l ->
    match ts with
    | [] => ito_find E h r i w = Ok None
    | t1 :: _ => exists j, ito_find E h r i w = Ok (Some j) /\ rep h t1 j
    end.
  Proof. intros F R. rewrite find_first, F. destruct R as [|t1 j ts ks R1 R2]; [reflexivity|]. exists j. auto. Qed.
End Env.
(** the text of a node *)
Lemma at_text s a u d : sits s a u -> ito_str (t_f (at_ s a (a + zlen u) d [])) = u.
Proof.
  intros (H1 & H2 & H3). cbn [at_ t_f]. pose proof (zlen_nonneg u). rewrite ito_str_zsub; [exact H3|split; cbn; lia].
Qed.
Lemma text_of_f h s a b d v i u : n_f (nd h i) = FI s a b d v -> sits s a u -> b = a + zlen u -> ito_str (n_f (nd h i)) = u.
Proof. intros R (H1 & H2 & H3) ->. pose proof (zlen_nonneg u). rewrite R, ito_str_zsub; [exact H3|split; cbn; lia]. Qed.
Lemma text_of_rep h s a b d ks i u : rep h (at_ s a b d ks) i -> sits s a u -> b = a + zlen u -> ito_str (n_f (nd h i)) = u.
Proof. intros R. apply (text_of_f h s a b (Some d) None). exact (rep_f _ _ _ R). Qed.
(** ** an attribute *)
Section Att.
  Variables (E : pyenv) (HE : graphic_env E) (s : pystr).
  Lemma att_qualified h r x a n : hwf h -> acyclic h -> (n < length h)%nat -> sits s a (att_body x) -> rep h (att_tree s x a) n ->
    exists p l, get_qualified_name E r h n = Ok (p, Some l) /\ node_text h p = x_prefix (a_name x) /\ node_text h (Some l) = Some (x_local (a_name x)).
  Proof.
    intros H Ha Hn Sx R. assert (D : f_desc (n_f (nd h n)) = Some d_attribute) by (rewrite (rep_f _ _ _ R); reflexivity).
    unfold get_qualified_name. rewrite D. change (negb (eqb_str d_attribute d_start_tag || eqb_str d_attribute d_attribute)) with false. cbv iota.
    assert (Vns : plain_value E d_namespace) by (apply graphic_value; [exact HE|reflexivity]). assert (Vnm : plain_value E d_name) by (apply graphic_value; [exact HE|reflexivity]).
    destruct (subs_found E HE h r _ n d_namespace H Ha Hn Vns R) as (l1 & F1 & R1). destruct (subs_found E HE h r _ n d_name H Ha Hn Vnm R) as (l2 & F2 & R2).
    apply (first_found E h r n _ _ _ F1) in R1. apply (first_found E h r n _ _ _ F2) in R2.
    change (lit "**[d:namespace]") with (lit "**" ++ written (lit "d") d_namespace). change (lit "**[d:name]") with (lit "**" ++ written (lit "d") d_name).
    set (w1 := lit "**" ++ written (lit "d") d_namespace) in *. set (w2 := lit "**" ++ written (lit "d") d_name) in *. clearbody w1 w2.
    unfold att_body in Sx. apply sits_app in Sx. destruct Sx as [Sx _]. unfold att_tree, name_tree, name_src in *. destruct (x_prefix (a_name x)) as [p|] eqn:Ep.
    - apply sits_app in Sx. destruct Sx as [S1 S2]. apply sits_app in S2. destruct S2 as [S2 S3]. cbn in R1, R2. destruct R1 as (j1 & -> & R1). destruct R2 as (j2 & -> & R2). cbn [bind]. exists (Some j1), j2. split; [reflexivity|].
      cbn [node_text option_map]. change (zlen (lit ":")) with 1 in S3. rewrite (text_of_f h s _ _ _ _ j1 p (proj1 R1) S1 eq_refl), (text_of_f h s _ _ _ _ j2 (x_local (a_name x)) (proj1 R2) S3); [auto|]. rewrite zlen_app, zlen_cons. lia.
    - cbn in R1, R2. rewrite R1. destruct R2 as (j2 & -> & R2). cbn [bind]. exists None, j2. split; [reflexivity|]. cbn [node_text option_map]. rewrite (text_of_f h s _ _ _ _ j2 (x_local (a_name x)) (proj1 R2) Sx); auto.
  Qed.
  Lemma att_value_found h r x a n : hwf h -> sits s a (att_body x) -> rep h (att_tree s x a) n ->
    exists v, ito_find E h r n (lit "*[d:value]") = Ok (Some v) /\ ito_str (n_f (nd h v)) = a_value x.
  Proof.
    intros H Sx R. assert (V : plain_value E d_value) by (apply graphic_value; [exact HE|reflexivity]).
    destruct (kids_found E HE h r _ n d_value H V R) as (l1 & F1 & R1). apply (first_found E h r n _ _ _ F1) in R1. change (lit "*[d:value]") with (lit "*" ++ written (lit "d") d_value). set (w1 := lit "*" ++ written (lit "d") d_value) in *. clearbody w1. cbn in R1. destruct R1 as (j & F & Rj).
    exists j. split; [exact F|].
    unfold att_body in Sx. apply sits_app in Sx. destruct Sx as [_ Sx]. apply sits_app in Sx. destruct Sx as [_ Sx]. apply sits_app in Sx. destruct Sx as [Sx _]. apply (text_of_f h s _ _ _ _ j (a_value x) (proj1 Rj) Sx). reflexivity.
  Qed.
  Definition looks_decl (x : xatt) : bool := xmlns_text (name_src (a_name x)) || xmlns_text (a_value x).
  Lemma att_decl h x a n : sits s a (att_body x) -> rep h (att_tree s x a) n -> decl_att h n = looks_decl x.
  Proof.
    intros Sx R. unfold decl_att, looks_decl. assert (D : has_desc h d_attribute n = true) by (apply has_desc_iff; rewrite (rep_f _ _ _ R); reflexivity). rewrite D. cbn [andb].
    pose proof (rep_kids h _ n R) as K. cbn [att_tree at_ t_kids] in K. inversion K as [|? k1 ? r1 K1 K2]; subst. inversion K2 as [|? k2 ? r2 K3 K4]; subst. inversion K4; subst. cbn [existsb]. rewrite orb_false_r. unfold decl_kid.
    unfold att_body in Sx. apply sits_app in Sx. destruct Sx as [S1 Sx]. apply sits_app in Sx. destruct Sx as [_ Sx]. apply sits_app in Sx. destruct Sx as [Sx _].
    rewrite (text_of_rep h s _ _ _ _ k1 _ K1 S1 eq_refl), (text_of_rep h s _ _ _ _ k2 _ K3 Sx eq_refl). reflexivity.
  Qed.
End Att.
