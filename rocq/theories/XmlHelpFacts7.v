(** Facts for XmlHelp.v: what the helper gives for a parsed document. *)
From Verif Require Import SpecXmlHelp PyFacts ItoStrFacts UtilFacts HeapFacts HeapFacts2 HeapFacts3 HeapFacts4 HierHeap CombinFacts3 ArborFacts4 QueryFacts16 XmlFacts XmlFacts2 XmlFacts4 XmlFacts5 XmlFacts7 XmlFacts8 XmlFacts10 XmlHelpFacts XmlHelpFacts2 XmlHelpFacts3 XmlHelpFacts4 XmlHelpFacts5 XmlHelpFacts6.

Lemma described_lt h i d : f_desc (n_f (nd h i)) = Some d -> (i < length h)%nat.
Proof. intros D. destruct (Nat.lt_ge_cases i (length h)) as [L|L]; [exact L|]. unfold nd in D. rewrite nth_overflow in D by exact L. discriminate. Qed.
Lemma parsed_document c isspace ie pre d post h : parsed c isspace ie pre d post -> hwf h -> acyclic h ->
  exists h' root, xml_parse c isspace ie h (pre ++ doc_src d ++ post) (doc_report (event_at (cd_enc c) (pre ++ doc_src d ++ post)) d (zlen pre)) = (h', Ok root) /\
    extends h h' /\ document isspace ie h' (pre ++ doc_src d ++ post) d (zlen pre) root.
Proof.
  intros P H Ha. destruct (P h H Ha) as (h' & r & E & X & H' & A' & R & N). exists h', r. split; [exact E|]. split; [exact X|]. split; [exact H'|]. split; [exact A'|]. split; [exists pre, post; auto|]. auto.
Qed.
Section Doc.
  Variables (isspace : Z -> bool) (ie : bool) (h : heap) (s : pystr) (d : xdoc) (a : Z) (root : nat).
  Hypothesis (D : document isspace ie h s d a root).
  Let DT := doc_tree isspace ie s.
  Lemma doc_h : hwf h. Proof. apply D. Qed.
  Lemma doc_a : acyclic h. Proof. apply D. Qed.
  Lemma doc_sits : sits s a (doc_src d). Proof. apply place_sits. apply D. Qed.
  Lemma doc_rep : rep h (DT d a) root. Proof. apply D. Qed.
  Lemma root_lt : (root < length h)%nat.
  Proof. apply (described_lt h root d_element). rewrite (rep_f _ _ _ doc_rep). unfold DT. destruct (doc_shape isspace ie s d a) as (_ & _ & _ & ->). reflexivity. Qed.
  Lemma element_of j : j = root \/ anc h root j -> is_element h j -> exists up e p js, elem_in d a up e p /\ chain isspace ie s h e p up j js.
  Proof. apply (element_chain isspace ie s h doc_h d a root); [exact doc_sits|exact doc_rep|exact root_lt|apply D]. Qed.
  Lemma node_of up e p : elem_in d a up e p -> exists j js, chain isspace ie s h e p up j js.
  Proof. apply (elem_chain_of isspace ie s h doc_h d a root); [exact doc_sits|exact doc_rep|exact root_lt|apply D]. Qed.
  (** the names of the attributes *)
  Lemma kids_wf l : (fix go (l : list (xdoc * list xpiece)) : Prop := match l with [] => True | k :: r => doc_wf (fst k) /\ Forall piece_ok (snd k) /\ go r end) l -> Forall (fun k => doc_wf (fst k)) l.
  Proof. induction l as [|k l IH]; intros W; constructor; [apply W|apply IH; apply W]. Qed.
  Lemma elem_wf up e p : doc_wf d -> elem_in d a up e p -> doc_wf e /\ Forall doc_wf up.
  Proof.
    intros W I. induction I as [|up n ats sp txt l k r sp' p I [We Wu]]; [split; [exact W|constructor]|]. split; [|constructor; assumption].
    destruct We as (_ & _ & _ & K). apply kids_wf in K. rewrite Forall_forall in K. apply K. apply in_or_app. right. left. reflexivity.
  Qed.
  Lemma atts_named e : doc_wf e -> Forall (fun x => xname_ok (a_name x)) (doc_atts e).
  Proof. intros W. assert (T : Forall att_wf (doc_atts e)) by (destruct e; [destruct W as ((_ & T & _) & _); exact T|destruct W as (_ & T & _); exact T]). apply (Forall_impl _ (fun x (A : att_wf x) => proj1 (proj2 A)) T). Qed.
  Variables (E : pyenv) (HE : graphic_env E) (r : renv).
  Definition plain_values (e : xdoc) : Prop := Forall value_no_decl (doc_atts e).
  Lemma looks_all e : doc_wf e -> plain_values e -> Forall (fun x => looks_decl x = default_decl x || prefix_decl x) (doc_atts e).
  Proof. intros W V. pose proof (atts_named e W) as N. unfold plain_values in V. rewrite Forall_forall in *. intros x I. apply looks_right; auto. Qed.
  Lemma chain_xmlns e p up j js : doc_wf e -> plain_values e -> chain isspace ie s h e p up j js ->
    exists l, get_xmlns E r h j = Ok l /\ Forall2 (decl_item h) (filter (fun x => default_decl x || prefix_decl x) (doc_atts e)) l.
  Proof.
    intros W V (S & R & B & _). destruct (xmlns_found E HE r isspace ie s h e p j doc_h doc_a B S R) as (l & El & F). exists l. split; [exact El|]. rewrite <- (filter_same _ _ _ (looks_all e W V)). exact F.
  Qed.
  Lemma prefix_of x : prefix_decl x = (default_decl x || prefix_decl x) && negb (unprefixed x).
  Proof. unfold prefix_decl, default_decl, unprefixed. destruct (x_prefix (a_name x)); cbn; [rewrite andb_true_r; reflexivity|rewrite andb_false_r; reflexivity]. Qed.
  Lemma default_is x : default_decl x = (default_decl x || prefix_decl x) && unprefixed x.
  Proof. unfold prefix_decl, default_decl, unprefixed. destruct (x_prefix (a_name x)); cbn; [rewrite andb_false_r; reflexivity|rewrite andb_true_r, orb_false_r; reflexivity]. Qed.
  Lemma chain_map e p up j js : doc_wf e -> plain_values e -> NoDup (map (fun x => x_local (a_name x)) (filter prefix_decl (doc_atts e))) -> chain isspace ie s h e p up j js ->
    get_prefix_map E r h j = Ok (map (fun x => (x_local (a_name x), a_value x)) (filter prefix_decl (doc_atts e))).
  Proof.
    intros W V N C. destruct (chain_xmlns e p up j js W V C) as (l & El & F). unfold get_prefix_map. rewrite El. cbn [bind]. f_equal.
    assert (X : filter (fun x => negb (unprefixed x)) (filter (fun x => default_decl x || prefix_decl x) (doc_atts e)) = filter prefix_decl (doc_atts e)).
    { rewrite filter_both. apply filter_same. apply Forall_forall. intros x _. symmetry. apply prefix_of. }
    rewrite (map_items h _ l F []); rewrite X; [reflexivity|exact N].
  Qed.
  Definition braces (v : pystr) : pystr := lit "{" ++ v ++ lit "}".
  Lemma default_loop : forall js e up j n, Forall2 (doc_node isspace ie s h) (e :: up) (j :: js) -> elems_above h j js -> Forall doc_wf (e :: up) -> Forall plain_values (e :: up) -> (length js < n)%nat ->
    get_default_namespace E r n h j = Ok (option_map braces (default_of (e :: up))).
  Proof.
    induction js as [|q js IH]; intros e up j n F A W V L; (destruct n as [|n]; [lia|]); inversion F as [|? ? ? ? ((p & S & R) & B) F']; subst; inversion W as [|? ? We Wu]; subst; inversion V as [|? ? Ve Vu]; subst;
      destruct (xmlns_found E HE r isspace ie s h e p j doc_h doc_a B S R) as (l & El & Fl); rewrite (filter_same _ _ _ (looks_all e We Ve)) in Fl;
      cbn [get_default_namespace]; rewrite El; cbn [bind]; pose proof (item_default h _ l Fl) as ID; rewrite find_filter_and in ID;
      rewrite <- (find_same _ _ (doc_atts e) (proj2 (Forall_forall _ _) (fun x _ => default_is x))) in ID; cbn [default_of]; destruct (find default_decl (doc_atts e)) as [x|].
    1,3: destruct ID as (k & v & -> & Ev); rewrite Ev; reflexivity.
    - inversion F'; subst. rewrite ID. destruct (parent_found E HE h r j doc_h doc_a B) as (l' & A' & P). rewrite (above_unique h j _ _ doc_a A' A) in P. rewrite P. reflexivity.
    - rewrite ID. destruct (parent_found E HE h r j doc_h doc_a B) as (l' & A' & P). rewrite (above_unique h j _ _ doc_a A' A) in P. rewrite P. cbn [bind hd_error]. destruct up as [|e' up]; [inversion F'|].
      exact (IH e' up q n F' (above_step h j q js doc_a A) Wu Vu ltac:(cbn in L; lia)).
  Qed.
  Lemma chain_nodes e p up j js : chain isspace ie s h e p up j js -> Forall2 (doc_node isspace ie s h) (e :: up) (j :: js).
  Proof. intros (S & R & B & _ & _ & F). constructor; [|exact F]. split; [exists p; auto|exact B]. Qed.
  Lemma chain_default e p up j js : Forall doc_wf (e :: up) -> Forall plain_values (e :: up) -> chain isspace ie s h e p up j js -> forall n, (length h < n)%nat ->
    get_default_namespace E r n h j = Ok (option_map braces (default_of (e :: up))).
  Proof. intros W V C n L. pose proof C as (_ & _ & _ & A & _). apply (default_loop js e up j n (chain_nodes e p up j js C) A W V). pose proof (above_length h j js doc_h doc_a A). lia. Qed.
  Lemma chain_parent e p up j js : chain isspace ie s h e p up j js -> get_parent_element E r h j = Ok (n_par (nd h j)).
  Proof. intros (_ & _ & B & A & P & _). destruct (parent_found E HE h r j doc_h doc_a B) as (l & A' & ->). rewrite P. rewrite (above_unique h j _ _ doc_a A' A). reflexivity. Qed.
  Lemma elem_above_in up e p : elem_in d a up e p -> forall f u v, up = u ++ f :: v -> exists q, elem_in d a v f q.
  Proof.
    induction 1 as [|up n ats sp txt l k rr sp' p I IH]; intros f u v X; [destruct u; discriminate|]. destruct u as [|x u]; [injection X as <- <-; eauto|]. injection X as <- X. exact (IH f u v X).
  Qed.
End Doc.
(** ** the values of the tags *)
Section Tags.
  Variables (E : pyenv) (HE : graphic_env E) (r : renv) (s : pystr) (h : heap).
  Hypothesis (H : hwf h) (Ha : acyclic h).
  Lemma name_split n q f : fwf f -> xname_ok n -> ito_str f = name_src n -> qn_from_src f = Ok q -> names n q.
  Proof.
    intros W [L P] T Q. destruct (qn_parts f W) as (q' & Q' & _ & X). rewrite Q in Q'. injection Q' as <-. unfold names, name_src in *. destruct q as [[p|] x]; cbn [fst snd option_map] in *.
    - destruct X as (_ & _ & _ & _ & _ & X & N). rewrite T in X. destruct (x_prefix n) as [p'|]; [|exfalso; apply (name_no_colon _ L); rewrite X; apply in_or_app; right; left; reflexivity].
      change (lit ":" ++ x_local n) with (58 :: x_local n) in X. destruct (split_once 58 _ _ _ _ _ X eq_refl N (name_no_colon _ P)) as [-> ->]. auto.
    - destruct X as [-> N]. rewrite T in N |- *. destruct (x_prefix n) as [p'|]; [|auto]. exfalso. apply N. apply in_or_app. right. left. reflexivity.
  Qed.
  Definition tag_at (n : xname) (t : nat) : Prop := exists a, sits s a (name_src n) /\ rep h (name_tree s n a) t.
  Lemma tag_qn n t : xname_ok n -> tag_at n t -> exists q, qn_from_src (n_f (nd h t)) = Ok q /\ names n q.
  Proof.
    intros N (a & S & R). destruct (qn_parts (n_f (nd h t)) (hwf_span h H t)) as (q & Q & _). exists q. split; [exact Q|]. apply (name_split n q _ (hwf_span h H t) N); [|exact Q]. unfold name_tree in R. cbv zeta in R. exact (text_of_rep h s _ _ _ _ t _ R S eq_refl).
  Qed.
  (** the trees of the names *)
  Fixpoint att_tags (l : list xatt) (a : Z) : list tree :=
    match l with [] => [] | x :: r => name_tree s (a_name x) (a + zlen (a_space x)) :: att_tags r (a + zlen (att_src x)) end.
  Lemma name_tags n a : filter (t_has d_tag) (t_all (name_tree s n a)) = [name_tree s n a].
  Proof. unfold name_tree. destruct (x_prefix n); reflexivity. Qed.
  Lemma atts_tags : forall l a, filter (t_has d_tag) (flat_map t_all (att_trees s l a)) = att_tags l a.
  Proof.
    induction l as [|x l IH]; intros a; [reflexivity|]. cbn [att_trees flat_map att_tags]. rewrite filter_app, IH. change (name_tree s (a_name x) (a + zlen (a_space x)) :: att_tags l (a + zlen (att_src x))) with ([name_tree s (a_name x) (a + zlen (a_space x))] ++ att_tags l (a + zlen (att_src x))). f_equal.
    rewrite t_all_eq. unfold att_tree, t_subs. cbn [at_ t_kids flat_map]. cbn [filter]. rewrite filter_app, name_tags. reflexivity.
  Qed.
  Lemma open_tags n ats sp fin a : filter (t_has d_tag) (t_subs (open_tree s n ats sp fin a)) = name_tree s n (a + 1) :: att_tags ats (a + 1 + zlen (name_src n)).
  Proof.
    unfold open_tree, t_subs. cbv zeta. cbn [at_ t_kids flat_map]. rewrite filter_app, name_tags. cbn [app]. f_equal. destruct ats as [|x ats]; [reflexivity|]. cbn [flat_map]. rewrite app_nil_r, t_all_eq. cbn [filter]. unfold t_subs. cbn [t_kids].
    change (t_has d_tag (T _ _)) with false. cbv iota. apply atts_tags.
  Qed.
  Lemma att_tags_at : forall ats p ts, sits s p (flat_map att_src ats) -> Forall2 (rep h) (att_tags ats p) ts -> Forall2 tag_at (map a_name ats) ts.
  Proof.
    induction ats as [|x ats IH]; intros p ts S F; inversion F as [|? t ? r' R F']; subst; [constructor|]. cbn [flat_map] in S. apply sits_app in S. destruct S as [S1 S2]. cbn [map]. constructor; [|exact (IH _ _ S2 F')].
    unfold att_src, att_body in S1. apply sits_app in S1. destruct S1 as [_ S1]. apply sits_app in S1. destruct S1 as [S1 _]. eexists. split; [exact S1|exact R].
  Qed.
  Lemma qns_found ns ts : Forall xname_ok ns -> Forall2 tag_at ns ts -> exists qs, map_list (fun t => qn_from_src (n_f (nd h t))) ts None = Ok qs /\ Forall2 names ns qs.
  Proof.
    intros N F. induction F as [|n t ns ts T F IH]; [exists []; split; [reflexivity|constructor]|]. inversion N as [|? ? N1 N2]; subst. destruct (IH N2) as (qs & Q & Fq). destruct (tag_qn n t N1 T) as (q & Q1 & Nq).
    exists (q :: qs). split; [cbn [map_list]; rewrite Q1; cbn [bind]; rewrite Q; reflexivity|constructor; assumption].
  Qed.
  Lemma Forall2_last {A B} (R : A -> B -> Prop) l m x : Forall2 R l m -> l <> [] -> exists y m', rev m = y :: m' /\ R (last l x) y.
  Proof.
    intros F N. destruct (exists_last N) as (l' & z & ->). apply Forall2_app_inv_l in F. destruct F as (m1 & m2 & F1 & F2 & ->). inversion F2 as [|? y ? m3 R1 F3]; subst. inversion F3; subst. rewrite rev_unit, last_last. eauto.
  Qed.
  Lemma tag_values_found n ats sp fin a st : Forall xname_ok (tag_names n ats) -> at_place s a (open_src n ats sp fin) -> rep h (open_tree s n ats sp fin a) st ->
    exists ts q, tag_values E r h st = Ok (map (fun t => (t, q)) ts) /\ Forall2 tag_at (tag_names n ats) ts /\ names (last (tag_names n ats) n) q.
  Proof.
    intros N S R. apply place_sits in S. assert (B : (st < length h)%nat) by (apply (described_lt h st d_start_tag); rewrite (rep_f _ _ _ R); reflexivity).
    destruct (subs_found E HE h r _ st d_tag H Ha B (graphic_value E HE d_tag eq_refl) R) as (ts & F & T). rewrite open_tags in T. unfold tag_values. change (lit "**[d:tag]") with (lit "**" ++ written (lit "d") d_tag). rewrite F.
    unfold open_src in S. apply sits_app in S. destruct S as [_ S]. apply sits_app in S. destruct S as [S1 S2]. apply sits_app in S2. destruct S2 as [S2 _]. change (zlen (lit "<")) with 1 in *.
    inversion T as [|? t ? ts' T1 T2]; subst. assert (TA : Forall2 tag_at (tag_names n ats) (t :: ts')) by (constructor; [exists (a + 1); auto|exact (att_tags_at ats _ _ S2 T2)]).
    destruct (qns_found _ _ N TA) as (qs & Q & Fq). rewrite Q. cbn [bind]. destruct (Forall2_last names _ _ n Fq) as (q & m & -> & Nq); [discriminate|]. exists (t :: ts'), q. split; [reflexivity|]. split; [exact TA|exact Nq].
  Qed.
  Lemma end_tag_found n sp a et : xname_ok n -> at_place s a (close_src n sp) -> rep h (close_tree s n sp a) et ->
    exists t q, n_kids (nd h et) = [t] /\ tag_at n t /\ end_tag_values h (n_kids (nd h et)) = Ok [(t, q)] /\ names n q.
  Proof.
    intros N S R. apply place_sits in S. pose proof (rep_kids h _ et R) as F. unfold close_tree in F. cbn [at_ t_kids] in F. inversion F as [|? t ? ts T1 T2 E1 E2]; subst. inversion T2; subst.
    unfold close_src in S. apply sits_app in S. destruct S as [_ S]. apply sits_app in S. destruct S as [S _]. change (zlen (lit "</")) with 2 in S. assert (TA : tag_at n t) by (exists (a + 2); auto).
    destruct (tag_qn n t N TA) as (q & Q & Nq). exists t, q. split; [reflexivity|]. split; [exact TA|]. split; [|exact Nq]. cbn [end_tag_values rev app]. rewrite Q. reflexivity.
  Qed.
  (** get_qualified_name of a start tag: the first prefix in it, and the element's own name *)
  Definition name_ns (n : xname) (a : Z) : list tree := match x_prefix n with Some p => [at_ s a (a + zlen p) d_namespace []] | None => [] end.
  Fixpoint att_ns (l : list xatt) (a : Z) : list tree :=
    match l with [] => [] | x :: r => name_ns (a_name x) (a + zlen (a_space x)) ++ att_ns r (a + zlen (att_src x)) end.
  Lemma name_ns_eq n a : filter (t_has d_namespace) (t_all (name_tree s n a)) = name_ns n a.
  Proof. unfold name_tree, name_ns. destruct (x_prefix n); reflexivity. Qed.
  Lemma atts_ns : forall l a, filter (t_has d_namespace) (flat_map t_all (att_trees s l a)) = att_ns l a.
  Proof.
    induction l as [|x l IH]; intros a; [reflexivity|]. cbn [att_trees flat_map att_ns]. rewrite filter_app, IH. f_equal.
    rewrite t_all_eq. unfold att_tree, t_subs. cbn [at_ t_kids flat_map]. cbn [filter]. rewrite filter_app, name_ns_eq. cbn. apply app_nil_r.
  Qed.
  Lemma open_ns n ats sp fin a : filter (t_has d_namespace) (t_subs (open_tree s n ats sp fin a)) = name_ns n (a + 1) ++ att_ns ats (a + 1 + zlen (name_src n)).
  Proof.
    unfold open_tree, t_subs. cbv zeta. cbn [at_ t_kids flat_map]. rewrite filter_app, name_ns_eq. f_equal. destruct ats as [|x ats]; [reflexivity|]. cbn [flat_map]. rewrite app_nil_r, t_all_eq. cbn [filter]. unfold t_subs. cbn [t_kids].
    change (t_has d_namespace (T _ _)) with false. cbv iota. apply atts_ns.
  Qed.
  Lemma ns_text n a : sits s a (name_src n) -> match x_prefix n with Some p => sits s a p | None => True end.
  Proof. unfold name_src. destruct (x_prefix n); [|auto]. intros S. apply sits_app in S. apply S. Qed.
  Lemma att_ns_first : forall ats p, sits s p (flat_map att_src ats) ->
    match first_prefix (map a_name ats) with
    | Some u => exists q rest, att_ns ats p = at_ s q (q + zlen u) d_namespace [] :: rest /\ sits s q u
    | None => att_ns ats p = []
    end.
  Proof.
    induction ats as [|x ats IH]; intros p S; [reflexivity|]. cbn [flat_map] in S. apply sits_app in S. destruct S as [S1 S2]. cbn [map first_prefix att_ns]. unfold att_src, att_body in S1. apply sits_app in S1. destruct S1 as [_ S1]. apply sits_app in S1. destruct S1 as [S1 _]. apply ns_text in S1.
    unfold name_ns. destruct (x_prefix (a_name x)) as [u|]; [eexists _, _; split; [reflexivity|exact S1]|]. cbn [app]. exact (IH _ S2).
  Qed.
  Lemma start_tag_qualified n ats sp fin a st : at_place s a (open_src n ats sp fin) -> rep h (open_tree s n ats sp fin a) st ->
    exists p l, get_qualified_name E r h st = Ok (p, Some l) /\ node_text h p = first_prefix (tag_names n ats) /\ node_text h (Some l) = Some (x_local n).
  Proof.
    intros S R. apply place_sits in S. assert (Ds : f_desc (n_f (nd h st)) = Some d_start_tag) by (rewrite (rep_f _ _ _ R); reflexivity). pose proof (described_lt h st _ Ds) as B.
    unfold get_qualified_name. rewrite Ds. change (negb (eqb_str d_start_tag d_start_tag || eqb_str d_start_tag d_attribute)) with false. cbv iota.
    destruct (subs_found E HE h r _ st d_namespace H Ha B (graphic_value E HE d_namespace eq_refl) R) as (l1 & F1 & R1). destruct (subs_found E HE h r _ st d_name H Ha B (graphic_value E HE d_name eq_refl) R) as (l2 & F2 & R2).
    rewrite open_ns in R1. apply (first_found E h r st _ _ _ F1) in R1. apply (first_found E h r st _ _ _ F2) in R2.
    change (lit "**[d:namespace]") with (lit "**" ++ written (lit "d") d_namespace). change (lit "**[d:name]") with (lit "**" ++ written (lit "d") d_name).
    set (w1 := lit "**" ++ written (lit "d") d_namespace) in *. set (w2 := lit "**" ++ written (lit "d") d_name) in *. clearbody w1 w2. clear F1 F2.
    unfold open_src in S. apply sits_app in S. destruct S as [_ S]. apply sits_app in S. destruct S as [S1 S2]. apply sits_app in S2. destruct S2 as [S2 _]. change (zlen (lit "<")) with 1 in *.
    assert (X1 : exists p, ito_find E h r st w1 = Ok p /\ node_text h p = first_prefix (tag_names n ats)).
    { unfold tag_names. cbn [first_prefix]. pose proof (ns_text _ _ S1) as Sn. pose proof (att_ns_first ats _ S2) as An. unfold name_ns in R1. destruct (x_prefix n) as [u|].
      - cbn [app] in R1. destruct R1 as (j & -> & Rj). exists (Some j). split; [reflexivity|]. cbn [node_text option_map]. rewrite (text_of_f h s _ _ _ _ j u (proj1 Rj) Sn eq_refl). reflexivity.
      - cbn [app] in R1. destruct (first_prefix (map a_name ats)) as [u|].
        + destruct An as (q & rest & Eq_ & Sq). rewrite Eq_ in R1. destruct R1 as (j & -> & Rj). exists (Some j). split; [reflexivity|]. cbn [node_text option_map]. rewrite (text_of_f h s _ _ _ _ j u (proj1 Rj) Sq eq_refl). reflexivity.
        + rewrite An in R1. rewrite R1. exists None. split; reflexivity. }
    assert (X2 : exists l, ito_find E h r st w2 = Ok (Some l) /\ node_text h (Some l) = Some (x_local n)).
    { unfold open_tree, name_tree, name_src in *. destruct (x_prefix n) as [u|].
      - cbn in R2. destruct R2 as (j & -> & Rj). exists j. split; [reflexivity|]. cbn [node_text option_map]. apply sits_app in S1. destruct S1 as [_ S1]. apply sits_app in S1. destruct S1 as [_ S1]. change (zlen (lit ":")) with 1 in S1.
        rewrite (text_of_f h s _ _ _ _ j _ (proj1 Rj) S1); [reflexivity|]. rewrite zlen_app, zlen_cons. lia.
      - cbn in R2. destruct R2 as (j & -> & Rj). exists j. split; [reflexivity|]. cbn [node_text option_map]. rewrite (text_of_f h s _ _ _ _ j _ (proj1 Rj) S1); reflexivity. }
    destruct X1 as (p & -> & X1). destruct X2 as (l & -> & X2). cbn [bind]. exists p, l. auto.
  Qed.
End Tags.
