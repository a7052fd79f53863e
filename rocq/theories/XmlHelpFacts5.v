(** Facts for XmlHelp.v: the declarations of an element of a document. *)
From Verif Require Import SpecXmlHelp PyFacts ItoStrFacts UtilFacts HeapFacts HeapFacts2 HeapFacts3 HeapFacts4 HierHeap CombinFacts3 ArborFacts4 QueryFacts16 XmlFacts XmlFacts2 XmlFacts4 XmlFacts5 XmlFacts7 XmlFacts8 XmlHelpFacts XmlHelpFacts2 XmlHelpFacts3 XmlHelpFacts4.

Definition doc_sp (d : xdoc) : pystr := match d with XElem _ _ sp _ _ _ => sp | XEmpty _ _ sp => sp end.
Definition doc_fin (d : xdoc) : pystr := match d with XElem _ _ _ _ _ _ => lit ">" | XEmpty _ _ _ => lit "/>" end.
Definition doc_open (d : xdoc) : pystr := open_src (doc_name d) (doc_atts d) (doc_sp d) (doc_fin d).
Lemma sits_open s a d : sits s a (doc_src d) -> sits s a (doc_open d).
Proof. destruct d as [n ats sp txt kids sp'|n ats sp]; [rewrite doc_src_eq; intros H; apply sits_app in H; apply H|exact (fun H => H)]. Qed.
Section Tree.
  Variables (isspace : Z -> bool) (ie : bool) (s : pystr).
  Let DT := doc_tree isspace ie s.
  Lemma no_desc v l : (forall t, In t l -> t_has v t = false) -> filter (t_has v) l = [].
  Proof. induction l as [|t l IH]; intros H; [reflexivity|]. cbn [filter]. rewrite (H t (or_introl eq_refl)). apply IH. intros u I. apply H. right. exact I. Qed.
  Lemma text_desc v t a k : In k (text_trees isspace ie s t a) -> t_has v k = eqb_str d_text v.
  Proof. unfold text_trees. destruct (match text_src t with [] => true | _ => _ end); [intros []|]. intros [<-|[]]. reflexivity. Qed.
  Lemma kids_desc_of v l : forall p k, In k (kids_trees isspace ie s p l) -> t_has v k = eqb_str d_text v \/ t_has v k = eqb_str d_element v.
  Proof.
    induction l as [|x l IH]; intros p k I; [destruct I|]. cbn [kids_trees] in I. destruct I as [<-|I]; [right; destruct (fst x); reflexivity|]. apply in_app_or in I. destruct I as [I|I]; [left; exact (text_desc v _ _ k I)|exact (IH _ k I)].
  Qed.
  Lemma doc_shape d a : exists rest, t_kids (DT d a) = open_tree s (doc_name d) (doc_atts d) (doc_sp d) (doc_fin d) a :: rest /\ filter (t_has d_start_tag) rest = [] /\ t_f (DT d a) = FI s a (a + zlen (doc_src d)) (Some d_element) None.
  Proof.
    destruct d as [n ats sp txt kids sp'|n ats sp].
    - unfold DT. rewrite doc_tree_eq. cbv zeta. cbn [at_ t_kids t_f doc_name doc_atts doc_sp doc_fin]. eexists. split; [reflexivity|]. split; [|reflexivity]. apply no_desc. intros t I. apply in_app_or in I. destruct I as [I|I]; [rewrite (text_desc _ _ _ t I); reflexivity|]. apply in_app_or in I. destruct I as [I|[<-|[]]]; [|reflexivity]. destruct (kids_desc_of d_start_tag _ _ t I) as [-> | ->]; reflexivity.
    - exists []. split; [reflexivity|]. split; reflexivity.
  Qed.
End Tree.
Lemma filter_reps_one h v ts ks t : Forall2 (rep h) ts ks -> filter (t_has v) ts = [t] -> exists k, filter (has_desc h v) ks = [k] /\ In k ks /\ rep h t k.
Proof.
  intros F E. pose proof (reps_filter h v ts ks F) as G. rewrite E in G. destruct (filter (has_desc h v) ks) as [|k l] eqn:X; inversion G as [|? ? ? ? R R']; subst. inversion R'; subst. exists k. split; [reflexivity|]. split; [|exact R].
  assert (I : In k (filter (has_desc h v) ks)) by (rewrite X; left; reflexivity). apply filter_In in I. apply I.
Qed.
Lemma filter_reps_none h v ts ks : Forall2 (rep h) ts ks -> filter (t_has v) ts = [] -> filter (has_desc h v) ks = [].
Proof. intros F E. pose proof (reps_filter h v ts ks F) as G. rewrite E in G. inversion G. reflexivity. Qed.
Definition att_node (s : pystr) (h : heap) (x : xatt) (n : nat) : Prop := exists a, sits s a (att_body x) /\ rep h (att_tree s x a) n /\ (n < length h)%nat.
Lemma att_nodes s h : forall ats p ks, sits s p (flat_map att_src ats) -> Forall2 (rep h) (att_trees s ats p) ks -> Forall (fun k => (k < length h)%nat) ks -> Forall2 (att_node s h) ats ks.
Proof.
  induction ats as [|x ats IH]; intros p ks S F B; cbn [att_trees] in F; inversion F as [|? k ? r R R']; subst; [constructor|].
  cbn [flat_map] in S. apply sits_app in S. destruct S as [S1 S2]. inversion B as [|? ? B1 B2]; subst. constructor; [|exact (IH _ _ S2 R' B2)].
  unfold att_src in S1. apply sits_app in S1. exists (p + zlen (a_space x)). tauto.
Qed.
Lemma att_nodes_decl s h ats ks : Forall2 (att_node s h) ats ks -> Forall2 (att_node s h) (filter looks_decl ats) (filter (decl_att h) ks).
Proof. induction 1 as [|x n ats ks (a & S & R & B) F IH]; [constructor|]. cbn [filter]. rewrite (att_decl s h x a n S R). destruct (looks_decl x); [constructor; [exists a; auto|exact IH]|exact IH]. Qed.
Lemma kids_lt h i : hwf h -> (i < length h)%nat -> Forall (fun k => (k < length h)%nat) (n_kids (nd h i)).
Proof. intros H Hi. apply Forall_forall. intros k I. apply (hwf_kid h H i k I). Qed.
Lemma decls_found isspace ie s h d a j : hwf h -> (j < length h)%nat -> sits s a (doc_src d) -> rep h (doc_tree isspace ie s d a) j ->
  Forall2 (att_node s h) (filter looks_decl (doc_atts d)) (decl_atts h j).
Proof.
  intros H Hj S R. destruct (doc_shape isspace ie s d a) as (rest & K & N & _). pose proof (rep_kids h _ j R) as F. rewrite K in F.
  destruct (filter_reps_one h d_start_tag _ _ (open_tree s (doc_name d) (doc_atts d) (doc_sp d) (doc_fin d) a) F) as (st & E1 & I1 & R1); [cbn [filter]; rewrite N; reflexivity|].
  unfold decl_atts. rewrite E1. cbn [flat_map]. rewrite app_nil_r. pose proof (rep_kids h _ st R1) as F1. apply sits_open in S. unfold doc_open, open_src in S. apply sits_app in S. destruct S as [_ S]. apply sits_app in S. destruct S as [_ S]. apply sits_app in S. destruct S as [S _].
  assert (B1 : (st < length h)%nat). { pose proof (kids_lt h j H Hj) as B. rewrite Forall_forall in B. exact (B st I1). }
  change (zlen (lit "<")) with 1 in S. unfold open_tree in F1. destruct (doc_atts d) as [|x ats] eqn:Ea.
  - rewrite (filter_reps_none h d_attributes _ _ F1); [constructor|reflexivity].
  - cbv zeta in F1. cbn [at_ t_kids] in F1. destruct (filter_reps_one h d_attributes _ _ _ F1 eq_refl) as (as_ & E2 & I2 & R2). rewrite E2. cbn [flat_map]. rewrite app_nil_r. pose proof (rep_kids h _ as_ R2) as F2. cbn [t_kids] in F2.
    assert (B2 : (as_ < length h)%nat). { pose proof (kids_lt h st H B1) as B. rewrite Forall_forall in B. exact (B as_ I2). }
    apply att_nodes_decl. exact (att_nodes s h _ _ _ S F2 (kids_lt h as_ H B2)).
Qed.
Section Env.
  Variables (E : pyenv) (HE : graphic_env E) (r : renv).
  Lemma items_found s h ats ns : hwf h -> acyclic h -> Forall2 (att_node s h) ats ns ->
    exists l, map_list (fun x => do k <- get_qualified_name E r h x; do v <- ito_find E h r x (lit "*[d:value]"); Ok (k, v)) ns None = Ok l /\ Forall2 (decl_item h) ats l.
  Proof.
    intros H Ha. induction 1 as [|x n ats ns (a & S & R & B) F IH]; [exists []; split; [reflexivity|constructor]|]. destruct IH as (l & E1 & F1).
    destruct (att_qualified E HE s h r x a n H Ha B S R) as (p & q & Q & T1 & T2). destruct (att_value_found E HE s h r x a n H S R) as (v & V & T3).
    exists ((p, Some q, Some v) :: l). split; [|constructor; [|exact F1]].
    - cbn [map_list]. rewrite Q. cbn [bind]. rewrite V. cbn [bind]. rewrite E1. reflexivity.
    - split; [exact T1|]. split; [exact T2|]. cbn [node_text option_map snd]. rewrite T3. reflexivity.
  Qed.
  Lemma xmlns_found isspace ie s h d a j : hwf h -> acyclic h -> (j < length h)%nat -> sits s a (doc_src d) -> rep h (doc_tree isspace ie s d a) j ->
    exists l, get_xmlns E r h j = Ok l /\ Forall2 (decl_item h) (filter looks_decl (doc_atts d)) l.
  Proof. intros H Ha Hj S R. unfold get_xmlns. rewrite (query_found E HE h r j H). exact (items_found s h _ _ H Ha (decls_found isspace ie s h d a j H Hj S R)). Qed.
End Env.
