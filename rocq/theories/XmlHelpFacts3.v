(** Facts for XmlHelp.v: the query for namespace declarations. *)
From Verif Require Import SpecXmlHelp XmlFacts5 PyFacts UtilFacts HeapFacts HeapFacts2 HeapFacts3 HeapFacts4 HierHeap CombinFacts3 AxisFacts AxisFacts3 QueryFacts9 QueryFacts11 QueryFacts12 QueryFacts13 QueryFacts14 QueryFacts15 QueryFacts16 XmlHelpFacts2.

Section Env.
  Variables (E : pyenv) (HE : graphic_env E).
  Let PD : plain_delims E := proj1 HE.
  Definition kids_ax : axis := AX AxKids false OsNo.
  Lemma plain_group name t f : name <> [] -> forallb key_char name = true -> safe (lit "[]/{}") false t -> writable E t -> filter_func E false name t = Ok f -> filter_group E (written name t).
  Proof. intros H1 H2 H3 H4 F. destruct (written_ok E name t H1 H2 H3 H4) as (G1 & G2 & G3 & _). split; [exact G1|]. split; [exact G2|]. exists f. unfold one_filter. rewrite G3. exact F. Qed.
  Lemma more_printable p q : printable E p -> printable E (p ++ q).
  Proof. intros (c & C1 & C2). exists c. split; [apply in_or_app; left; exact C1|exact C2]. Qed.
  (** one phrase with one filter parses *)
  Lemma phrase_written name t f : name <> [] -> forallb key_char name = true -> safe (lit "[]/{}") false t -> writable E t -> filter_func E false name t = Ok f ->
    exists ph, parse_query E (lit "*" ++ written name t) = Ok [ph] /\ ph_axis ph = kids_ax.
  Proof.
    intros H1 H2 H3 H4 F. destruct (written_ok E name t H1 H2 H3 H4) as (G1 & G2 & G3 & G4). destruct (safe_single _ G4) as (_ & S4 & S5).
    destruct (safe_single (lit "*" ++ written name t)) as (S1 & _ & _); [apply safe_app; [exact (axis_safe _ _ star_text)|exact G4]|].
    destruct (phrase_plain E (parse_query E) kids_ax (lit "*") (Some (EAtom (written name t))) [IF (written name t)]) as (g & P & _); cbn [text_of atoms part]; try assumption.
    - exact star_text.
    - rewrite app_nil_r. cbn. lia.
    - exists false. apply r_up, r_up, r_up. apply r_atom.
    - intros g [<-|[]]. exact (plain_group name t f H1 H2 H3 H4 F).
    - rewrite app_nil_r. exact S4.
    - rewrite app_nil_r. unfold complete in S5. rewrite S5. reflexivity.
    - cbn [text_of] in P. rewrite app_nil_r in P. rewrite (parse_single E _ (more_printable _ _ (star_printable E HE)) S1), P. eexists. split; reflexivity.
  Qed.
  Lemma desc_phrase v : plain_value E v -> exists ph, parse_query E (lit "*" ++ written (lit "d") v) = Ok [ph] /\ ph_axis ph = kids_ax.
  Proof.
    intros [Ev Wv]. eapply phrase_written; [discriminate|reflexivity| |exact Wv|reflexivity]. pose proof (value_safe [v]) as S. unfold value_list in S. cbn [map py_join] in S. rewrite Ev in S. exact S.
  Qed.
  Definition is_decl_filter : ecf := fun _ r ec => do d <- validate (rv_preds r); g_all (fun p => not_if false (p ec)) (selected d [lit "is_xmlns"], None).
  Lemma decl_filter : filter_func E false (lit "p") (lit "is_xmlns") = Ok is_decl_filter.
  Proof. reflexivity. Qed.
  Lemma decl_writable : writable E (lit "is_xmlns").
  Proof. split; [|discriminate]. eexists _, _. split; [reflexivity|]. apply (proj2 HE). vm_compute. split; discriminate. Qed.
  Lemma decl_safe : safe (lit "[]/{}") false (lit "is_xmlns").
  Proof. apply safe_plain. intros c Hc. vm_compute in Hc. vm_compute. intuition (subst; discriminate || congruence). Qed.
  Definition decl_kid (h : heap) (k : nat) : bool := xmlns_text (ito_str (n_f (nd h k))).
  (** '{*[p:is_xmlns]}' *)
  Lemma decl_sub h r ec : sub_value E h (xmlns_env r h) ec (lit "{*[p:is_xmlns]}") = Ok (existsb (decl_kid h) (n_kids (nd h (snd ec)))).
  Proof.
    unfold sub_value. change (inside (lit "{*[p:is_xmlns]}")) with (lit "*" ++ written (lit "p") (lit "is_xmlns")). rewrite find_first.
    rewrite (find_written E h (xmlns_env r h) (snd ec) kids_ax (lit "*") (lit "p") (lit "is_xmlns") is_decl_filter (number (n_kids (nd h (snd ec)))) (fun x => decl_kid h (snd x))).
    - rewrite (number_filter (decl_kid h)) by reflexivity. induction (n_kids (nd h (snd ec))) as [|k l IH]; [reflexivity|]. cbn [filter existsb]. destruct (decl_kid h k); [reflexivity|exact IH].
    - exact PD.
    - exact star_text.
    - exact (star_printable E HE).
    - discriminate.
    - reflexivity.
    - exact decl_safe.
    - exact decl_writable.
    - exact decl_filter.
    - apply kids_axis.
    - intros x _. unfold is_decl_filter, xmlns_env, decl_kid. cbn. destruct (xmlns_text _); reflexivity.
  Qed.
  Lemma no_slash_single s : ~ In 47 s -> fst (after false 0 s) = false -> single_phrase s.
  Proof. intros N A. split; [exact A|]. intros u v Es. exfalso. apply N. rewrite Es. apply in_or_app. right. left. reflexivity. Qed.
  Definition sub_text : pystr := lit "{*[p:is_xmlns]}".
  Lemma sub_group_ok : sub_group (parse_query E) sub_text.
  Proof.
    destruct (group_safe 123 125 (lit "*[p:is_xmlns]")) as [G1 G2]; [discriminate|discriminate|discriminate| |vm_compute; discriminate|].
    { apply safe_plain. intros c Hc. vm_compute in Hc. vm_compute. intuition (subst; discriminate || congruence). }
    split; [exact G1|]. split; [exact G2|]. destruct (phrase_written (lit "p") (lit "is_xmlns") is_decl_filter) as (ph & P & _); [discriminate|reflexivity|exact decl_safe|exact decl_writable|exact decl_filter|]. eexists. exact P.
  Qed.
  Let v_att : plain_value E d_attribute. Proof. apply graphic_value; [exact HE|reflexivity]. Qed.
  Let v_atts : plain_value E d_attributes. Proof. apply graphic_value; [exact HE|reflexivity]. Qed.
  Let v_start : plain_value E d_start_tag. Proof. apply graphic_value; [exact HE|reflexivity]. Qed.
  Let g_att : pystr := written (lit "d") d_attribute.
  Definition q3 : pystr := lit "*" ++ g_att ++ sub_text.
  Lemma att_group : filter_group E g_att.
  Proof.
    destruct v_att as [Ev Wv]. eapply plain_group; [discriminate|reflexivity| |exact Wv|reflexivity]. pose proof (value_safe [d_attribute]) as S. unfold value_list in S. cbn [map py_join] in S. rewrite Ev in S. exact S.
  Qed.
  Lemma no_brace_att : no_brace g_att.
  Proof. intros u v Es. exfalso. assert (N : ~ In 123 g_att) by (vm_compute; intuition discriminate). apply N. rewrite Es. apply in_or_app. right. left. reflexivity. Qed.
  Lemma q3_parse : exists ph, parse_query E q3 = Ok [ph] /\ ph_axis ph = kids_ax.
  Proof.
    destruct (phrase_sub E (parse_query E) kids_ax (lit "*") (Some (EAtom g_att)) [IF g_att] (EAtom sub_text) [IF sub_text]) as (f & g & P & _).
    - exact PD.
    - exact star_text.
    - cbn. lia.
    - exists false. apply r_up, r_up, r_up. apply r_atom.
    - intros g [<-|[]]. exact att_group.
    - cbn [text_of]. rewrite app_nil_r. exact no_brace_att.
    - reflexivity.
    - right. exists [], g_att. reflexivity.
    - exists false. apply r_up, r_up, r_up. apply r_atom.
    - intros g [<-|[]]. exact sub_group_ok.
    - cbn [text_of] in P. rewrite !app_nil_r in P. unfold q3. rewrite parse_single, P; [eexists; split; reflexivity|apply more_printable; exact (star_printable E HE)|].
      apply no_slash_single; [vm_compute; intuition discriminate|reflexivity].
  Qed.
  Definition decl_att (h : heap) (x : nat) : bool := has_desc h d_attribute x && existsb (decl_kid h) (n_kids (nd h x)).
  Lemma q3_find h r i : hwf h -> ito_find_all E h (xmlns_env r h) i q3 = (filter (decl_att h) (n_kids (nd h i)), None).
  Proof.
    intros H. pose proof (find_filters_subs E h (xmlns_env r h) i kids_ax (lit "*") (Some (EAtom g_att)) [IF g_att] (EAtom sub_text) [IF sub_text] (number (n_kids (nd h i)))
      (fun ec _ => has_desc h d_attribute (snd ec)) (fun ec _ => existsb (decl_kid h) (n_kids (nd h (snd ec))))) as T. cbn [text_of atoms part part_truth truth] in T. rewrite !app_nil_r in T. fold q3 in T. rewrite T; clear T.
    - f_equal. apply number_filter. reflexivity.
    - exact PD.
    - exact star_text.
    - cbn. lia.
    - exists false. apply r_up, r_up, r_up. apply r_atom.
    - intros g [<-|[]]. exact att_group.
    - exact no_brace_att.
    - reflexivity.
    - right. exists [], g_att. reflexivity.
    - exists false. apply r_up, r_up, r_up. apply r_atom.
    - intros g [<-|[]]. exact sub_group_ok.
    - apply no_slash_single; [vm_compute; intuition discriminate|reflexivity].
    - apply more_printable. exact (star_printable E HE).
    - apply kids_axis.
    - intros g ec [<-|[]] _. unfold filter_value.
      destruct (text_filter E KDesc (lit "d") [d_attribute]) as (f & F1 & F2); [cbn; tauto|exact I|exact I|discriminate|]. destruct v_att as [Ev Wv]. assert (VL : value_list [d_attribute] = d_attribute) by reflexivity.
      assert (O : one_filter E g_att = Ok f). { unfold one_filter, g_att. rewrite <- VL. destruct (written_ok E (lit "d") (value_list [d_attribute])) as (_ & _ & G3 & _); [discriminate|reflexivity|apply value_safe|rewrite VL; exact Wv|]. rewrite G3. exact F1. }
      rewrite O. cbn [res_ecf]. destruct (F2 h (xmlns_env r h) ec H) as (b & -> & B). f_equal. destruct b.
      + symmetry. apply has_desc_iff. destruct (proj1 B eq_refl) as (v & [<-|[]] & M). exact M.
      + destruct (has_desc h d_attribute (snd ec)) eqn:D; [|reflexivity]. apply has_desc_iff in D. apply B. exists d_attribute. split; [left; reflexivity|exact D].
    - intros g ec [<-|[]] _. apply decl_sub.
  Qed.
  Lemma gbind_pure {A B} (l : list A) (f : A -> list B) : gbind (l, None) (fun x => (f x, None)) = (flat_map f l, None).
  Proof. unfold gbind. cbn [fst snd]. induction l as [|x l IH]; [reflexivity|]. cbn [gflat flat_map]. rewrite IH. reflexivity. Qed.
  Lemma gbind_ext {A B} (l : list A) (f g : A -> gen B) : (forall x, f x = g x) -> gbind (l, None) f = gbind (l, None) g.
  Proof. intros X. unfold gbind. apply QueryFacts12.gflat_ext. exact X. Qed.
  (** the nodes the query finds *)
  Definition decl_atts (h : heap) (i : nat) : list nat :=
    flat_map (fun st => flat_map (fun at_ => filter (decl_att h) (n_kids (nd h at_))) (filter (has_desc h d_attributes) (n_kids (nd h st)))) (filter (has_desc h d_start_tag) (n_kids (nd h i))).
  Lemma query_found h r i : hwf h -> ito_find_all E h (xmlns_env r h) i xmlns_query = (decl_atts h i, None).
  Proof.
    intros H. set (q1 := lit "*" ++ written (lit "d") d_start_tag). set (q2 := lit "*" ++ written (lit "d") d_attributes).
    change xmlns_query with (q1 ++ 47 :: (q2 ++ 47 :: q3)).
    destruct (desc_phrase d_start_tag v_start) as (p1 & P1 & X1). destruct (desc_phrase d_attributes v_atts) as (p2 & P2 & X2). destruct q3_parse as (p3 & P3 & X3).
    assert (R1 : printable E q1) by (apply more_printable; exact (star_printable E HE)). assert (R2 : printable E q2) by (apply more_printable; exact (star_printable E HE)). assert (R3 : printable E q3) by (apply more_printable; exact (star_printable E HE)).
    assert (C1 : complete q1) by reflexivity. assert (C2 : complete q2) by reflexivity.
    assert (P23 : parse_query E (q2 ++ 47 :: q3) = Ok [p2; p3]). { apply parse_compose; try assumption. exists [p2], [p3]. auto. }
    rewrite (compose_local E q1 (q2 ++ 47 :: q3) h _ i [p1] [p2; p3] C1 R1 (more_printable _ _ R2) P1 P23).
    2: { constructor; [rewrite X2; reflexivity|]. constructor; [rewrite X3; reflexivity|constructor]. }
    unfold q1. rewrite (kids_desc E HE h _ i d_start_tag H v_start).
    rewrite (gbind_ext _ _ (fun st => (flat_map (fun at_ => filter (decl_att h) (n_kids (nd h at_))) (filter (has_desc h d_attributes) (n_kids (nd h st))), None))).
    - rewrite gbind_pure. reflexivity.
    - intros st. rewrite (compose_local E q2 q3 h _ st [p2] [p3] C2 R2 R3 P2 P3).
      2: { constructor; [rewrite X3; reflexivity|constructor]. }
      unfold q2. rewrite (kids_desc E HE h _ st d_attributes H v_atts). rewrite (gbind_ext _ _ (fun at_ => (filter (decl_att h) (n_kids (nd h at_)), None))).
      + apply gbind_pure.
      + intros x. apply q3_find. exact H.
  Qed.
End Env.
