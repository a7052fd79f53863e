(** Properties of xml_helper.py, and of the values XmlParser gives to tags. *)
From Verif Require Import Properties_Heap Properties_Xml SpecXmlHelp QueryDemo PyFacts XmlFacts5 XmlFacts10 XmlHelpFacts XmlHelpFacts2 XmlHelpFacts4 XmlHelpFacts6 XmlHelpFacts7.
From Verif Require Import Xml SpecXml XmlHelp SpecXmlHelp.

Lemma ascii_graphic : graphic_env QueryDemo.ascii.
Proof. split; [exact ascii_delims|]. intros c Hc. cbn. lia. Qed.
(** runs the parser on a document of its own *)
Definition parse_doc (d : xdoc) : out nat := xml_parse utf8 blank true [] (doc_src d) (doc_report (event_at (cd_enc utf8) (doc_src d)) d 0).
Lemma parse_gives d : doc_ok d -> forallb (fun c => (0 <=? c) && (c <? 1114112)) (doc_src d) = true ->
  exists h r, parse_doc d = (h, Ok r) /\ document blank true h (doc_src d) d 0 r.
Proof.
  intros O U. destruct (parsed_document utf8 blank true [] d [] []) as (h & r & E & _ & D); [|exact hwf_nil|exact acyclic_nil|].
  - apply (C81_tree_partial blank true [] d []); [cbn [app]; rewrite app_nil_r; exact (unicode_b _ U)|exact O].
  - cbn [app] in E, D. rewrite app_nil_r in E, D. exists h, r. split; [exact E|exact D].
Qed.
(** <r xmlns="u" xmlns:p="v" k="1"><p:a><b xmlns="w"/></p:a></r> *)
Definition ndemo : xdoc :=
  XElem (nm "r") [XA (lit " ") (nm "xmlns") (lit "u"); XA (lit " ") (XN (Some (lit "xmlns")) (lit "p")) (lit "v"); XA (lit " ") (nm "k") (lit "1")] [] []
    [(XElem (XN (Some (lit "p")) (lit "a")) [] [] [] [(XEmpty (nm "b") [XA (lit " ") (nm "xmlns") (lit "w")] [], [])] [], [])] [].
Ltac att_parts := split; [split; [by_parts|exists []; reflexivity]|split; [by_parts|split; [discriminate|split; [by_parts|vm_compute; intuition discriminate]]]].
Ltac tag_parts := split; [by_parts|split; [repeat (apply Forall_cons; [att_parts|]); apply Forall_nil|split; [by_parts|first [left; reflexivity|right; exists []; reflexivity]]]].
Lemma ndemo_ok : doc_ok ndemo.
Proof.
  cbn [ndemo doc_ok fst snd]. split; [tag_parts|]. split; [by_parts|]. split; [left; reflexivity|]. split; [by_parts|]. split; [discriminate|]. split; [|split; [by_parts|exact I]].
  split; [tag_parts|]. split; [by_parts|]. split; [left; reflexivity|]. split; [by_parts|]. split; [discriminate|]. split; [tag_parts|]. split; [by_parts|exact I].
Qed.
Example ndemo_src : doc_src ndemo = lit "<r xmlns=""u"" xmlns:p=""v"" k=""1""><p:a><b xmlns=""w""/></p:a></r>".
Proof. reflexivity. Qed.
(** the elements of the parsed document *)
Definition elements (h : heap) : list nat := filter (fun i => match f_desc (n_f (nd h i)) with Some x => eqb_str x as_element | None => false end) (seq 0 (length h)).

(** ** C83 the values of tags *)
(** a tag without attributes *)
Theorem C83_value_partial : forall E r s h n sp fin a st, graphic_env E -> hwf h -> acyclic h -> xname_ok n -> at_place s a (open_src n [] sp fin) -> rep h (open_tree s n [] sp fin a) st ->
  exists t q, tag_values E r h st = Ok [(t, q)] /\ names n q.
Proof.
  intros E r s h n sp fin a st HE H Ha N S R. destruct (tag_values_found E HE r s h H Ha n [] sp fin a st (Forall_cons n N (Forall_nil _)) S R) as (ts & q & T & F & Nq).
  inversion F as [|? t ? l F1 F2]; subst. inversion F2; subst. exists t, q. split; [exact T|exact Nq].
Qed.
(** in general: every tag has the value of the last one *)
Theorem C83_last : forall E r s h n ats sp fin a st, graphic_env E -> hwf h -> acyclic h -> Forall xname_ok (tag_names n ats) -> at_place s a (open_src n ats sp fin) -> rep h (open_tree s n ats sp fin a) st ->
  exists ts q, tag_values E r h st = Ok (map (fun t => (t, q)) ts) /\ length ts = length (tag_names n ats) /\ names (last (tag_names n ats) n) q.
Proof.
  intros E r s h n ats sp fin a st HE H Ha N S R. destruct (tag_values_found E HE r s h H Ha n ats sp fin a st N S R) as (ts & q & T & F & Nq). exists ts, q. split; [exact T|]. split; [|exact Nq].
  clear - F. induction F as [|? ? ? ? _ _ IH]; [reflexivity|]. cbn [length]. rewrite IH. reflexivity.
Qed.
Theorem C83_end_tag : forall s h n sp a et, hwf h -> xname_ok n -> at_place s a (close_src n sp) -> rep h (close_tree s n sp a) et ->
  exists t q, n_kids (nd h et) = [t] /\ end_tag_values h [t] = Ok [(t, q)] /\ names n q.
Proof.
  intros s h n sp a et H N S R. destruct (end_tag_found s h H n sp a et N S R) as (t & q & K & _ & T & Nq). exists t, q. rewrite K in T. auto.
Qed.
(** the tag of <a b="1"/> has the value b *)
Theorem C83_attribute_refuted : exists d h r st, doc_ok d /\ document blank true h (doc_src d) d 0 r /\ hd_error (n_kids (nd h r)) = Some st /\
  exists t q l, tag_values QueryDemo.ascii no_dicts h st = Ok ((t, q) :: l) /\ ito_str (n_f (nd h t)) = name_src (doc_name d) /\ ito_str (snd q) <> x_local (doc_name d).
Proof.
  set (d := XEmpty (nm "a") [XA (lit " ") (nm "b") (lit "1")] []). assert (O : doc_ok d) by tag_parts. destruct (parse_gives d O eq_refl) as (h & r & E & D). exists d, h, r, 0%nat. split; [exact O|]. split; [exact D|].
  vm_compute in E. injection E as <- <-. split; [reflexivity|]. eexists _, _, _. split; [vm_compute; reflexivity|]. split; [reflexivity|]. vm_compute. discriminate.
Qed.
Print Assumptions C83_last.
Example C83_case : match parse_doc ndemo with
  | (h, Ok r) => match tag_values QueryDemo.ascii no_dicts h (hd O (n_kids (nd h r))) with
                 | Ok l => map (fun x => (ito_str (n_f (nd h (fst x))), ito_str (snd (snd x)))) l = [(lit "r", lit "k"); (lit "xmlns", lit "k"); (lit "xmlns:p", lit "k"); (lit "k", lit "k")]
                 | _ => False
                 end
  | _ => False
  end.
Proof. vm_compute. reflexivity. Qed.

(** ** C84 QualifiedName *)
Theorem C84_from_src : forall f, fwf f -> exists q, qn_from_src f = Ok q /\ qn_str q = ito_str f /\
  match fst q with
  | None => snd q = f /\ ~ In 58 (ito_str f)
  | Some p => within p f /\ within (snd q) f /\ f_start p = f_start f /\ f_start (snd q) = f_stop p + 1 /\ f_stop (snd q) = f_stop f /\
              ito_str f = ito_str p ++ 58 :: ito_str (snd q) /\ ~ In 58 (ito_str p)
  end.
Proof. exact qn_parts. Qed.
(** the start tag of a parsed element: the prefix is the first one that stands in the tag *)
Theorem C84_start_tag : forall E r s h n ats sp fin a st, graphic_env E -> hwf h -> acyclic h -> at_place s a (open_src n ats sp fin) -> rep h (open_tree s n ats sp fin a) st ->
  exists p l, get_qualified_name E r h st = Ok (p, Some l) /\ node_text h p = first_prefix (tag_names n ats) /\ node_text h (Some l) = Some (x_local n).
Proof. intros E r s h n ats sp fin a st HE H Ha. exact (start_tag_qualified E HE r s h H Ha n ats sp fin a st). Qed.
Theorem C84_start_tag_partial : forall E r s h n ats sp fin a st, graphic_env E -> hwf h -> acyclic h -> at_place s a (open_src n ats sp fin) -> rep h (open_tree s n ats sp fin a) st ->
  x_prefix n <> None \/ Forall (fun x => x_prefix (a_name x) = None) ats ->
  exists p l, get_qualified_name E r h st = Ok (p, Some l) /\ node_text h p = x_prefix n /\ node_text h (Some l) = Some (x_local n).
Proof.
  intros E r s h n ats sp fin a st HE H Ha S R X. destruct (start_tag_qualified E HE r s h H Ha n ats sp fin a st S R) as (p & l & Q & P & L). exists p, l. split; [exact Q|]. split; [|exact L]. rewrite P. unfold tag_names. cbn [first_prefix].
  destruct (x_prefix n) as [u|]; [reflexivity|]. destruct X as [X|X]; [congruence|]. clear - X. induction X as [|x l Ex _ IH]; [reflexivity|]. cbn [map first_prefix]. rewrite Ex. exact IH.
Qed.
Theorem C84_attribute : forall E r s h x a n, graphic_env E -> hwf h -> acyclic h -> at_place s a (att_body x) -> rep h (att_tree s x a) n ->
  exists p l, get_qualified_name E r h n = Ok (p, Some l) /\ node_text h p = x_prefix (a_name x) /\ node_text h (Some l) = Some (x_local (a_name x)).
Proof.
  intros E r s h x a n HE H Ha S R. apply (att_qualified E HE s h r x a n H Ha); [|exact (place_sits _ _ _ S)|exact R]. apply (described_lt h n as_attribute). rewrite (rep_f _ _ _ R). reflexivity.
Qed.
(** <a x:b="1"/>: the name x:a *)
Theorem C84_prefix_refuted : exists d h r st p l, doc_ok d /\ document blank true h (doc_src d) d 0 r /\ hd_error (n_kids (nd h r)) = Some st /\ x_prefix (doc_name d) = None /\
  get_qualified_name QueryDemo.ascii no_dicts h st = Ok (Some p, Some l) /\ ito_str (n_f (nd h p)) = lit "x".
Proof.
  set (d := XEmpty (nm "a") [XA (lit " ") (XN (Some (lit "x")) (lit "b")) (lit "1")] []). assert (O : doc_ok d) by tag_parts. destruct (parse_gives d O eq_refl) as (h & r & E & D). exists d, h, r. eexists 0%nat, _, _. split; [exact O|]. split; [exact D|].
  vm_compute in E. injection E as <- <-. split; [reflexivity|]. split; [reflexivity|]. split; [vm_compute; reflexivity|]. reflexivity.
Qed.
Print Assumptions C84_from_src.
Example C84_case : match qn_from_src (FI (lit "<a:b:c/>") 1 6 None None) with
  | Ok (Some p, x) => ito_str p = lit "a" /\ ito_str x = lit "b:c" /\ f_start x = 3 /\ qn_str (Some p, x) = lit "a:b:c" | _ => False end.
Proof. vm_compute. auto. Qed.

(** ** C85 Clark names *)
Theorem C85_parts : forall tag,
  match get_namespace tag with
  | Some n => (exists u, n = u ++ lit "}" /\ ~ In 125 u) /\ tag = n ++ get_local_name tag
  | None => ~ In 125 tag /\ get_local_name tag = tag
  end.
Proof. exact clark_parts. Qed.
Theorem C85_clark : forall u v, ~ In 125 u -> get_namespace (lit "{" ++ u ++ lit "}" ++ v) = Some (lit "{" ++ u ++ lit "}") /\ get_local_name (lit "{" ++ u ++ lit "}" ++ v) = v.
Proof. exact clark_whole. Qed.
(** EtName.from_item of an Ito *)
Theorem C85_et_clark_partial : forall h i u v, hwf h -> acyclic h -> (i < length h)%nat -> ito_str (n_f (nd h i)) = lit "{" ++ u ++ lit "}" ++ v -> u <> [] -> v <> [] -> ~ In 125 u ->
  exists h' n x, et_from_item h i = (h', Ok (Some n, x)) /\ extends h h' /\ hwf h' /\
    n_f (nd h' n) = FI (h_string h i) (h_start h i) (h_start h i + zlen u + 2) (Some as_namespace) None /\
    n_f (nd h' x) = FI (h_string h i) (h_start h i + zlen u + 2) (h_stop h i) (Some as_name) None.
Proof.
  intros h i u v H Ha Hi T U V N. destruct (et_clark h i u v (conj H Ha) Hi T U V N) as (h' & n & x & E & X & F & O1 & O2). exists h', n, x. split; [exact E|]. split; [exact X|]. split; [apply F|]. split; [exact (rep_f _ _ _ (proj1 O1))|exact (rep_f _ _ _ (proj1 O2))].
Qed.
Theorem C85_et_plain_partial : forall h i, hwf h -> acyclic h -> (i < length h)%nat -> ito_str (n_f (nd h i)) <> [] -> (forall r, ito_str (n_f (nd h i)) <> 123 :: r) ->
  exists h' x, et_from_item h i = (h', Ok (None, x)) /\ extends h h' /\ hwf h' /\ n_f (nd h' x) = FI (h_string h i) (h_start h i) (h_stop h i) (Some as_name) None.
Proof.
  intros h i H Ha Hi N1 N2. destruct (et_plain h i (conj H Ha) Hi N1 N2) as (h' & x & E & X & F & O). exists h', x. split; [exact E|]. split; [exact X|]. split; [apply F|]. exact (rep_f _ _ _ (proj1 O)).
Qed.
(** of an element: its whole text is taken for the name *)
Theorem C85_element_refuted : exists d h r, doc_ok d /\ document blank true h (doc_src d) d 0 r /\
  exists h' x, et_from_item h r = (h', Ok (None, x)) /\ ito_str (n_f (nd h' x)) = doc_src d /\ doc_src d <> name_src (doc_name d).
Proof.
  set (d := XEmpty (nm "a") [] []). assert (O : doc_ok d) by tag_parts. destruct (parse_gives d O eq_refl) as (h & r & E & D). exists d, h, r. split; [exact O|]. split; [exact D|].
  vm_compute in E. injection E as <- <-. eexists _, _. split; [vm_compute; reflexivity|]. split; [reflexivity|]. discriminate.
Qed.
Print Assumptions C85_et_clark_partial.
Example C85_case : get_namespace (lit "{u}a") = Some (lit "{u}") /\ get_local_name (lit "{u}a") = lit "a" /\
  match new_str [] (lit "q{u:v}a{}b") (Some 1) None None with
  | (h, Ok i) => match et_from_item h i with
                 | (h, Ok (Some n, x)) => ito_str (n_f (nd h n)) = lit "{u:v}" /\ ito_str (n_f (nd h x)) = lit "a{}b"
                 | _ => False end
  | _ => False end.
Proof. split; [reflexivity|]. split; [reflexivity|]. vm_compute. auto. Qed.

(** ** C86 the way up *)
(** the element nearest above a node of any tree *)
Theorem C86_parent : forall E r h i, graphic_env E -> hwf h -> acyclic h -> (i < length h)%nat ->
  exists o, get_parent_element E r h i = Ok o /\ nearest h (fun k => anc h k i) (is_element h) o.
Proof.
  intros E r h i HE H Ha Hi. destruct (parent_found E HE h r i H Ha Hi) as (l & A & P). exists (hd_error l). split; [exact P|exact (above_nearest h i l Ha A)].
Qed.
Theorem C86_reverse : forall E r h i test, graphic_env E -> hwf h -> acyclic h -> (i < length h)%nat ->
  exists o, (forall n, (length h < n)%nat -> reverse_find E r n h test i = Ok o) /\
            nearest h (fun k => k = i \/ (anc h k i /\ is_element h k)) (fun k => test k = true) o.
Proof.
  intros E r h i test HE H Ha Hi. destruct (parent_found E HE h r i H Ha Hi) as (l & A & _). exists (find test (i :: l)). split; [|exact (reverse_nearest h i l test Ha A)].
  intros n L. apply (reverse_found E HE h r test H Ha); [exact Hi|exact A|]. pose proof (above_length h i l H Ha A). lia.
Qed.
(** in a parsed document: every element of the document has its node, and the parent found is the node of the element around it *)
Theorem C86_document : forall E r isspace ie h s d a root, graphic_env E -> document isspace ie h s d a root ->
  (forall j, j = root \/ anc h root j -> is_element h j -> exists up e p, elem_in d a up e p /\ rep h (doc_tree isspace ie s e p) j) /\
  (forall up e p, elem_in d a up e p -> exists j, rep h (doc_tree isspace ie s e p) j /\ get_parent_element E r h j = Ok (n_par (nd h j)) /\
     match up, n_par (nd h j) with
     | [], None => True
     | f :: _, Some q => exists b, rep h (doc_tree isspace ie s f b) q
     | _, _ => False
     end).
Proof.
  intros E r isspace ie h s d a root HE D. split.
  - intros j J Ej. destruct (element_of isspace ie h s d a root D j J Ej) as (up & e & p & js & I & (_ & R & _)). exists up, e, p. auto.
  - intros up e p I. destruct (node_of isspace ie h s d a root D up e p I) as (j & js & C). exists j. split; [apply C|]. split; [exact (chain_parent isspace ie h s d a root D E HE r e p up j js C)|].
    destruct C as (_ & _ & _ & _ & -> & F). inversion F as [|f q ? ? ((b & _ & Rb) & _) F']; subst; cbn [hd_error]; [exact Logic.I|]. exists b. exact Rb.
Qed.
Print Assumptions C86_document.
Example C86_case : match parse_doc ndemo with
  | (h, Ok r) => map (fun i => (h_start h i, match get_parent_element QueryDemo.ascii no_dicts h i with Ok (Some q) => h_start h q | _ => -1 end,
                                match reverse_find QueryDemo.ascii no_dicts 99 h (fun k => h_start h k <=? 33) i with Ok (Some q) => h_start h q | _ => -1 end)) (elements h) =
                 [(0, -1, 0); (31, 0, 31); (36, 31, 31)]
  | _ => False
  end.
Proof. vm_compute. reflexivity. Qed.

(** ** C87 namespaces *)
Definition no_decl_values (e : xdoc) : Prop := Forall value_no_decl (doc_atts e).
(** for the node j of the element e with the elements up around it *)
Definition namespaces_right (E : pyenv) (r : renv) (h : heap) (j : nat) (e : xdoc) (up : list xdoc) : Prop :=
  (no_decl_values e ->
   (exists l, get_xmlns E r h j = Ok l /\ Forall2 (decl_item h) (filter (fun x => default_decl x || prefix_decl x) (doc_atts e)) l) /\
   (NoDup (map (fun x => x_local (a_name x)) (filter prefix_decl (doc_atts e))) ->
    get_prefix_map E r h j = Ok (map (fun x => (x_local (a_name x), a_value x)) (filter prefix_decl (doc_atts e))))) /\
  (Forall no_decl_values (e :: up) ->
   forall n, (length h < n)%nat -> get_default_namespace E r n h j = Ok (option_map (fun v => lit "{" ++ v ++ lit "}") (default_of (e :: up)))).
Theorem C87_namespaces_partial : forall E r isspace ie h s d a root, graphic_env E -> document isspace ie h s d a root -> doc_wf d ->
  forall j, j = root \/ anc h root j -> is_element h j -> exists up e p, elem_in d a up e p /\ rep h (doc_tree isspace ie s e p) j /\ namespaces_right E r h j e up.
Proof.
  intros E r isspace ie h s d a root HE D W j J Ej. destruct (element_of isspace ie h s d a root D j J Ej) as (up & e & p & js & I & C). exists up, e, p. split; [exact I|]. split; [apply C|].
  destruct (elem_wf d a up e p W I) as [We Wu]. split.
  - intros V. split; [exact (chain_xmlns isspace ie h s d a root D E HE r e p up j js We V C)|]. intros N. exact (chain_map isspace ie h s d a root D E HE r e p up j js We V N C).
  - intros V n L. exact (chain_default isspace ie h s d a root D E HE r e p up j js (Forall_cons e We Wu) V C n L).
Qed.
(** an attribute whose value looks like the name of a declaration is taken for one: <a b="xmlns"/> has the default namespace {xmlns} *)
Theorem C87_default_refuted : exists d h r, doc_ok d /\ document blank true h (doc_src d) d 0 r /\ default_of [d] = None /\
  get_default_namespace QueryDemo.ascii no_dicts 99 h r = Ok (Some (lit "{xmlns}")).
Proof.
  set (d := XEmpty (nm "a") [XA (lit " ") (nm "b") (lit "xmlns")] []). assert (O : doc_ok d) by tag_parts. destruct (parse_gives d O eq_refl) as (h & r & E & D). exists d, h, r. split; [exact O|]. split; [exact D|].
  vm_compute in E. injection E as <- <-. split; [reflexivity|]. vm_compute. reflexivity.
Qed.
Theorem C87_map_refuted : exists d h r, doc_ok d /\ document blank true h (doc_src d) d 0 r /\ filter prefix_decl (doc_atts d) = [] /\
  get_prefix_map QueryDemo.ascii no_dicts h r = Ok [(lit "b", lit "xmlns")].
Proof.
  set (d := XEmpty (nm "a") [XA (lit " ") (XN (Some (lit "p")) (lit "b")) (lit "xmlns")] []). assert (O : doc_ok d) by tag_parts. destruct (parse_gives d O eq_refl) as (h & r & E & D). exists d, h, r. split; [exact O|]. split; [exact D|].
  vm_compute in E. injection E as <- <-. split; [reflexivity|]. vm_compute. reflexivity.
Qed.
Print Assumptions C87_namespaces_partial.
Example C87_case : doc_ok ndemo /\ no_decl_values ndemo /\ match parse_doc ndemo with
  | (h, Ok r) => map (fun i => (h_start h i, get_default_namespace QueryDemo.ascii no_dicts 99 h i, get_prefix_map QueryDemo.ascii no_dicts h i)) (elements h) =
                 [(0, Ok (Some (lit "{u}")), Ok [(lit "p", lit "v")]); (31, Ok (Some (lit "{u}")), Ok []); (36, Ok (Some (lit "{w}")), Ok [])]
  | _ => False
  end.
Proof. split; [exact ndemo_ok|]. split; [repeat (apply Forall_cons; [reflexivity|]); apply Forall_nil|]. vm_compute. reflexivity. Qed.
