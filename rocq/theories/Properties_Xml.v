(** Properties of xml_parser.py and xml_helper.py. *)
From Verif Require Import Properties_Heap SpecXml PyFacts XmlFacts XmlFacts2 XmlFacts5 XmlFacts7 XmlFacts8 XmlFacts9 XmlFacts10.
From Verif Require Import Xml SpecXml.

Definition blank (c : Z) : bool := mem_char c [9; 10; 13; 32].
(** latin-1 *)
Definition latin1 : codec := Codec (fun s => s) (fun b => Ok b).

(** ** C80 positions: the offsets of a document given to the parser in one piece *)
Theorem C80_offsets_partial : forall s ps, Forall unicode s -> Forall (fun p => 0 <= p <= zlen s) ps -> StronglySorted Z.le ps ->
  offsets utf8 s ix_reset (map (event_at (cd_enc utf8) s) ps) = Ok ps.
Proof. exact offsets_utf8. Qed.
(** the same for every encoding, if the positions are counted in it *)
Theorem C80_any_codec_partial : forall c ok s ps, codec_for c ok -> Forall ok s -> Forall (fun p => 0 <= p <= zlen s) ps -> StronglySorted Z.le ps ->
  offsets c s ix_reset (map (event_at (cd_enc c) s) ps) = Ok ps.
Proof. exact offsets_codec. Qed.
Theorem C80_utf8 : codec_for utf8 unicode.
Proof. exact utf8_ok. Qed.
(** expat counts the bytes of the UTF-8 it is given, whatever the encoding of the XmlParser *)
Theorem C80_encoding_refuted : exists s p, codec_for latin1 (fun c => 0 <= c < 256) /\ Forall (fun c => 0 <= c < 256) s /\ 0 <= p <= zlen s /\
  exists q, offsets latin1 s ix_reset [event_at (cd_enc utf8) s p] = Ok [q] /\ q <> p.
Proof.
  exists ([60; 114; 62; 233; 10] ++ lit "<a/></r>"), 5. split; [split; intros; reflexivity|]. split; [apply Forall_forall; cbn; intros x; lia|].
  split; [vm_compute; split; discriminate|]. exists 6. split; [vm_compute; reflexivity|discriminate].
Qed.
(** feed keeps only the piece it is given last *)
Theorem C80_pieces_refuted : exists a b ps qs, StronglySorted Z.le (ps ++ qs) /\
  Forall (fun p => 0 <= p <= zlen a) ps /\ Forall (fun p => zlen a <= p <= zlen (a ++ b)) qs /\ Forall unicode (a ++ b) /\
  let ev := event_at (cd_enc utf8) (a ++ b) in
  exists l, feed_all utf8 [(a, map ev ps); (b, map ev qs)] = Ok l /\ l <> ps ++ qs.
Proof.
  exists (lit "<r>some text" ++ [10]), (lit "<a/></r>"), [0], [13]. split; [repeat constructor; lia|]. split; [repeat constructor; vm_compute; discriminate|].
  split; [repeat constructor; vm_compute; discriminate|]. split; [repeat (apply Forall_cons; [split; vm_compute; (discriminate || reflexivity)|]); apply Forall_nil|].
  cbv zeta. exists [0; 8]. split; [vm_compute; reflexivity|discriminate].
Qed.
Print Assumptions C80_offsets_partial.
(** two bytes, three bytes and four bytes; LF, CR LF and CR *)
Example C80_case : offsets utf8 ([60; 233; 13; 10; 60; 8364; 62; 13; 60; 128512; 10; 10; 60; 62]) ix_reset
    (map (event_at (cd_enc utf8) ([60; 233; 13; 10; 60; 8364; 62; 13; 60; 128512; 10; 10; 60; 62])) [0; 1; 4; 6; 8; 10; 12; 12; 13]) = Ok [0; 1; 4; 6; 8; 10; 12; 12; 13] /\
  event_at (cd_enc utf8) ([60; 233; 13; 10; 60; 8364; 62; 13; 60; 128512; 10; 10; 60; 62]) 8 = EV 3 0 11.
Proof. split; vm_compute; reflexivity. Qed.

(** ** C81 the tree of a document *)
Theorem C81_tree_partial : forall isspace ie pre d post, Forall unicode (pre ++ doc_src d ++ post) -> doc_ok d -> parsed utf8 isspace ie pre d post.
Proof. intros isspace ie pre d post. exact (parse_codec utf8 unicode isspace ie pre d post utf8_ok). Qed.
(** the documents covered are well-formed, but not every well-formed document is covered *)
Theorem C81_covered : forall d, doc_ok d -> doc_wf d.
Proof. exact doc_ok_wf. Qed.
Definition unparsed (d : xdoc) : Prop := doc_wf d /\ Forall unicode (doc_src d) /\ ~ parsed utf8 blank true [] d [].
Ltac by_parts := vm_compute; repeat (apply conj || apply Forall_cons || apply Forall_nil || exact I); intuition discriminate.
Definition nm (s : String.string) : xname := XN None (lit s).
Lemma unicode_b s : forallb (fun c => (0 <=? c) && (c <? 1114112)) s = true -> Forall unicode s.
Proof. intros H. rewrite forallb_forall in H. apply Forall_forall. intros c I. specialize (H c I). unfold unicode. lia. Qed.
Lemma unparsed_result d : doc_wf d -> forallb (fun c => (0 <=? c) && (c <? 1114112)) (doc_src d) = true ->
  result blank true d <> Some (listing (doc_tree blank true (doc_src d) d 0)) -> unparsed d.
Proof. intros W U N. split; [exact W|]. split; [exact (unicode_b _ U)|]. intros P. exact (N (parsed_result _ _ _ P)). Qed.
Ltac by_run := apply unparsed_result; [by_parts|vm_compute; reflexivity|vm_compute; discriminate].
(** the name pattern takes a tab or line break for a part of the name; an attribute after it then overlaps it *)
Theorem C81_tab_refuted : exists d, unparsed d /\ result blank true d = None.
Proof. exists (XEmpty (nm "a") [XA [9] (nm "x") (lit "1")] []). split; [by_run|vm_compute; reflexivity]. Qed.
Theorem C81_newline_refuted : exists d, unparsed d.
Proof. exists (XEmpty (nm "a") [] [10]). by_run. Qed.
(** a start tag ends at the first '>', even inside an attribute value *)
Theorem C81_gt_refuted : exists d, unparsed d.
Proof. exists (XEmpty (nm "a") [XA (lit " ") (nm "x") (lit ">")] []). by_run. Qed.
(** an element without child elements whose text looks like the end of an empty-element tag loses text and end tag *)
Theorem C81_text_refuted : exists d, unparsed d /\ result blank true d = Some [(Some as_element, 0, 5); (Some as_start_tag, 0, 3); (Some as_tag, 1, 2); (Some as_name, 1, 2)].
Proof. exists (XElem (nm "a") [] [] [PChars (lit "/>")] [] []). split; [by_run|vm_compute; reflexivity]. Qed.
(** an attribute with an empty value is not seen *)
Theorem C81_empty_value_refuted : exists d, unparsed d.
Proof. exists (XEmpty (nm "a") [XA (lit " ") (nm "x") []] []). by_run. Qed.
(** the end of one value taken for the name of an attribute *)
Theorem C81_value_refuted : exists d, unparsed d.
Proof. exists (XEmpty (nm "a") [XA (lit " ") (nm "x") (lit "u:v="); XA (lit " ") (nm "y") (lit "w")] []). by_run. Qed.
(** a value in single quotes is not seen *)
Theorem C81_quotes_refuted : let text := lit "<a x='1'/>" in
  match xml_parse utf8 blank true [] text (Ev (event_at (cd_enc utf8) text 0) [] (event_at (cd_enc utf8) text 10)) with
  | (h, Ok r) => Some (hlisting 9 h r)
  | (_, Err _) => None
  end = Some [(Some as_element, 0, 10); (Some as_start_tag, 0, 10); (Some as_tag, 1, 2); (Some as_name, 1, 2)].
Proof. vm_compute. reflexivity. Qed.
Print Assumptions C81_tree_partial.
(** <r:x xmlns:r="u" k="v" >t<?p q?><y/> <z> </z ><!-- c --></r:x> *)
Definition xdemo : xdoc :=
  XElem (XN (Some (lit "r")) (lit "x")) [XA (lit " ") (XN (Some (lit "xmlns")) (lit "r")) (lit "u"); XA (lit "  ") (nm "k") (lit "v:w")] (lit " ")
    [PChars (lit "t"); PInstr (lit "p q")]
    [(XEmpty (nm "y") [] [], [PChars (lit " ")]); (XElem (nm "z") [] [] [PChars (lit " ")] [] (lit " "), [PComment (lit " c ")])] [].
Lemma xdemo_ok : doc_ok xdemo.
Proof.
  assert (P : forall s, has_part (lit "?>") s = false -> piece_ok (PInstr s)) by (intros s; exact (has_false _ s)).
  assert (Q : forall s, has_part (lit "-->") s = false -> piece_ok (PComment s)) by (intros s; exact (has_false _ s)).
  cbn [xdemo doc_ok fst snd]. split; [split; [by_parts|split; [|split; [by_parts|right; exists []; reflexivity]]]|].
  - apply Forall_cons; [split; [split; [by_parts|exists []; reflexivity]|split; [by_parts|split; [discriminate|split; [by_parts|vm_compute; intuition discriminate]]]]|].
    apply Forall_cons; [split; [split; [by_parts|exists (lit " "); reflexivity]|split; [by_parts|split; [discriminate|split; [by_parts|]]]]|apply Forall_nil].
    intros [_ (u & E)]. apply (f_equal (fun l => firstn 1 (rev l))) in E. rewrite rev_app_distr in E. discriminate.
  - split; [by_parts|]. split; [left; reflexivity|]. split; [apply Forall_cons; [by_parts|apply Forall_cons; [apply P; reflexivity|apply Forall_nil]]|]. split; [discriminate|].
    split; [split; [by_parts|split; [apply Forall_nil|split; [by_parts|left; reflexivity]]]|]. split; [by_parts|]. split; [|split; [apply Forall_cons; [apply Q; reflexivity|apply Forall_nil]|exact I]].
    split; [split; [by_parts|split; [apply Forall_nil|split; [by_parts|left; reflexivity]]]|]. split; [by_parts|]. split; [right; exists []; reflexivity|]. split; [by_parts|]. split; [|exact I]. intros _. apply no_slash_b. discriminate.
Qed.
Example C81_case : doc_ok xdemo /\ doc_src xdemo = lit "<r:x xmlns:r=""u""  k=""v:w"" >t<?p q?><y/> <z> </z ><!-- c --></r:x>" /\
  result blank true xdemo = Some (listing (doc_tree blank true (doc_src xdemo) xdemo 0)) /\
  length (listing (doc_tree blank true (doc_src xdemo) xdemo 0)) = 36%nat.
Proof. split; [exact xdemo_ok|]. split; [reflexivity|]. split; vm_compute; reflexivity. Qed.

(** ** C82 tags and texts: each depends on its own characters only, whatever stands around it *)
Theorem C82_start_tag_partial : forall s a n ats sp fin, at_place s a (open_src n ats sp fin) -> fin = lit ">" \/ fin = lit "/>" -> tag_ok n ats sp ->
  gives_tree (fun h => make_start_tag parser_itors s h a) (open_tree s n ats sp fin a).
Proof. intros s a n ats sp fin P F T. exact (makes_gives _ _ (start_tag_made s n ats sp fin a T F (place_sits _ _ _ P))). Qed.
Theorem C82_end_tag_partial : forall s a n sp, at_place s a (close_src n sp) -> xname_ok n -> white sp -> after_name sp ->
  gives_tree (fun h => make_end_tag parser_itors s h a) (close_tree s n sp a).
Proof. intros s a n sp P N W A. exact (makes_gives _ _ (end_tag_made s n sp a N W A (place_sits _ _ _ P))). Qed.
Theorem C82_text : forall isspace ie s a t h, at_place s a (text_src t) -> Forall piece_ok t -> hwf h -> acyclic h ->
  exists h' o, find_text parser_itors isspace ie s h a (a + zlen (text_src t)) = (h', Ok o) /\ extends h h' /\ hwf h' /\ acyclic h' /\
    match text_trees isspace ie s t a, o with
    | [], None => True
    | [k], Some r => rep h' k r /\ n_par (nd h' r) = None
    | _, _ => False
    end.
Proof. exact text_gives. Qed.
Print Assumptions C82_text.
Example C82_case : at_place (lit "<a><?p?> <!--<?--></a>") 3 (text_src [PInstr (lit "p"); PChars (lit " "); PComment (lit "<?")]) /\
  Forall piece_ok [PInstr (lit "p"); PChars (lit " "); PComment (lit "<?")] /\
  map listing (text_trees blank true (lit "<a><?p?> <!--<?--></a>") [PInstr (lit "p"); PChars (lit " "); PComment (lit "<?")] 3) =
    [[(Some as_text, 3, 18); (Some as_pi, 3, 8); (Some as_value, 5, 6); (Some as_comment, 9, 18); (Some as_value, 13, 15)]].
Proof.
  split; [exists (lit "<a>"), (lit "</a>"); split; reflexivity|]. split; [|vm_compute; reflexivity].
  apply Forall_cons; [apply has_false; reflexivity|]. apply Forall_cons; [by_parts|]. apply Forall_cons; [apply has_false; reflexivity|]. apply Forall_nil.
Qed.
