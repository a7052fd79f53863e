(** Property theorems C70-C73: the pretty printers. *)
From Verif Require Import PepoFacts3 Properties_Heap Properties_Format.

(** ** C70 Json *)
(** codes: characters are code points *)
Definition codes (h : heap) : Prop :=
  forall j, Forall (fun c => 0 <= c) (h_string h j) /\ Forall (fun c => 0 <= c) (odflt (f_desc (n_f (nd h j))) []).
(** with children the output is a JSON document that describes the Itos.  Missing: children=False (C70_bare_refuted). *)
Theorem C70_json_partial : forall ls ind h itos, jws ls -> jws ind -> hwf h -> acyclic h -> codes h -> Forall (fun i => (i < length h)%nat) itos ->
  exists s js, json_dumps ls ind true h itos = Ok s /\ jdoc s (JObj [(lit "itos", JArr js)]) /\ Forall2 (described h) itos js.
Proof. intros ls ind h itos Hl Hi Hw Ha Hc. exact (fun F => json_all ls ind h Hw Hl Hi itos Ha F Hc). Qed.
(** with children=False the output is never JSON, unless there is nothing to print: the last member is followed by a comma *)
Theorem C70_bare_refuted : forall ls ind h i itos, jws ls -> jws ind -> hwf h -> codes h ->
  exists s, json_dumps ls ind false h (i :: itos) = Ok s /\ forall j, ~ jdoc s j.
Proof. exact json_bare. Qed.
Print Assumptions C70_json_partial.
Print Assumptions C70_bare_refuted.
Example C70_case : hwf demo /\ acyclic demo /\ codes demo /\ jws [10] /\ jws (lit " ") /\
  json_dumps [10] [] true demo [2; 3]%nat = Ok (lit
"{
""itos"": [
{
""start"": 3,
""stop"": 6,
""desc"": ""x"",
""substr"": ""def"",
""children"": []
},
{
""start"": 1,
""stop"": 2,
""desc"": null,
""substr"": ""b"",
""children"": []
}
]
}
").
Proof.
  split; [exact demo_wf|]. split; [exact demo_acyclic|]. split.
  - intros j. do 5 (destruct j as [|j]; [vm_compute; split; repeat constructor; discriminate|]). unfold h_string, nd. rewrite nth_overflow by (vm_compute; lia). vm_compute. split; constructor.
  - split; [repeat constructor; cbn; tauto|]. split; [repeat constructor; cbn; tauto|]. vm_compute. reflexivity.
Qed.

(** ** C71 Compact *)
(** num k is k with thousands separators, f j the text of Ito j *)
Theorem C71_compact : forall E fstr ls ind h num f itos, hwf h -> acyclic h -> Forall (fun i => (i < length h)%nat) itos ->
  (forall k, fe_int E (Z.of_nat k) (lit ",") = Ok (num k)) -> (forall i j, In i itos -> self_or_anc h i j -> ito_format E (n_f (nd h j)) fstr = Ok (f j)) ->
  exists rowss, Forall2 (fun '(k, i) rows => compact_rows h i k rows) (combine (seq 1 (length itos)) itos) rowss /\
    compact_dumps E fstr ls ind true h itos = Ok (concat (map (crow_text ls ind num f) (concat rowss))).
Proof. intros E fstr ls ind h num f itos Hw Ha Hi Hn. exact (compact_all E fstr ls ind h num f Hw Hn itos Ha Hi). Qed.
(** children=False: the arguments only *)
Theorem C71_flat : forall E fstr ls ind h num f itos,
  (forall k, fe_int E (Z.of_nat k) (lit ",") = Ok (num k)) -> (forall i, In i itos -> ito_format E (n_f (nd h i)) fstr = Ok (f i)) ->
  compact_dumps E fstr ls ind false h itos = Ok (concat (map (fun '(k, i) => crow_text ls ind num f (0%nat, k, i)) (combine (seq 1 (length itos)) itos))).
Proof. intros E fstr ls ind h num f itos Hn. exact (compact_flat E fstr ls ind h num f Hn itos). Qed.
Print Assumptions C71_compact.
Print Assumptions C71_flat.
Definition plain_fmt : fmt_env := {| fe_int := fun n f => Ok (int_str n); fe_repr := fe_repr ascii_fmt; fe_ascii := fe_ascii ascii_fmt;
  fe_digit := fe_digit ascii_fmt; fe_num := fe_num ascii_fmt; fe_value := fe_value ascii_fmt |}.
Example C71_case : compact_dumps plain_fmt (lit "%span %substr") [10] (lit "  ") true demo [0; 2]%nat = Ok (lit
"1: (0, 6) abcdef
  1: (0, 3) abc
    1: (1, 2) b
  2: (3, 6) def
2: (3, 6) def
") /\ compact_dumps plain_fmt compact_fstr [10] [] false demo [2]%nat = Ok (lit "1: (3, 6) 'x' : 'def'
").
Proof. vm_compute. split; reflexivity. Qed.

(** ** C72 Tree *)
(** a line for each Ito in document order, drawn with guides.  Missing: children=False (C72_flat_refuted). *)
Theorem C72_tree_partial : forall E fstr ls ind h f itos, hwf h -> acyclic h -> Forall (fun i => (i < length h)%nat) itos ->
  (forall i j, In i itos -> self_or_anc h i j -> ito_format E (n_f (nd h j)) fstr = Ok (f j)) ->
  exists liness, Forall2 (tree_lines h ind ls f) itos liness /\ tree_dumps E fstr ls ind true h itos = Ok (concat (concat liness)).
Proof. intros E fstr ls ind h f itos Hw Ha Hi. exact (tree_all E fstr ls ind h f Hw true itos Ha Hi). Qed.
(** children=False makes no difference: the descendants are printed all the same *)
Theorem C72_flat_refuted : forall E fstr ls ind h itos, tree_dumps E fstr ls ind false h itos = tree_dumps E fstr ls ind true h itos.
Proof. reflexivity. Qed.
Print Assumptions C72_tree_partial.
Example C72_case : tree_dumps plain_fmt (lit "%substr") [10] (lit "  ") false demo [0]%nat = Ok (
  lit "abcdef" ++ [10; 9500; 9472; 9472] ++ lit "abc" ++ [10; 9474] ++ lit "  " ++ [9492; 9472; 9472] ++ lit "b" ++ [10; 9492; 9472; 9472] ++ lit "def" ++ [10]).
Proof. vm_compute. reflexivity. Qed.

(** ** C73 Xml *)
(** between the tags stands one well-formed element per Ito, which describes it.
    Missing: the document element is not closed (C73_document_refuted); descs with quotes, texts that XML cannot carry. *)
Theorem C73_xml_partial : forall ls ind children h itos, jws ls -> jws ind -> hwf h -> acyclic h -> Forall (fun i => (i < length h)%nat) itos ->
  (forall i j, In i itos -> self_or_anc h i j -> xml_fit h j) ->
  exists body es, xml_dumps ls ind children h itos = Ok (lit "<?xml version=""1.0"" encoding=""UTF-8"" ?>" ++ ls ++ lit "<itos>" ++ body ++ lit "<itos>" ++ ls) /\
    xelems body es /\ Forall2 (xdescribed children h) itos es.
Proof. intros ls ind children h itos Hl Hi Hw Ha. exact (xml_body ls ind children h Hw Hl Hi itos Ha). Qed.
(** the output has a start tag and never the end tag it needs, whatever is printed *)
Theorem C73_document_refuted : forall ls ind children h itos s, ~ In 60 ls -> ~ In 60 ind -> xml_dumps ls ind children h itos = Ok s ->
  occurs (lit "<itos>") s /\ ~ occurs (lit "</itos>") s.
Proof. intros ls ind children h itos s H1 H2. exact (xml_never_closed ls ind children h H1 H2 itos s). Qed.
Print Assumptions C73_xml_partial.
Print Assumptions C73_document_refuted.
(** a quote in a desc ends the attribute *)
Definition quoted : heap := [Nd {| f_str := lit "a<b"; f_start := 0; f_stop := 3; f_desc := Some (lit "x"" stop=""9"); f_vf := None |} None []].
Definition plain_ascii (s : pystr) : bool := forallb (fun c => (35 <=? c) && (c <=? 126)) s.
Lemma plain_fit h : forallb (fun n => plain_ascii (f_str (n_f n)) && plain_ascii (odflt (f_desc (n_f n)) [])) h = true ->
  forall j, (j < length h)%nat -> xml_fit h j.
Proof.
  intros H j L. rewrite forallb_forall in H. assert (I : In (nd h j) h) by (apply nth_In; exact L). specialize (H _ I). apply andb_true_iff in H. destruct H as [H1 H2].
  unfold plain_ascii in *. rewrite forallb_forall in H1, H2. split.
  - apply Forall_forall. intros c Ic. apply zsub_in in Ic. specialize (H1 c Ic). apply andb_true_iff in H1. unfold xml_char. lia.
  - intros d E. rewrite E in H2. cbn [odflt] in H2. apply Forall_forall. intros c Ic. specialize (H2 c Ic). apply andb_true_iff in H2. split; [unfold xml_char; lia|].
    intros [X|[X|[X|[X|[]]]]]; lia.
Qed.
Example C73_case : (forall j, self_or_anc demo 0 j -> xml_fit demo j) /\
  xml_dumps [10] (lit " ") true demo [1]%nat = Ok (lit
"<?xml version=""1.0"" encoding=""UTF-8"" ?>
<itos>
 <ito start=""0"" stop=""3"" desc="""">
 <substring>abc</substring>
 <children>
  <ito start=""1"" stop=""2"" desc="""">
  <substring>b</substring>
 </ito>
 </children>
</ito>
<itos>
") /\ xml_dump 2 [] [] true quoted 1 0 = Ok (lit "<ito start=""0"" stop=""3"" desc=""x"" stop=""9""><substring>a&lt;b</substring></ito>").
Proof.
  split; [|split; vm_compute; reflexivity]. intros j Hj. apply plain_fit; [reflexivity|].
  destruct Hj as [->|Hj]; [vm_compute; lia|]. apply (anc_bound demo 0 j demo_wf) in Hj. lia.
Qed.
