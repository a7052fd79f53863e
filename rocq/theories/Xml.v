(** Model of pawpaw/xml/xml_parser.py: the offsets XmlParser derives from expat's
    positions and the Ito tree it attaches to every element. *)
From Verif Require Export Arbor SpecArbor Highlight Json.

(** xml/descriptors.py:1-12 *)
Definition d_attributes := lit "attributes".
Definition d_attribute := lit "attribute".
Definition d_comment := lit "comment".
Definition d_element := lit "element".
Definition d_end_tag := lit "end_tag".
Definition d_name := lit "name".
Definition d_namespace := lit "namespace".
Definition d_pi := lit "pi".
Definition d_start_tag := lit "start_tag".
Definition d_tag := lit "tag".
Definition d_text := lit "text".
Definition d_value := lit "value".

(** -- offsets --------------------------------------------------------------------------- *)

(** str.encode and bytes.decode for one encoding (bytes as numbers); encode is taken to be
    total, i.e. every character of the document is in the encoding *)
Record codec := Codec { cd_enc : pystr -> list Z; cd_dec : list Z -> res pystr }.
(** what the handlers read from the expat parser: CurrentLineNumber, CurrentColumnNumber, CurrentByteIndex *)
Record event := EV { ev_line : Z; ev_col : Z; ev_byte : Z }.
(** xml_parser.py:37-50  _InternalIndexingParser: last_line_indexed, last_line_char_offset, last_line_byte_offset *)
Record indexer := IX { ix_line : Z; ix_char : Z; ix_byte : Z }.
(** xml_parser.py:47-50  reset *)
Definition ix_reset : indexer := IX 0 0 0.
(** xml_parser.py:52-53  char_offset_from; bytes is text.encode(encoding) (line 40) *)
Definition char_offset_from (c : codec) (text : pystr) (byte_offset : Z) : res Z :=
  do s <- cd_dec c (py_slice (cd_enc c text) (Some 0) (Some byte_offset));
  Ok (zlen s).
(** xml_parser.py:62-76  char_offset_from_ex *)
Definition char_offset_ex (c : codec) (text : pystr) (st : indexer) (e : event) : res (Z * indexer) :=
  do st' <- (if ix_line st <? ev_line e
             then do s <- cd_dec c (py_slice (cd_enc c text) (Some (ix_byte st)) (Some (ev_byte e)));
                  let ch := ix_char st + zlen s - ev_col e in
                  Ok (IX (ev_line e) ch (ix_byte st + zlen (cd_enc c (py_slice text (Some (ix_char st)) (Some ch)))))
             else Ok st);
  Ok (ix_char st' + ev_col e, st').
(** one offset after another *)
Fixpoint offsets (c : codec) (text : pystr) (st : indexer) (es : list event) : res (list Z) :=
  match es with
  | [] => Ok []
  | e :: r => do x <- char_offset_ex c text st e; do l <- offsets c text (snd x) r; Ok (fst x :: l)
  end.
(** xml_parser.py:103-106  feed: each call replaces the text and the indexing parser;
    [feeds] are the pieces of the document with the events expat raises while it is given each *)
Fixpoint feed_all (c : codec) (feeds : list (pystr * list event)) : res (list Z) :=
  match feeds with
  | [] => Ok []
  | (data, es) :: r => do l <- offsets c data ix_reset es; do m <- feed_all c r; Ok (l ++ m)
  end.

(** an element as ElementTree has it, as far as the code looks: _spans.char and the child elements *)
Inductive elem := El (start stop : Z) (kids : list elem).
(** what expat reports for it: the events at its start and at its end *)
Inductive etree := Ev (s : event) (kids : list etree) (e : event).
(** xml_parser.py:84-101  _start and _end, in the order expat calls them; the line, column and byte
    spans are not used afterwards and left out *)
Fixpoint index_tree (c : codec) (text : pystr) (st : indexer) (t : etree) : res (elem * indexer) :=
  match t with
  | Ev s kids e =>
    do a <- char_offset_ex c text st s;
    do k <- (fix go (st : indexer) (l : list etree) : res (list elem * indexer) :=
               match l with
               | [] => Ok ([], st)
               | t :: r => do x <- index_tree c text st t; do y <- go (snd x) r; Ok (fst x :: fst y, snd y)
               end) (snd a) kids;
    do b <- char_offset_ex c text (snd k) e;
    Ok (El (fst a) (fst b) (fst k), snd b)
  end.

(** -- the regular expressions ----------------------------------------------------------- *)

(** the part of the regex module's language these patterns use: a literal, one character of a class,
    class+ (greedy), class*? (lazy), sequence, alternatives, an optional part (greedy), a named group *)
Inductive rx :=
| RStr (s : pystr)
| RCls (p : Z -> bool)
| RPlus (p : Z -> bool)
| RLazy (p : Z -> bool)
| RSeq (a b : rx)
| RAlt (a b : rx)
| ROpt (a : rx)
| RGrp (k : pystr) (a : rx).
(** a way to match: the characters left, the position reached, the captures *)
Definition way := (pystr * Z * list (pystr * span))%type.
Fixpoint plus_ways (p : Z -> bool) (l : pystr) (i : Z) : list way :=
  match l with
  | [] => []
  | x :: r => if p x then plus_ways p r (i + 1) ++ [(r, i + 1, [])] else []
  end.
Fixpoint lazy_ways (p : Z -> bool) (l : pystr) (i : Z) : list way :=
  (l, i, []) :: match l with [] => [] | x :: r => if p x then lazy_ways p r (i + 1) else [] end.
(** all ways to match at position i, in the order in which a backtracking engine tries them; l are the
    characters from i up to endpos *)
Fixpoint ways (r : rx) (l : pystr) (i : Z) : list way :=
  match r with
  | RStr s => if prefixb s l then [(skipn (length s) l, i + zlen s, [])] else []
  | RCls p => match l with [] => [] | x :: t => if p x then [(t, i + 1, [])] else [] end
  | RPlus p => plus_ways p l i
  | RLazy p => lazy_ways p l i
  | RSeq a b => flat_map (fun w => map (fun v => (fst v, snd w ++ snd v)) (ways b (fst (fst w)) (snd (fst w)))) (ways a l i)
  | RAlt a b => ways a l i ++ ways b l i
  | ROpt a => ways a l i ++ [(l, i, [])]
  | RGrp k a => map (fun w => (fst w, snd w ++ [(k, (i, snd (fst w)))])) (ways a l i)
  end.
(** the matches finditer finds: leftmost first, the next one searched from where the last one ended.
    (None of the patterns here matches the empty string, whose treatment is left out.) *)
Fixpoint finditer_from (fuel : nat) (r : rx) (l : pystr) (i : Z) : list (span * list (pystr * span)) :=
  match fuel with
  | O => []
  | S n =>
    match ways r l i with
    | w :: _ => ((i, snd (fst w)), snd w) :: finditer_from n r (fst (fst w)) (snd (fst w))
    | [] => match l with [] => [] | _ :: t => finditer_from n r t (i + 1) end
    end
  end.
(** match.spans(gk) *)
Definition named_spans (k : pystr) (caps : list (pystr * span)) : list span :=
  map snd (filter (fun c => eqb_str (fst c) k) caps).
Definition to_match (re : pattern) (s : pystr) (m : span * list (pystr * span)) : rmatch :=
  RM s (fun k => match k with
                 | KStr n => named_spans n (snd m)
                 | KInt 0 => [fst m]
                 | KInt g => match find (fun e => Z.of_nat (snd e) =? g) (re_index re) with
                             | Some e => named_spans (fst e) (snd m)
                             | None => []
                             end
                 end).
(** ito.py:944-952  regex_finditer: re.finditer(string, pos=start, endpos=stop) *)
Definition finditer (re : pattern) (r : rx) (s : pystr) (a b : Z) : list rmatch :=
  map (to_match re s) (finditer_from (S (length (zsub s a b))) r (zsub s a b) a).

Definition none_of (cs : pystr) (c : Z) : bool := negb (mem_char c cs).
(** xml_parser.py:13-15  _NAMESPACE, _NAME, _TAG *)
Definition rx_tag : rx :=
  RGrp d_tag (RSeq (ROpt (RSeq (RGrp d_namespace (RPlus (none_of (lit " :")))) (RStr (lit ":"))))
                   (RGrp d_name (RPlus (none_of (lit " />="))))).
(** xml_parser.py:22  _itor_extract_tag *)
Definition rx_open : rx := RSeq (RStr (lit "<")) (RSeq (ROpt (RCls (fun c => mem_char c (lit "/?")))) rx_tag).
Definition re_open : pattern := {| re_groups := 3; re_index := [(d_tag, 1%nat); (d_namespace, 2%nat); (d_name, 3%nat)] |}.
(** xml_parser.py:17-20, 23  _VALUE, _TAG_VALUE, _ATTRIBUTE, _itor_extract_attributes *)
Definition rx_attribute : rx :=
  RGrp d_attribute (RSeq rx_tag (RSeq (RStr [61; 34]) (RSeq (RGrp d_value (RPlus (none_of [34]))) (RStr [34])))).
Definition re_attribute : pattern := {| re_groups := 5; re_index := [(d_attribute, 1%nat); (d_tag, 2%nat); (d_namespace, 3%nat); (d_name, 4%nat); (d_value, 5%nat)] |}.
(** xml_parser.py:25-28  _PI, _COMMENT, _itor_extract_pi_comments; with regex.DOTALL '.' is any character;
    groups of one name have one number *)
Definition any_char (c : Z) : bool := true.
Definition rx_pi : rx := RGrp d_pi (RSeq (RStr (lit "<?")) (RSeq (RGrp d_value (RLazy any_char)) (RStr (lit "?>")))).
Definition rx_comment : rx := RGrp d_comment (RSeq (RStr (lit "<!--")) (RSeq (RGrp d_value (RLazy any_char)) (RStr (lit "-->")))).
Definition rx_misc : rx := RAlt rx_pi rx_comment.
Definition re_misc : pattern := {| re_groups := 3; re_index := [(d_pi, 1%nat); (d_value, 2%nat); (d_comment, 3%nat)] |}.

(** itorator/extract.py:14-20  the defaults: desc = str(gk), group_filter = (str(gk) != '0') *)
Definition key_text (k : gkey) : pystr := match k with KStr s => s | KInt z => int_str z end.
Definition default_desc (m : rmatch) (k : gkey) : option pystr := Some (key_text k).
Definition default_filter : gfilter := GFPred (fun _ k => negb (eqb_str (key_text k) (lit "0"))).
(** [*Extract(re)(ito)]; the Itorator is called with its own clone of ito (Arbor.call) *)
Definition extract (re : pattern) (r : rx) (h : heap) (i : nat) : out (list nat) :=
  match drain (call 1 (fun _ => Itor (TExtract re (finditer re r) None (Some default_desc) default_filter) [] PostNone) 0%nat i) h with
  | (h', (l, None)) => (h', Ok l)
  | (h', (_, Some e)) => (h', Err e)
  end.
Definition extract_tag := extract re_open rx_open.
Definition extract_attributes := extract re_attribute rx_attribute.
Definition extract_misc := extract re_misc rx_misc.

(** -- the tree -------------------------------------------------------------------------- *)

(** the three Itorators of the class, as functions giving [*itor(ito)] *)
Record itors := Itors { x_tag : heap -> nat -> out (list nat); x_attr : heap -> nat -> out (list nat); x_misc : heap -> nat -> out (list nat) }.
Definition parser_itors : itors := Itors extract_tag extract_attributes extract_misc.

Section Build.
  Variables (X : itors) (isspace : Z -> bool) (ignore_empties : bool) (text : pystr).

  (** xml_parser.py:110-114  _find_text *)
  Definition find_text (h : heap) (start stop : Z) : out (option nat) :=
    obind (new_str h text (Some start) (Some stop) (Some d_text)) (fun h1 t =>
      if (0 <? ito_len (n_f (nd h1 t))) && negb (ignore_empties && str_is_class isspace (n_f (nd h1 t)))
      then obind (x_misc X h1 t) (fun h2 cs => obind (kids_add h2 t cs) (fun h3 _ => (h3, Ok (Some t))))
      else (h1, Ok None)).
  (** if (t := self._find_text(start, stop)) is not None: ito.children.add(t) *)
  Definition add_text (h : heap) (ito : nat) (start stop : Z) : out unit :=
    obind (find_text h start stop) (fun h1 t => match t with None => (h1, Ok tt) | Some t => kids_add h1 ito [t] end).
  (** xml_parser.py:117-130  the start tag with its children; the value functions are in [tag_values] *)
  Definition make_start_tag (h : heap) (a : Z) : out nat :=
    obind (h, py_index_of text (lit ">") (Some (a + 1)) None) (fun h gt =>
    obind (new_str h text (Some a) (Some (gt + 1)) (Some d_start_tag)) (fun h st =>
    obind (x_tag X h st) (fun h ts =>
    obind (kids_add h st ts) (fun h _ =>
    obind (x_attr X h st) (fun h attrs =>
    match attrs with
    | [] => (h, Ok st)
    | _ =>
      obind (h, ito_join (map (fun c => n_f (nd h c)) attrs) (Some d_attributes)) (fun h f =>
      obind (new_node h f) (fun h p =>
      obind (kids_add h p attrs) (fun h _ =>
      obind (kids_add h st [p]) (fun h _ => (h, Ok st)))))
    end))))).
  (** xml_parser.py:138-145  the end tag; the children are found before the first is added *)
  Definition make_end_tag (h : heap) (b : Z) : out nat :=
    obind (h, py_index_of text (lit ">") (Some (b + 1)) None) (fun h gt =>
    obind (new_str h text (Some b) (Some (gt + 1)) (Some d_end_tag)) (fun h et =>
    obind (x_tag X h et) (fun h ts =>
    obind (kids_add h et ts) (fun h _ => (h, Ok et))))).
  (** xml_parser.py:136  any(element.iter()): an Element is true if it has child elements *)
  Definition self_closing (b : Z) (childless : bool) : bool :=
    let w := py_slice text (Some (b - 2)) (Some b) in
    (eqb_str w (lit "/>") || eqb_str w (lit "?>")) && childless.
  (** xml_parser.py:163-172  the loop over the child elements, each given by its own _extract_itos;
      gives element[0].ito and last_child.ito *)
  Fixpoint add_children (ito : nat) (h : heap) (first last : option nat) (l : list (heap -> out nat)) : out (option nat * option nat) :=
    match l with
    | [] => (h, Ok (first, last))
    | c :: r =>
      obind (c h) (fun h ci =>
      obind (kids_add h ito [ci]) (fun h _ =>
      obind (match last with
             | None => (h, Ok tt)
             | Some lc => add_text h ito (h_stop h lc) (h_start h ci)
             end) (fun h _ =>
      add_children ito h (match first with None => Some ci | Some f => Some f end) (Some ci) r)))
    end.
  (** xml_parser.py:116-185  the body of _extract_itos *)
  Definition extract_element (a b : Z) (kids : list (heap -> out nat)) (h : heap) : out nat :=
    obind (make_start_tag h a) (fun h st =>
    obind (if self_closing b (match kids with [] => true | _ => false end) then (h, Ok None)
           else obind (make_end_tag h b) (fun h et => (h, Ok (Some et)))) (fun h et =>
    obind (new_str h text (Some (h_start h st)) (Some (match et with Some et => h_stop h et | None => b end)) (Some d_element)) (fun h ito =>
    obind (kids_add h ito [st]) (fun h _ =>
    obind (add_children ito h None None kids) (fun h fl =>
    match et with
    | None => (h, Ok ito)
    | Some et =>
      obind (match snd fl with
             | None => (h, Ok tt)
             | Some lc => add_text h ito (h_stop h lc) (h_start h et)
             end) (fun h _ =>
      obind (add_text h ito (h_stop h st) (match fst fl with Some f => h_start h f | None => h_start h et end)) (fun h _ =>
      obind (kids_add h ito [et]) (fun h _ => (h, Ok ito))))
    end))))).
  (** xml_parser.py:116-185  _extract_itos: gives element.ito *)
  Fixpoint extract_itos (e : elem) : heap -> out nat :=
    match e with El a b kids => extract_element a b (map extract_itos kids) end.
End Build.

(** xml_parser.py:103-106, 187-190  feed and close on a document given in one piece: the Ito of the
    root element; [report] is what expat reports about it *)
Definition xml_parse (c : codec) (isspace : Z -> bool) (ignore_empties : bool) (h : heap) (text : pystr) (report : etree) : out nat :=
  match index_tree c text ix_reset report with
  | Ok (e, _) => extract_itos parser_itors isspace ignore_empties text e h
  | Err x => (h, Err x)
  end.
