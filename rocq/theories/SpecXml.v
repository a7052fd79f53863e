(** Specification vocabulary for Xml.v: positions in a text, UTF-8, documents and the Ito tree they should have. *)
From Verif Require Export Xml.
(** the descriptors (xml/descriptors.py), written out again *)
Definition as_attributes := lit "attributes".
Definition as_attribute := lit "attribute".
Definition as_comment := lit "comment".
Definition as_element := lit "element".
Definition as_end_tag := lit "end_tag".
Definition as_name := lit "name".
Definition as_namespace := lit "namespace".
Definition as_pi := lit "pi".
Definition as_start_tag := lit "start_tag".
Definition as_tag := lit "tag".
Definition as_text := lit "text".
Definition as_value := lit "value".

(** -- positions -- *)
(** a line ends with the character at k: LF, or CR that is not followed by LF *)
Definition line_end (s : pystr) (k : nat) : bool :=
  match nth_error s k with
  | Some c => (c =? 10) || ((c =? 13) && negb (match nth_error s (S k) with Some d => d =? 10 | None => false end))
  | None => false
  end.
(** the line (from 1) and column (from 0) of position n *)
Fixpoint line_at (s : pystr) (n : nat) : Z :=
  match n with O => 1 | S m => line_at s m + (if line_end s m then 1 else 0) end.
Fixpoint col_at (s : pystr) (n : nat) : Z :=
  match n with O => 0 | S m => if line_end s m then 0 else col_at s m + 1 end.
(** what a parser that counts bytes with [enc] reports at position p of s *)
Definition event_at (enc : pystr -> list Z) (s : pystr) (p : Z) : event :=
  EV (line_at s (Z.to_nat p)) (col_at s (Z.to_nat p)) (zlen (enc (zsub s 0 p))).

(** encode works character by character, and decode reverses it, on texts over the characters [ok] *)
Definition codec_for (c : codec) (ok : Z -> Prop) : Prop :=
  (forall a b, cd_enc c (a ++ b) = cd_enc c a ++ cd_enc c b) /\
  (forall a, Forall ok a -> cd_dec c (cd_enc c a) = Ok a).
(** UTF-8; the decoder does not reject what no encoder produces *)
Definition utf8_char (c : Z) : list Z :=
  if c <? 128 then [c]
  else if c <? 2048 then [192 + c / 64; 128 + c mod 64]
  else if c <? 65536 then [224 + c / 4096; 128 + (c / 64) mod 64; 128 + c mod 64]
  else [240 + c / 262144; 128 + (c / 4096) mod 64; 128 + (c / 64) mod 64; 128 + c mod 64].
Fixpoint utf8_dec (fuel : nat) (b : list Z) : res pystr :=
  match fuel with
  | O => Err OutOfFuel
  | S n =>
    match b with
    | [] => Ok []
    | x :: r =>
      if x <? 128 then do s <- utf8_dec n r; Ok (x :: s)
      else if x <? 224 then match r with y :: r => do s <- utf8_dec n r; Ok ((x - 192) * 64 + (y - 128) :: s) | _ => Err ValueError end
      else if x <? 240 then match r with y :: z :: r => do s <- utf8_dec n r; Ok ((x - 224) * 4096 + (y - 128) * 64 + (z - 128) :: s) | _ => Err ValueError end
      else match r with y :: z :: w :: r => do s <- utf8_dec n r; Ok ((x - 240) * 262144 + (y - 128) * 4096 + (z - 128) * 64 + (w - 128) :: s) | _ => Err ValueError end
    end
  end.
Definition utf8 : codec := Codec (flat_map utf8_char) (fun b => utf8_dec (S (length b)) b).
(** a Unicode code point *)
Definition unicode (c : Z) : Prop := 0 <= c < 1114112.

(** -- documents -- *)
(** a name with an optional prefix, an attribute (the white space before it, name, value) *)
Record xname := XN { x_prefix : option pystr; x_local : pystr }.
Record xatt := XA { a_space : pystr; a_name : xname; a_value : pystr }.
(** character data: characters, processing instructions, comments *)
Inductive xpiece := PChars (s : pystr) | PInstr (s : pystr) | PComment (s : pystr).
(** <name attributes space>text child text child text ... </name space>, or <name attributes space/> *)
Inductive xdoc :=
| XElem (n : xname) (ats : list xatt) (sp : pystr) (txt : list xpiece) (kids : list (xdoc * list xpiece)) (sp' : pystr)
| XEmpty (n : xname) (ats : list xatt) (sp : pystr).

Definition name_src (n : xname) : pystr := match x_prefix n with Some p => p ++ lit ":" ++ x_local n | None => x_local n end.
Definition att_body (a : xatt) : pystr := name_src (a_name a) ++ [61; 34] ++ a_value a ++ [34].
Definition att_src (a : xatt) : pystr := a_space a ++ att_body a.
Definition open_src (n : xname) (ats : list xatt) (sp fin : pystr) : pystr := lit "<" ++ name_src n ++ flat_map att_src ats ++ sp ++ fin.
Definition close_src (n : xname) (sp : pystr) : pystr := lit "</" ++ name_src n ++ sp ++ lit ">".
Definition piece_src (p : xpiece) : pystr :=
  match p with PChars s => s | PInstr s => lit "<?" ++ s ++ lit "?>" | PComment s => lit "<!--" ++ s ++ lit "-->" end.
Definition text_src (t : list xpiece) : pystr := flat_map piece_src t.
Fixpoint doc_src (d : xdoc) : pystr :=
  match d with
  | XElem n ats sp txt kids sp' =>
    open_src n ats sp (lit ">") ++ text_src txt ++ flat_map (fun k => doc_src (fst k) ++ text_src (snd k)) kids ++ close_src n sp'
  | XEmpty n ats sp => open_src n ats sp (lit "/>")
  end.

(** -- what expat reports: the start of a start tag; the start of the end tag, or the end of an empty-element tag -- *)
Fixpoint doc_report (ev : Z -> event) (d : xdoc) (a : Z) : etree :=
  match d with
  | XElem n ats sp txt kids sp' =>
    Ev (ev a)
       ((fix go (p : Z) (l : list (xdoc * list xpiece)) : list etree :=
           match l with
           | [] => []
           | k :: r => doc_report ev (fst k) p :: go (p + zlen (doc_src (fst k)) + zlen (text_src (snd k))) r
           end) (a + zlen (open_src n ats sp (lit ">")) + zlen (text_src txt)) kids)
       (ev (a + zlen (doc_src d) - zlen (close_src n sp')))
  | XEmpty n ats sp => Ev (ev a) [] (ev (a + zlen (doc_src d)))
  end.

(** -- the layout the tree theorem covers -- *)
Definition name_ok (s : pystr) : Prop := s <> [] /\ Forall (fun c => ~ In c ([9; 10; 13; 34] ++ lit " :/<>=?")) s.
Definition xname_ok (n : xname) : Prop := name_ok (x_local n) /\ match x_prefix n with Some p => name_ok p | None => True end.
Definition white (s : pystr) : Prop := Forall (fun c => In c [9; 10; 13; 32]) s.
(** white space before an attribute: the last character is a space *)
Definition space_ok (s : pystr) : Prop := white s /\ exists u, s = u ++ lit " ".
(** what follows a name begins with a space, or is empty *)
Definition after_name (s : pystr) : Prop := s = [] \/ exists u, s = lit " " ++ u.
(** in double quotes, not empty, without '>'; not both a ':' inside and a '=' at the end *)
Definition value_ok (v : pystr) : Prop :=
  v <> [] /\ Forall (fun c => ~ In c (34 :: lit "<>")) v /\ ~ (In 58 v /\ exists u, v = u ++ [61]).
Definition att_ok (a : xatt) : Prop := space_ok (a_space a) /\ xname_ok (a_name a) /\ value_ok (a_value a).
Definition tag_ok (n : xname) (ats : list xatt) (sp : pystr) : Prop :=
  xname_ok n /\ Forall att_ok ats /\ white sp /\ after_name (match ats with [] => sp | a :: _ => a_space a end).
Definition part_of (sub s : pystr) : Prop := exists u v, s = u ++ sub ++ v.
Definition piece_ok (p : xpiece) : Prop :=
  match p with PChars s => ~ In 60 s | PInstr s => ~ part_of (lit "?>") s | PComment s => ~ part_of (lit "-->") s end.
(** the text does not look like the end of an empty-element tag *)
Definition no_slash (t : list xpiece) : Prop := forall u, text_src t <> u ++ lit "/>" /\ text_src t <> u ++ lit "?>".
Fixpoint doc_ok (d : xdoc) : Prop :=
  match d with
  | XElem n ats sp txt kids sp' =>
    tag_ok n ats sp /\ white sp' /\ after_name sp' /\ Forall piece_ok txt /\ (kids = [] -> no_slash txt) /\
    (fix go (l : list (xdoc * list xpiece)) : Prop :=
       match l with [] => True | k :: r => doc_ok (fst k) /\ Forall piece_ok (snd k) /\ go r end) kids
  | XEmpty n ats sp => tag_ok n ats sp
  end.

(** -- the tree -- *)
Section Described.
  Variables (isspace : Z -> bool) (ignore_empties : bool) (s : pystr).
  (** an Ito of s with the given descriptor and children *)
  Definition at_ (a b : Z) (d : pystr) (ks : list tree) : tree := T (FI s a b (Some d) None) ks.
  (** the name at position a *)
  Definition name_tree (n : xname) (a : Z) : tree :=
    let b := a + zlen (name_src n) in
    at_ a b as_tag (match x_prefix n with
                   | Some p => [at_ a (a + zlen p) as_namespace []; at_ (a + zlen p + 1) b as_name []]
                   | None => [at_ a b as_name []]
                   end).
  (** the attribute whose name begins at a *)
  Definition att_tree (x : xatt) (a : Z) : tree :=
    let v := a + zlen (name_src (a_name x)) + 2 in
    at_ a (a + zlen (att_body x)) as_attribute [name_tree (a_name x) a; at_ v (v + zlen (a_value x)) as_value []].
  Fixpoint att_trees (l : list xatt) (a : Z) : list tree :=
    match l with [] => [] | x :: r => att_tree x (a + zlen (a_space x)) :: att_trees r (a + zlen (att_src x)) end.
  (** the start tag: the name, and one node around the attributes if there are any *)
  Definition open_tree (n : xname) (ats : list xatt) (sp fin : pystr) (a : Z) : tree :=
    let p := a + 1 + zlen (name_src n) in
    at_ a (a + zlen (open_src n ats sp fin)) as_start_tag
      (name_tree n (a + 1) ::
       match ats with
       | [] => []
       | x :: _ => [at_ (p + zlen (a_space x)) (p + zlen (flat_map att_src ats)) as_attributes (att_trees ats p)]
       end).
  Definition close_tree (n : xname) (sp : pystr) (a : Z) : tree :=
    at_ a (a + zlen (close_src n sp)) as_end_tag [name_tree n (a + 2)].
  Definition piece_trees (p : xpiece) (a : Z) : list tree :=
    match p with
    | PChars _ => []
    | PInstr v => [at_ a (a + zlen (piece_src p)) as_pi [at_ (a + 2) (a + 2 + zlen v) as_value []]]
    | PComment v => [at_ a (a + zlen (piece_src p)) as_comment [at_ (a + 4) (a + 4 + zlen v) as_value []]]
    end.
  Fixpoint pieces_trees (t : list xpiece) (a : Z) : list tree :=
    match t with [] => [] | p :: r => piece_trees p a ++ pieces_trees r (a + zlen (piece_src p)) end.
  (** the text node, unless the text is empty, or blank and ignored *)
  Definition text_trees (t : list xpiece) (a : Z) : list tree :=
    if match text_src t with [] => true | _ => ignore_empties && forallb isspace (text_src t) end then []
    else [at_ a (a + zlen (text_src t)) as_text (pieces_trees t a)].
  Fixpoint doc_tree (d : xdoc) (a : Z) : tree :=
    match d with
    | XElem n ats sp txt kids sp' =>
      let p := a + zlen (open_src n ats sp (lit ">")) in
      at_ a (a + zlen (doc_src d)) as_element
        (open_tree n ats sp (lit ">") a :: text_trees txt p ++
         (fix go (p : Z) (l : list (xdoc * list xpiece)) : list tree :=
            match l with
            | [] => []
            | k :: r => doc_tree (fst k) p :: text_trees (snd k) (p + zlen (doc_src (fst k))) ++
                        go (p + zlen (doc_src (fst k)) + zlen (text_src (snd k))) r
            end) (p + zlen (text_src txt)) kids ++
         [close_tree n sp' (a + zlen (doc_src d) - zlen (close_src n sp'))])
    | XEmpty n ats sp => at_ a (a + zlen (doc_src d)) as_element [open_tree n ats sp (lit "/>") a]
    end.
End Described.

(** -- well-formed documents of this grammar: what XML 1.0 asks of names, white space, double-quoted attribute
    values and character data, and no more (a CDATA section, a reference or a single-quoted value is not
    distinguished from other characters) -- *)
Definition att_wf (a : xatt) : Prop :=
  (white (a_space a) /\ a_space a <> []) /\ xname_ok (a_name a) /\ Forall (fun c => c <> 34 /\ c <> 60) (a_value a).
Definition tag_wf (n : xname) (ats : list xatt) (sp : pystr) : Prop := xname_ok n /\ Forall att_wf ats /\ white sp.
Fixpoint doc_wf (d : xdoc) : Prop :=
  match d with
  | XElem n ats sp txt kids sp' =>
    tag_wf n ats sp /\ white sp' /\ Forall piece_ok txt /\
    (fix go (l : list (xdoc * list xpiece)) : Prop :=
       match l with [] => True | k :: r => doc_wf (fst k) /\ Forall piece_ok (snd k) /\ go r end) kids
  | XEmpty n ats sp => tag_wf n ats sp
  end.
(** XmlParser gives the root element of the document d, written in the middle of a text, the tree it should have;
    nothing that existed before is changed *)
Definition parsed (c : codec) (isspace : Z -> bool) (ie : bool) (pre : pystr) (d : xdoc) (post : pystr) : Prop :=
  let text := pre ++ doc_src d ++ post in
  forall h, hwf h -> acyclic h ->
  exists h' r, xml_parse c isspace ie h text (doc_report (event_at (cd_enc c) text) d (zlen pre)) = (h', Ok r) /\
    extends h h' /\ hwf h' /\ acyclic h' /\ rep h' (doc_tree isspace ie text d (zlen pre)) r /\ n_par (nd h' r) = None.
(** u stands at position a of s *)
Definition at_place (s : pystr) (a : Z) (u : pystr) : Prop := exists p q, s = p ++ u ++ q /\ a = zlen p.
(** f makes a new tree of the shape t, a root, and changes nothing else *)
Definition gives_tree (f : heap -> out nat) (t : tree) : Prop :=
  forall h, hwf h -> acyclic h ->
  exists h' r, f h = (h', Ok r) /\ extends h h' /\ hwf h' /\ acyclic h' /\ rep h' t r /\ n_par (nd h' r) = None.
