(** Model of the objects Number and Paragraph of pawpaw/nlp/nlp.py: what their settings do. *)
From Verif Require Export Nlp.

(** ** Number *)
(** nlp.py:145-159  the attributes of a Number.  [no_pats]: _int_pat, _decimal_pat, as the arguments they were
    built from; [no_re]: _re.  None while not yet assigned. *)
Record number_obj := NumObj { no_point : pystr; no_sep : pystr; no_optional : bool; no_pats : option (pystr * (pystr * bool)); no_re : option nrx }.
Section Conf.
  Variables (C : classes) (sp : Z -> bool).                (* sp: str.isspace of one character *)
  (** nlp.py:137-143  build_num_pat_re: it reads _int_pat and _decimal_pat *)
  Definition build_num (o : number_obj) : res nrx :=
    match no_pats o with
    | Some (p, (q, b)) => Ok (number_rx C p q b)
    | None => Err AttributeError
    end.
  (** nlp.py:163-170  the setter of decimal_point: what build_num_pat_re returns is dropped *)
  Definition set_point (o : number_obj) (v : pystr) : number_obj * res unit :=
    let o' := NumObj v (no_sep o) (no_optional o) (no_pats o) (no_re o) in
    (o', match build_num o' with Ok _ => Ok tt | Err e => Err e end).
  (** nlp.py:176-184  the setter of thousands_sep, given a str; build_decimal_pat has no effect *)
  Definition set_sep (o : number_obj) (v : pystr) : number_obj * res unit :=
    if match v with [] => true | _ :: _ => forallb sp v end then (o, Err ValueError)
    else (NumObj (no_point o) v (no_optional o) (no_pats o) (no_re o), Ok tt).
  (** nlp.py:190-193  the setter of thousands_sep_optional *)
  Definition set_optional (o : number_obj) (v : bool) : number_obj * res unit :=
    let o' := NumObj (no_point o) (no_sep o) v (no_pats o) (no_re o) in
    (o', match build_num o' with Ok _ => Ok tt | Err e => Err e end).
  (** one setting *)
  Inductive setting := SetPoint (v : pystr) | SetSep (v : pystr) | SetOptional (v : bool).
  Definition set1 (o : number_obj) (x : setting) : number_obj * res unit :=
    match x with SetPoint v => set_point o v | SetSep v => set_sep o v | SetOptional v => set_optional o v end.
  (** nlp.py:151-152  for k, v in kwargs.items(): setattr(self, k, v) *)
  Fixpoint set_all (o : number_obj) (xs : list setting) : number_obj * res unit :=
    match xs with
    | [] => (o, Ok tt)
    | x :: r => match set1 o x with (o', Ok _) => set_all o' r | (o', Err e) => (o', Err e) end
    end.
  (** nlp.py:145-159  Number.__init__; (lp, ls) is what locale.localeconv() says *)
  Definition new_number (lp ls : pystr) (kwargs : list setting) : res number_obj :=
    match set_all (NumObj lp (match ls with [] => lit "," | _ => ls end) true None None) kwargs with
    | (o, Ok _) =>
      let pats := (no_point o, (no_sep o, no_optional o)) in
      let o' := NumObj (no_point o) (no_sep o) (no_optional o) (Some pats) None in
      match build_num o' with
      | Ok r => Ok (NumObj (no_point o) (no_sep o) (no_optional o) (Some pats) (Some r))
      | Err e => Err e
      end
    | (_, Err e) => Err e
    end.
  (** assignments to the attributes of a Number, one after the other; one that raises changes what it changes *)
  Fixpoint assign_all (o : number_obj) (xs : list setting) : number_obj :=
    match xs with [] => o | x :: r => assign_all (fst (set1 o x)) r end.
  (** nlp.py:475-499, 505-508  SimpleNlp(number, chars).from_text(text); None for the argument number: 484
      asks None for get_itor *)
  Definition nlp_from_text (number : option number_obj) (chars : bool) (h : heap) (text : pystr) : out nat :=
    match number with
    | None => (h, Err AttributeError)
    | Some o => match no_re o with
                | Some r => from_text C r chars h text
                | None => (h, Err AttributeError)
                end
    end.
End Conf.
(** nlp.py:501-503  the property number of SimpleNlp: _number is assigned nowhere *)
Definition nlp_number : res number_obj := Err AttributeError.
(** nlp.py:250-255, 276-283  Paragraph(min_separators=n), and its setter: the pattern is built anew *)
Record para_obj := ParaObj { po_least : nat; po_re : nrx }.
Definition new_para (n : nat) : para_obj := ParaObj n (para_rx n).
Definition set_least (o : para_obj) (n : nat) : para_obj := ParaObj n (para_rx n).
(** nlp.py:303-306  the function wrapped: lambda ito: [ito.str_strip(''.join(trimmable_ws))] *)
Definition strip_wrap (i : nat) : strm :=
  act (fun h => match str_strip (fun _ => false) (n_f (nd h i)) (Some trimmable_ws) with
                | RSelf => (h, Ok i)
                | RNew f => new_node h f
                end) (fun j => Yield j Stop).
(** nlp.py:299-312  Paragraph(min_separators=n, trim_ws=trim).get_itor(): the itorator is number 0; 1 and 2 are the
    Split and its Extract when trim_ws is set *)
Definition para_prog (n : nat) (trim : bool) : prog := fun t =>
  let splitter := Itor (TSplit 2 None RNone true (Some n_paragraph)) [] PostNone in
  match t with
  | 0%nat => if trim then Itor (TWrap strip_wrap) [Con Recurse always 1] PostNone else splitter
  | 1%nat => splitter
  | _ => split_itor re_para (para_rx n)
  end.
(** the list of what Paragraph(n, trim).get_itor()(x) yields; no itorator calls itself, so that a depth of 4 suffices *)
Definition para_run (n : nat) (trim : bool) (x : nat) (h : heap) : heap * (list nat * option exn) := drain (call 4 (para_prog n trim) 0 x) h.
