(** Model of smaller parts of the API of Ito: from_spans, repr, value and value_func. *)
From Verif Require Export Format Combin.

(** -- from_spans --------------------------------------------------------------------------------- *)
(** ito.py:183-194  from_spans(src: str, spans, desc): cls(src, *s, desc=desc) for s in spans.  A span may hold None
    for start or stop *)
Definition from_spans_str (src : pystr) (spans : list (option Z * option Z)) (desc : option pystr) : list fito :=
  map (fun s => ito_of_str src (fst s) (snd s) desc) spans.
(** ito.py:183-194  from_spans(src: Ito, spans, desc): the Itos yielded and the exception that ends them *)
Fixpoint from_spans_ito (src : fito) (spans : list (option Z * option Z)) (desc : option pystr) : gen fito :=
  match spans with
  | [] => ([], None)
  | s :: r => match ito_of_ito src (fst s) (snd s) desc with
              | Ok x => let g := from_spans_ito src r desc in (x :: fst g, snd g)
              | Err e => ([], Some e)
              end
  end.

(** -- repr ---------------------------------------------------------------------------------------- *)
(** ito.py:566-567  the format spec of __repr__ *)
Definition repr_spec : pystr := lit "span=%span, desc=%desc!r, substr=%substr!r".
(** ito.py:566-567  __repr__; cls is type(self).__name__ *)
Definition ito_repr (E : fmt_env) (cls : pystr) (i : fito) : res pystr :=
  do s <- ito_format E i repr_spec; Ok (cls ++ lit "(" ++ s ++ lit ")").

(** -- value and value_func ------------------------------------------------------------------------- *)
(** An Ito as far as value and value_func go: _value_func, and the entry value of the dictionary of the
    instance, a function without arguments that closes over a function and the Ito it was set on (ito.py:398).
    Functions are numbers. *)
Record vobj := VO { vo_func : option nat; vo_attr : option (nat * nat) }.
Definition vobjs := list vobj.
Definition vo (o : vobjs) (i : nat) : vobj := nth i o (VO None None).
(** ito.py:390-399  the setter of value_func.  Line 396: delattr raises AttributeError if there is no such entry *)
Definition set_value_func (o : vobjs) (i : nat) (f : option nat) : vobjs * res unit :=
  let put x := firstn i o ++ [x] ++ skipn (S i) o in
  match f with
  | None =>
      match vo_func (vo o i) with
      | Some _ => match vo_attr (vo o i) with Some _ => (put (VO None None), Ok tt) | None => (o, Err AttributeError) end
      | None => (put (VO None (vo_attr (vo o i))), Ok tt)
      end
  | Some g => (put (VO (Some g) (Some (g, i))), Ok tt)
  end.
(** ito.py:93, 331-332  clone (of one Ito): a new object, with the value function set if there is one *)
Definition clone_value (o : vobjs) (i : nat) : vobjs * res unit :=
  let n := length o in
  let o1 := o ++ [VO None None] in
  match vo_func (vo o i) with
  | Some f => set_value_func o1 n (Some f)
  | None => (o1, Ok tt)
  end.
(** ito.py:442-444  __setstate__ (pickle, JSON): a new object without *)
Definition load_value (o : vobjs) : vobjs := o ++ [VO None None].
(** ito.py:383-384, 398  value(): the entry of the instance if there is one, else str(self) *)
Inductive vresult := VText (i : nat) | VCall (f i : nat).
Definition value (o : vobjs) (i : nat) : vresult :=
  match vo_attr (vo o i) with Some (f, j) => VCall f j | None => VText i end.
(** a history: create, assign, clone, load *)
Inductive vop := VNew | VSet (i : nat) (f : option nat) | VClone (i : nat) | VLoad (i : nat).
Definition vstep (o : vobjs) (x : vop) : vobjs * res unit :=
  match x with
  | VNew => (o ++ [VO None None], Ok tt)
  | VSet i f => set_value_func o i f
  | VClone i => clone_value o i
  | VLoad _ => (load_value o, Ok tt)
  end.
Fixpoint vrun (o : vobjs) (l : list vop) : vobjs * res unit :=
  match l with
  | [] => (o, Ok tt)
  | x :: r => match vstep o x with (o1, Ok _) => vrun o1 r | e => e end
  end.
