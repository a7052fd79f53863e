(** Model of pawpaw/errors.py: the exceptions made for arguments that are refused. *)
From Verif Require Export Py.

(** A type as Errors sees it.
    - [YNamed q s]: it has __qualname__ q, and str() gives s (classes, generic aliases, typing.Callable[..] with q = Callable,
      typing.Union[..] with q = Union);
    - [YVar b]: a TypeVar with the bound b;
    - [YPipe l]: A | B | .. (types.UnionType);
    - [YNone]: None;
    - [YElse r]: anything else, with its repr. *)
Inductive pty := YNamed (q s : pystr) | YVar (b : pty) | YPipe (l : list pty) | YNone | YElse (r : pystr).
(** A value: callable or not, its repr, its str, and what str(inspect.signature(value)) does. *)
Record pval := PV { v_callable : bool; v_repr : pystr; v_str : pystr; v_sig : res pystr }.

(** errors.py:21-38 _get_type_strs *)
Fixpoint type_strs (t : pty) : list pystr :=
  match t with
  | YNamed q s => [if eqb_str q (lit "Callable") then s else q]
  | YVar b => type_strs b
  | YPipe l => flat_map type_strs l
  | YNone => [lit "None"]
  | YElse r => [r]
  end.
(** str.join *)
Fixpoint str_join (sep : pystr) (l : list pystr) : pystr :=
  match l with [] => [] | [x] => x | x :: r => x ++ sep ++ str_join sep r end.
(** errors.py:40-42 _build_types_str *)
Definition build_types_str (allowed : list pty) : pystr := str_join (lit " or ") (flat_map type_strs allowed).
(** An exception object with its text. *)
Definition raised_with : Type := exn * pystr.
(** errors.py:9-11 *)
Definition parameter_not_none (name : pystr) : raised_with := (ValueError, lit "parameter '" ++ name ++ lit "' can not be None").
(** errors.py:13-15 *)
Definition parameter_neither_none_nor_empty (name : pystr) : raised_with := (ValueError, lit "parameter '" ++ name ++ lit "' can be neither None nor empty").
(** errors.py:17-19; e: the name of the enumeration *)
Definition parameter_enum_not_in (name e : pystr) : raised_with := (ValueError, lit "parameter '" ++ name ++ lit "' is not a valid " ++ e).
(** errors.py:46, 51 the local actual *)
Definition actual (v : pval) : res pystr := if v_callable v then v_sig v else Ok (v_repr v).
(** errors.py:44-47 *)
Definition parameter_invalid_type (name : pystr) (v : pval) (allowed : list pty) : res raised_with :=
  do a <- actual v;
  Ok (TypeError, lit "parameter '" ++ name ++ lit "' must be type " ++ build_types_str allowed ++ lit ", not " ++ a).
(** errors.py:49-52 *)
Definition parameter_iterable_contains_invalid_type (name : pystr) (v : pval) (allowed : list pty) : res raised_with :=
  do a <- actual v;
  Ok (TypeError, lit "parameter '" ++ name ++ lit "' must contain elements of type " ++ build_types_str allowed ++ lit ", however, it contains an element of type " ++ a ++ lit ": " ++ v_str v).
(** raise Errors.parameter_..(..): the exception that reaches the caller is the one made, or the one that making it raised
    (its text is that of another library). *)
Definition raise_made (r : res raised_with) : exn * option pystr := match r with Ok (k, s) => (k, Some s) | Err e => (e, None) end.
