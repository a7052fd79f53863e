(** Specification vocabulary for serialisation. *)
From Verif Require Export Json SpecHier SpecQuery.

(** an Ito and a tree without their value functions *)
Definition forget_f (f : fito) : fito := FI (f_str f) (f_start f) (f_stop f) (f_desc f) None.
Fixpoint forget (t : tree) : tree := let (f, ts) := t in T (forget_f f) (map forget ts).

(** no node has exactly one child and the span of that child *)
Fixpoint echo_free (t : tree) : Prop :=
  let (f, ts) := t in
  (forall k, ts = [k] -> f_span (t_f k) <> f_span f) /\
  (fix go (l : list tree) : Prop := match l with [] => True | k :: r => echo_free k /\ go r end) ts.
(** the subtrees that survive being taken apart and put together again by add_hierarchical *)
Definition settled (t : tree) : Prop := echo_free t /\ Forall f_nonempty (t_nodes t).
(** every child but the first of its parent is settled *)
Inductive json_safe : tree -> Prop :=
| json_safe_intro f ts : Forall settled (tl ts) -> Forall json_safe ts -> json_safe (T f ts).
(** what the path of an Ito needs from the query language: delimiters are plain
    characters, int() reads what str() writes, '.' and '*' are printable *)
Definition json_env (E : pyenv) : Prop := plain_delims E /\ ints_ok E /\ py_isprintable E 46 = true /\ py_isprintable E 42 = true.
