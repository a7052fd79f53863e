(** Specification vocabulary for queries. *)
From Verif Require Export Query SpecAxis SpecUtil.

(** ** Expressions over ~ & ^ | and how they are written *)
Inductive expr (A : Type) :=
| EAtom (a : A)
| ENot (e : expr A)
| EAnd (e1 e2 : expr A)
| EXor (e1 e2 : expr A)
| EOr (e1 e2 : expr A).
Arguments EAtom {A} a.
Arguments ENot {A} e.
Arguments EAnd {A} e1 e2.
Arguments EXor {A} e1 e2.
Arguments EOr {A} e1 e2.

(** the value of an expression, given the value of each atom *)
Fixpoint truth {A} (v : A -> bool) (e : expr A) : bool :=
  match e with
  | EAtom a => v a
  | ENot e => negb (truth v e)
  | EAnd e1 e2 => truth v e1 && truth v e2
  | EXor e1 e2 => xorb (truth v e1) (truth v e2)
  | EOr e1 e2 => truth v e1 || truth v e2
  end.
(** the same when an atom may raise: all atoms are evaluated, from left to right *)
Fixpoint outcome {A} (v : A -> res bool) (e : expr A) : res bool :=
  match e with
  | EAtom a => v a
  | ENot e => do b <- outcome v e; Ok (negb b)
  | EAnd e1 e2 => do a <- outcome v e1; do b <- outcome v e2; Ok (a && b)
  | EXor e1 e2 => do a <- outcome v e1; do b <- outcome v e2; Ok (xorb a b)
  | EOr e1 e2 => do a <- outcome v e1; do b <- outcome v e2; Ok (a || b)
  end.

(** a written expression: characters and atoms *)
Inductive item (A : Type) := IC (c : Z) | IF (a : A).
Arguments IC {A} c.
Arguments IF {A} a.
Definition is_space_item {A} (x : item A) : bool := match x with IC c => c =? 32 | IF _ => false end.
Definition despace {A} (l : list (item A)) : list (item A) := filter (fun x => negb (is_space_item x)) l.

(** [renders n k e l]: l writes e without spaces, with ~ & ^ | in that order of
    precedence: n = 0 any expression, 1 operand of |, 2 operand of ^ , 3 operand
    of &.  k says that the outermost construct written is & ^ or | ; parentheses
    enclose such an expression (so not a single filter, and not twice). *)
Inductive renders {A} : nat -> bool -> expr A -> list (item A) -> Prop :=
| r_atom a : renders 3 false (EAtom a) [IF a]
| r_not k e l : renders 3 k e l -> renders 3 false (ENot e) (IC c_not :: l)
| r_paren n e l : renders n true e l -> renders 3 false e (IC c_open :: l ++ [IC c_close])
| r_and k1 k2 e1 e2 l1 l2 : renders 2 k1 e1 l1 -> renders 2 k2 e2 l2 -> renders 2 true (EAnd e1 e2) (l1 ++ IC c_and :: l2)
| r_xor k1 k2 e1 e2 l1 l2 : renders 1 k1 e1 l1 -> renders 1 k2 e2 l2 -> renders 1 true (EXor e1 e2) (l1 ++ IC c_xor :: l2)
| r_or k1 k2 e1 e2 l1 l2 : renders 0 k1 e1 l1 -> renders 0 k2 e2 l2 -> renders 0 true (EOr e1 e2) (l1 ++ IC c_or :: l2)
| r_up n k e l : renders (S n) k e l -> renders n k e l.
(** l, spaces aside, writes e *)
Definition writes {A} (e : expr A) (l : list (item A)) : Prop := exists k, renders 0 k e (despace l).

(** the atoms of l, and the texts before, between and after them *)
Fixpoint atoms {A} (l : list (item A)) : list A :=
  match l with [] => [] | IC _ :: r => atoms r | IF a :: r => a :: atoms r end.
Fixpoint operands {A} (l : list (item A)) : list pystr :=
  match l with
  | [] => [[]]
  | IC c :: r => match operands r with o :: os => (c :: o) :: os | [] => [[c]] end
  | IF _ :: r => [] :: operands r
  end.
(** l as a text, the atoms being texts *)
Fixpoint text_of (l : list (item pystr)) : pystr :=
  match l with [] => [] | IC c :: r => c :: text_of r | IF g :: r => g ++ text_of r end.

(** ** Delimited texts *)
(** nesting depth at the end of s; a delimiter directly after a backslash is
    ordinary text.  [bs]: s follows a backslash *)
Fixpoint level (o c : Z) (bs : bool) (s : pystr) : Z :=
  match s with
  | [] => 0
  | x :: r => (if bs then 0 else if x =? o then 1 else if x =? c then -1 else 0) + level o c (x =? 92) r
  end.
(** g is one group o ... c: it closes at its last character and not before *)
Definition one_group (o c : Z) (g : pystr) : Prop :=
  (exists g', g = o :: g') /\ level o c false g = 0 /\
  forall p q, g = p ++ q -> p <> [] -> q <> [] -> 0 < level o c false p.
(** a delimiter that follows a backslash is escaped (the run of backslashes
    before it is odd) *)
Definition escapes_ok (o c : Z) (g : pystr) : Prop :=
  forall p x q, g = p ++ x :: q -> x = o \/ x = c -> esc_run 92 p = O \/ Nat.odd (esc_run 92 p) = true.
(** no operator is white space *)
Definition ops_not_space (E : pyenv) : Prop := forall c, In c op_chars -> c <> 32 -> py_isspace E c = false.

(** ** Paths *)
(** the state after reading s: an escape is pending; unescaped { minus unescaped } *)
Fixpoint after (esc : bool) (d : Z) (s : pystr) : bool * Z :=
  match s with
  | [] => (esc, d)
  | x :: r => if esc then after false d r
              else if x =? 92 then after true d r
              else after false (d + if x =? 123 then 1 else if x =? 125 then -1 else 0) r
  end.
(** s ends outside braces and without a pending escape *)
Definition complete (s : pystr) : Prop := after false 0 s = (false, 0).
(** no pending escape at the end, and every / is escaped or inside braces *)
Definition single_phrase (s : pystr) : Prop :=
  fst (after false 0 s) = false /\ forall u v, s = u ++ 47 :: v -> after false 0 u <> (false, 0).
(** every { is escaped *)
Definition no_brace (s : pystr) : Prop := forall u v, s = u ++ 123 :: v -> fst (after false 0 u) = true.

(** how an axis is written: query/_query.py:85 *)
Definition axis_name (k : axkey) : pystr :=
  match k with
  | AxRoot => lit "...." | AxAncs => lit "..." | AxParent => lit ".." | AxSelf => lit "."
  | AxDedup => lit "><" | AxKids => lit "*" | AxDescs => lit "**" | AxLeaves => lit "***"
  | AxPrec => lit "<<<" | AxPrevs => lit "<<" | AxPrev => lit "<"
  | AxNext => lit ">" | AxNexts => lit ">>" | AxFoll => lit ">>>"
  end.
Definition self_name (o : orself) : pystr := match o with OsNo => [] | OsEmpty => lit "!" | OsAlways => lit "!!" end.
(** the order sign is optional when it is + *)
Definition axis_text (a : axis) (w : pystr) : Prop :=
  exists sign, (if ax_rev a then sign = lit "-" else sign = [] \/ sign = lit "+") /\ w = sign ++ axis_name (ax_key a) ++ self_name (ax_self a).
(** t does not go on with axis characters *)
Definition axis_ends (t : pystr) : Prop := match t with [] => True | x :: _ => ~ In x (lit ".*<>!") end.
(** ** Phrases *)
(** an optional filter or sub-query expression; without one there may be spaces *)
Definition part (e : option (expr pystr)) (L : list (item pystr)) : Prop :=
  match e with Some e => writes e L | None => despace L = [] end.
Definition part_value (v : pystr -> res bool) (e : option (expr pystr)) : res bool :=
  match e with Some e => outcome v e | None => Ok true end.
(** nothing but spaces after the last group *)
Definition ends_with_group (L : list (item pystr)) : Prop := despace L = [] \/ exists l g, despace L = l ++ [IF g].
(** a space is white space, brackets and operators are not *)
Definition plain_delims (E : pyenv) : Prop := py_isspace E 32 = true /\ ops_not_space E /\ forall c, In c (lit "[]{}") -> py_isspace E c = false.
Definition printable (E : pyenv) (s : pystr) : Prop := exists c, In c s /\ py_isprintable E c = true.
Definition part_truth (b : pystr -> bool) (e : option (expr pystr)) : bool := match e with Some e => truth b e | None => true end.

(** ** What single filters mean *)
(** 'v1,v2,...' with each value escaped *)
Definition value_list (vs : list pystr) : pystr := py_join (lit ",") (map escape vs).
(** what can stand after the colon: not empty, no white space in front, no
    backslash at the end (both are lost or rejected, see C63_refuted) *)
Definition writable (E : pyenv) (t : pystr) : Prop := (exists x t', t = x :: t' /\ re_space E x = false) /\ last t 0 <> 92.
(** node j has value v for a key *)
Definition meaning (E : pyenv) (h : heap) (k : fkey) (j : nat) (v : pystr) : Prop :=
  let s := ito_str (n_f (nd h j)) in
  match k with
  | KDesc => f_desc (n_f (nd h j)) = Some v
  | KText => s = v
  | KSw => exists t, s = v ++ t
  | KEw => exists t, s = t ++ v
  | KCf => py_casefold E s = py_casefold E (py_casefold E v)
  | KCfSw => exists t, py_casefold E s = py_casefold E (py_casefold E v) ++ t
  | KCfEw => exists t, py_casefold E s = t ++ py_casefold E (py_casefold E v)
  | _ => False
  end.
Definition text_key (k : fkey) : Prop := match k with KIndex | KPred | KValue => False | _ => True end.
(** casefold works character by character and leaves the special characters alone *)
Definition casefold_ok (E : pyenv) : Prop := exists cf, (forall s, py_casefold E s = flat_map cf s) /\
  (forall c, In c must_escape -> cf c = [c]) /\ (forall c x, ~ In c must_escape -> In x (cf c) -> ~ In x must_escape).
(** the written names of a key *)
Definition names_of (k : fkey) : list pystr :=
  match k with
  | KDesc => [lit "d"; lit "desc"]
  | KText => [lit "s"; lit "string"]
  | KCf => [lit "scf"; lit "lcs"; lit "str-casefold"]
  | KCfEw => [lit "scfew"; lit "lcsew"; lit "str-casefold-ew"]
  | KCfSw => [lit "scfsw"; lit "lcssw"; lit "str-casefold-sw"]
  | KEw => [lit "sew"; lit "str-ew"]
  | KSw => [lit "ssw"; lit "str-sw"]
  | KIndex => [lit "i"; lit "index"]
  | KPred => [lit "p"; lit "predicate"]
  | KValue => [lit "v"; lit "value"]
  end.
Definition key_name (k : fkey) (name : pystr) : Prop := In name (names_of k).

(** index filters *)
Inductive chunk := One (n : nat) | Between (a b : nat) | From (a : nat).
Definition chunk_text (c : chunk) : pystr :=
  match c with One n => dec n | Between a b => dec a ++ lit "-" ++ dec b | From a => dec a ++ lit "-" end.
Definition covers (c : chunk) (k : nat) : Prop :=
  match c with One n => k = n | Between a b => (a <= k < b)%nat | From a => (a <= k)%nat end.
(** int(str(n)) = n, and decimal digits are digits and not white space *)
Definition ints_ok (E : pyenv) : Prop := (forall n, py_int E (dec n) = Some (Z.of_nat n)) /\
  forall c, 48 <= c <= 57 -> py_isdigit E c = true /\ re_space E c = false.

(** ** Parts of a query *)
(** the filter a construction gives; one that failed raises *)
Definition res_ecf (r : res ecf) : ecf := match r with Ok f => f | Err x => fun _ _ _ => Err x end.
(** the text between the braces *)
Definition inside (g : pystr) : pystr := removelast (tl g).
Definition filter_group (E : pyenv) (g : pystr) : Prop := one_group 91 93 g /\ escapes_ok 91 93 g /\ exists f, one_filter E g = Ok f.
(** what the sub-query needs of each of its groups *)
Definition sub_group (parse : pystr -> res query) (g : pystr) : Prop := one_group 123 125 g /\ escapes_ok 123 125 g /\ exists q, parse (inside g) = Ok q.
(** the value of one written filter / sub-query at an enumerated node *)
Definition filter_value (E : pyenv) (h : heap) (r : renv) (ec : nat * nat) (g : pystr) : res bool := res_ecf (one_filter E g) h r ec.
(** {q} holds at a node when node.find(q) is not None *)
Definition sub_value (E : pyenv) (h : heap) (r : renv) (ec : nat * nat) (g : pystr) : res bool :=
  do o <- ito_find E h r (snd ec) (inside g); Ok (match o with Some _ => true | None => false end).
Definition is_pred (key : pystr) : bool := mem_str key [lit "predicate"; lit "p"].
Definition written_key (E : pyenv) (t : pystr) : option pystr := match parse_filter E (91 :: t) with Some (_, k, _) => Some k | None => None end.
(** -- composition -- *)
Definition run_from (q : query) (h : heap) (r : renv) (g : gen nat) : gen nat := fold_left (fun g p => phrase_find p h r g) q g.
Definition local_query (q : query) : Prop := Forall (fun p => ax_local (ax_key (ph_axis p)) = true) q.
(** the group as a whole *)
Definition written (name t : pystr) : pystr := 91 :: (name ++ 58 :: t) ++ [93].
Definition index_list (cs : list chunk) : pystr := py_join (lit ",") (map chunk_text cs).
