(** Specification vocabulary for OntQuery.v: expressions and what they mean. *)
From Verif Require Export OntQuery.

(** operands: an entity or a bracketed expression, perhaps behind a ! and in front of a quantifier; operands between binary operators *)
Inductive bin := BXor | BOr | BAnd.
Inductive expr := Expr (u : operand) (rest : list (bin * nat * operand))
with operand := Operand (neg : option nat) (p : primary) (qty : option nat)
with primary := PEntity (i : nat) | PSub (e : expr).
Definition oper_of (b : bin) : oper := match b with BXor => OXor | BOr => OOr | BAnd => OAnd end.
Definition opt_tok (k : oper) (o : option nat) : list token := match o with Some i => [TOper k i] | None => [] end.
(** how they are written *)
Fixpoint toks_e (e : expr) : list token :=
  match e with Expr u rest => toks_o u ++ flat_map (fun x => TOper (oper_of (fst (fst x))) (snd (fst x)) :: toks_o (snd x)) rest end
with toks_o (u : operand) : list token := match u with Operand n p q => opt_tok ONot n ++ toks_p p ++ opt_tok OQuantifier q end
with toks_p (p : primary) : list token := match p with PEntity i => [TEntity i] | PSub e => [TQuery (toks_e e)] end.
(** what they mean: & binds closer than ^ and |, operators of one level group to the left, ! and quantifiers bind closest *)
Inductive meaning := Leaf (i : nat) | Unary (k : oper) (i : nat) (m : meaning) | Binary (k : oper) (i : nat) (l r : meaning).
Definition opt_un (k : oper) (o : option nat) (m : meaning) : meaning := match o with Some i => Unary k i m | None => m end.
(** what waits to the left of a chain of & *)
Definition finish (left : option (meaning * (bin * nat))) (m : meaning) : meaning :=
  match left with Some (l, o) => Binary (oper_of (fst o)) (snd o) l m | None => m end.
Definition climb (st : option (meaning * (bin * nat)) * meaning) (x : bin * nat * meaning) : option (meaning * (bin * nat)) * meaning :=
  match fst (fst x) with
  | BAnd => (fst st, Binary OAnd (snd (fst x)) (snd st) (snd x))
  | _ => (Some (finish (fst st) (snd st), fst x), snd x)
  end.
Fixpoint mean_e (e : expr) : meaning :=
  match e with Expr u rest => let r := fold_left climb (map (fun x => (fst x, mean_o (snd x))) rest) (None, mean_o u) in finish (fst r) (snd r) end
with mean_o (u : operand) : meaning := match u with Operand n p q => opt_un OQuantifier q (opt_un ONot n (mean_p p)) end
with mean_p (p : primary) : meaning := match p with PEntity i => Leaf i | PSub e => mean_e e end.
(** reading a postfix sequence, with a stack *)
Definition read1 (st : option (list meaning)) (a : atom) : option (list meaning) :=
  match st, a with
  | Some ms, AEntity i => Some (Leaf i :: ms)
  | Some (m :: ms), AOper ONot i => Some (Unary ONot i m :: ms)
  | Some (m :: ms), AOper OQuantifier i => Some (Unary OQuantifier i m :: ms)
  | Some (r :: l :: ms), AOper k i => Some (Binary k i l r :: ms)
  | _, _ => None
  end.
Definition postfix (l : list atom) : option (list meaning) := fold_left read1 l (Some []).
(** the entities of an expression, and of a meaning, from left to right *)
Fixpoint ents_e (e : expr) : list nat := match e with Expr u rest => ents_o u ++ flat_map (fun x => ents_o (snd x)) rest end
with ents_o (u : operand) : list nat := match u with Operand _ p _ => ents_p p end
with ents_p (p : primary) : list nat := match p with PEntity i => [i] | PSub e => ents_e e end.
Fixpoint leaves (m : meaning) : list nat := match m with Leaf i => [i] | Unary _ _ m => leaves m | Binary _ _ l r => leaves l ++ leaves r end.
(** in every bracket no & behind a ^ or |, and no operand both behind a ! and in front of a quantifier *)
Definition ands_first (l : list (bin * nat * operand)) : Prop := exists a o, l = a ++ o /\ Forall (fun x => fst (fst x) = BAnd) a /\ Forall (fun x => fst (fst x) <> BAnd) o.
Fixpoint even_e (e : expr) : Prop := match e with Expr u rest => ands_first rest /\ even_o u /\ fold_right (fun x P => even_o (snd x) /\ P) True rest end
with even_o (u : operand) : Prop := match u with Operand n p q => (n = None \/ q = None) /\ even_p p end
with even_p (p : primary) : Prop := match p with PEntity _ => True | PSub e => even_e e end.
