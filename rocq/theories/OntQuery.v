(** Model of pawpaw/ontology/_query.py: how Query orders the tokens of an expression. *)
From Verif Require Export Py.

(** the operators by the descriptor of their token (_query.py:114-118) *)
Inductive oper := OXor | OOr | OAnd | ONot | OQuantifier.
(** tokens, each standing for an Ito (its address): an entity, an operator, a bracketed query with its tokens
    (_query.py:90-134: the children of a token 'query').  LPAREN and RPAREN are never given by the parser. *)
Inductive token := TEntity (i : nat) | TOper (k : oper) (i : nat) | TQuery (ts : list token).
(** what is printed: entities and operators *)
Inductive atom := AEntity (i : nat) | AOper (k : oper) (i : nat).
(** _query.py:137 _OPERATOR_PRECEDENCES and 139-144 _get_precedence *)
Definition precedence (k : oper) : Z := match k with OXor | OOr => 0 | OAnd => 1 | ONot | OQuantifier => 2 end.
(** _query.py:168-175  an operator token: op_stack_p is looked up once, before the loop, so once the loop is entered it
    empties the stack *)
Definition push_oper (k : oper) (i : nat) (st : list atom * list (oper * nat)) : list atom * list (oper * nat) :=
  match snd st with
  | [] => (fst st, [(k, i)])
  | top :: _ => if precedence k <=? precedence (fst top)
                then (fst st ++ map (fun o => AOper (fst o) (snd o)) (snd st), [(k, i)])
                else (fst st, (k, i) :: snd st)
  end.
(** _query.py:147-180  _shunting_yard; the state is the output and the operator stack, top first *)
Fixpoint yard_token (t : token) (st : list atom * list (oper * nat)) : list atom * list (oper * nat) :=
  match t with
  | TEntity i => (fst st ++ [AEntity i], snd st)
  | TOper k i => push_oper k i st
  | TQuery ts =>
      let r := (fix go (ts : list token) (st : list atom * list (oper * nat)) := match ts with [] => st | x :: r => go r (yard_token x st) end) ts ([], []) in
      (fst st ++ fst r ++ map (fun o => AOper (fst o) (snd o)) (snd r), snd st)
  end.
Definition shunting_yard (ts : list token) : list atom :=
  let r := fold_left (fun st t => yard_token t st) ts ([], []) in fst r ++ map (fun o => AOper (fst o) (snd o)) (snd r).
(** _query.py:183-203  Query(src), given what its parser yields: the tokens of one query, or anything else *)
Inductive ending := Raises (e : exn) | Exits (printed : list atom) | Returns.
Definition query_init (len_src : Z) (parsed : list (list token)) : ending :=
  if len_src =? 0 then Raises ValueError else
  match parsed with
  | [[]] => Raises ValueError
  | [ts] => Exits (shunting_yard ts)
  | _ => Raises ValueError
  end.
