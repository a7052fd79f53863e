(** C117: how an ontology query orders the tokens of an expression. *)
From Verif Require Import OntQueryFacts.
From Verif Require Import SpecOntQuery.

(** reading from a stack with more below *)
Lemma reads_postfix l : reads l (Some []) = postfix l.
Proof. reflexivity. Qed.

(** C117: whatever the expression, the printed sequence is a complete postfix expression, over its entities in their order *)
Theorem C117_postfix : forall e, exists m, postfix (shunting_yard (toks_e e)) = Some [m] /\ leaves m = ents_e e.
Proof. intros e. destruct (all_ok e) as (m & R & L & _). exists m. split; [exact (R [])|exact L]. Qed.
(** C117: it means what the precedences say, where no bracket has an & behind a ^ or | and no operand has both a ! and a quantifier *)
Theorem C117_precedence_partial : forall e, even_e e -> postfix (shunting_yard (toks_e e)) = Some [mean_e e].
Proof. intros e H. destruct (all_ok e) as (m & R & _ & E). rewrite <- (E H). exact (R []). Qed.
(** ... but a|b&c&d is read as (a|(b&c))&d instead of a|((b&c)&d) *)
Theorem C117_precedence_refuted :
  let e := Expr (Operand None (PEntity 1) None) [((BOr, 2%nat), Operand None (PEntity 3) None); ((BAnd, 4%nat), Operand None (PEntity 5) None); ((BAnd, 6%nat), Operand None (PEntity 7) None)] in
  mean_e e = Binary OOr 2 (Leaf 1) (Binary OAnd 6 (Binary OAnd 4 (Leaf 3) (Leaf 5)) (Leaf 7)) /\
  postfix (shunting_yard (toks_e e)) = Some [Binary OAnd 6 (Binary OOr 2 (Leaf 1) (Binary OAnd 4 (Leaf 3) (Leaf 5))) (Leaf 7)].
Proof. split; vm_compute; reflexivity. Qed.
(** ... and no call of Query ever returns an object: it raises, or it ends the program *)
Theorem C117_unusable_refuted : forall n parsed, query_init n parsed <> Returns.
Proof. intros n parsed. unfold query_init. destruct (n =? 0); [discriminate|]. destruct parsed as [|[|t ts] [|? ?]]; discriminate. Qed.
(** a&!b|(c^d){2}^f: the hypotheses are met *)
Definition qdemo : expr :=
  Expr (Operand None (PEntity 1) None)
       [((BAnd, 2%nat), Operand (Some 3%nat) (PEntity 4) None);
        ((BOr, 5%nat), Operand None (PSub (Expr (Operand None (PEntity 6) None) [((BXor, 7%nat), Operand None (PEntity 8) None)])) (Some 9%nat));
        ((BXor, 10%nat), Operand None (PEntity 11) None)].
Example C117_case : even_e qdemo /\
  shunting_yard (toks_e qdemo) = [AEntity 1; AEntity 4; AOper ONot 3; AOper OAnd 2; AEntity 6; AEntity 8; AOper OXor 7; AOper OQuantifier 9; AOper OOr 5; AEntity 11; AOper OXor 10] /\
  mean_e qdemo = Binary OXor 10 (Binary OOr 5 (Binary OAnd 2 (Leaf 1) (Unary ONot 3 (Leaf 4))) (Unary OQuantifier 9 (Binary OXor 7 (Leaf 6) (Leaf 8)))) (Leaf 11).
Proof.
  split; [|split; vm_compute; reflexivity]. cbn. split.
  - exists [((BAnd, 2%nat), Operand (Some 3%nat) (PEntity 4) None)]. eexists. split; [reflexivity|]. split; [constructor; [reflexivity|constructor]|]. repeat (constructor; [discriminate|]). constructor.
  - repeat split; auto. exists [], [((BXor, 7%nat), Operand None (PEntity 8) None)]. split; [reflexivity|]. split; [constructor|]. constructor; [discriminate|constructor].
Qed.
Print Assumptions C117_postfix.
Print Assumptions C117_precedence_partial.
Print Assumptions C117_precedence_refuted.
Print Assumptions C117_unusable_refuted.
