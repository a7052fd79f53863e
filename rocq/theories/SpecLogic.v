(** Vocabulary for C127. *)
From Verif Require Export SpecQuery.
(** node j is in a result *)
Definition member_of (j : nat) (l : list nat) : bool := existsb (Nat.eqb j) l.
(** every / { } in g is escaped, and g does not end in the middle of an escape *)
Definition quiet (g : pystr) : Prop := fst (after false 0 g) = false /\ forall u c v, g = u ++ c :: v -> In c (lit "/{}") -> fst (after false 0 u) = true.
(** two expressions with the same truth table *)
Definition equivalent {A} (e e' : expr A) : Prop := forall v, truth v e = truth v e'.
