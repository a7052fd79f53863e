(** Specification vocabulary for XmlFind.v. *)
From Verif Require Export XmlFind.
From Coq Require Export Sorted.

(** the element reached from e by taking the n-th child (from 0) for each n in turn *)
Inductive reached : element -> list nat -> element -> Prop :=
| Here e : reached e [] e
| Down e n c p x : nth_error (e_kids e) n = Some c -> reached c p x -> reached e (n :: p) x.
(** document order of places: an element comes before what is in it, and before what is in later siblings *)
Inductive earlier : list nat -> list nat -> Prop :=
| Above n q : earlier [] (n :: q)
| Left n m p q : (n < m)%nat -> earlier (n :: p) (m :: q)
| Same n p q : earlier p q -> earlier (n :: p) (n :: q).
(** the part of a tag after the namespace in braces, if it has one *)
Definition local_name (tag name : pystr) : Prop :=
  (~ In 125 tag /\ name = tag) \/ exists ns, ~ In 125 ns /\ tag = ns ++ [125] ++ name.
(** x is in e at the place p, and has this local name *)
Definition called (e : element) (name : pystr) (p : list nat) (x : element) : Prop :=
  p <> [] /\ reached e p x /\ local_name (e_tag x) name.
