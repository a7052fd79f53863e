(** When two Itos, perhaps of different trees, are at the same place; what it means for queries to see the same. *)
From Verif Require Export SpecHeap Query.

(** From [i] to its child number k1, from there to its child number k2, and so on, leads to [j]. *)
Inductive leads (h : heap) : nat -> list nat -> nat -> Prop :=
| ld_here i : leads h i [] i
| ld_down i k c w j : nth_error (n_kids (nd h i)) k = Some c -> leads h c w j -> leads h i (k :: w) j.
(** [i] is in the tree of [r] where [i'] is in the tree of [r']. *)
Definition same_place (h : heap) (r : nat) (h' : heap) (r' : nat) (i i' : nat) : Prop :=
  exists w, leads h r w i /\ leads h' r' w i'.
(** The values, predicates and value functions given to the two queries agree: the same keys and values; the predicates
    answer alike, and .value() gives the same, for Itos at the same place. *)
Definition alike (R : nat -> nat -> Prop) (e e' : renv) : Prop :=
  rv_values e = rv_values e' /\ (forall a b, rv_eq e a b = rv_eq e' a b) /\ (forall i i', R i i' -> rv_value e i = rv_value e' i') /\
  match rv_preds e, rv_preds e' with
  | Some d, Some d' => Forall2 (fun p p' => fst p = fst p' /\ forall n i i', R i i' -> snd p (n, i) = snd p' (n, i')) d d'
  | None, None => True
  | _, _ => False
  end.
(** Two results: the same places in the same order, and the same exception, if any. *)
Definition same_results (R : nat -> nat -> Prop) (g g' : gen nat) : Prop := Forall2 R (fst g) (fst g') /\ snd g = snd g'.
