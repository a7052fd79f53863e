(** children as a collections.abc.Sequence: what ito.py:1408 inherits. *)
From Verif Require Import Heap Axis ChildSlices.
Open Scope Z_scope.
Import ListNotations.

(** Sequence.index of CPython (Lib/_collections_abc.py), called on ito.py:1408 class
    ChildItos(collections.abc.Sequence): while stop is None or i < stop: v = self[i]; IndexError
    ends the loop; v is value or v == value returns i.  The fuel is the number of children + 1 *)
Fixpoint index_loop (fuel : nat) (h : heap) (p v : nat) (i : Z) (stop : option Z) : res Z :=
  match fuel with
  | O => Err OutOfFuel
  | S n => if match stop with None => true | Some s => i <? s end
           then match kids_get_int h p i with
                | Ok c => if node_eqb h c v then Ok i else index_loop n h p v (i + 1) stop
                | Err IndexError => Err ValueError
                | Err e => Err e
                end
           else Err ValueError
  end.
(** Sequence.index(value, start=0, stop=None): a negative start is moved to the front at most, a negative stop is not *)
Definition kids_index (h : heap) (p v : nat) (start : Z) (stop : option Z) : res Z :=
  let n := zlen (n_kids (nd h p)) in
  index_loop (S (length (n_kids (nd h p)))) h p v (if start <? 0 then Z.max (n + start) 0 else start)
    (match stop with Some s => Some (if s <? 0 then s + n else s) | None => None end).
(** Sequence.count(value): sum(1 for v in self if v is value or v == value) *)
Definition kids_count (h : heap) (p v : nat) : Z := zlen (filter (fun c => node_eqb h c v) (n_kids (nd h p))).
(** Sequence.__reversed__: for i in reversed(range(len(self))): yield self[i] *)
Fixpoint reversed_from (h : heap) (p : nat) (n : nat) : res (list nat) :=
  match n with
  | O => Ok []
  | S m => do c <- kids_get_int h p (Z.of_nat m); do r <- reversed_from h p m; Ok (c :: r)
  end.
Definition kids_reversed (h : heap) (p : nat) : res (list nat) := reversed_from h p (length (n_kids (nd h p))).
