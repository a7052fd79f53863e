(** Reading children by index and slice (ito.py:1464-1469). *)
From Verif Require Import Heap.

(** ito.py:1466-1469  ChildItos.__getitem__(int): the item of the store *)
Definition kids_get_int (h : heap) (p : nat) (k : Z) : res nat := py_index (n_kids (nd h p)) k.
(** ito.py:1466-1469  ChildItos.__getitem__(slice): the list of the items the slice selects *)
Definition kids_get_slice (h : heap) (p : nat) (a b step : option Z) : res (list nat) :=
  match slice_positions (length (n_kids (nd h p))) a b step with
  | Ok pos => Ok (map (fun k => nth k (n_kids (nd h p)) 0%nat) pos)
  | Err e => Err e
  end.
