(** What an index and a slice of a list of n items address (Python language and library
    reference: sequences, "s[i:j:k]"); independent of the model. *)
From Verif Require Import Py SpecHeap.

(** a negative number counts from the end *)
Definition counted (n v : Z) : Z := if v <? 0 then n + v else v.
(** the item an index addresses *)
Definition idx_at (n k : Z) (i : nat) : Prop := - n <= k < n /\ Z.of_nat i = counted n k.
(** the first position: where the slice starts, moved into the list; left out: the end the step leads away from *)
Definition slc_first (n : Z) (a : option Z) (st : Z) : Z :=
  match a with
  | None => if 0 <? st then 0 else n - 1
  | Some v => if 0 <? st then Z.max 0 (Z.min n (counted n v)) else Z.max (-1) (Z.min (n - 1) (counted n v))
  end.
(** the position at which it stops *)
Definition slc_limit (n : Z) (b : option Z) (st : Z) : Z :=
  match b with
  | None => if 0 <? st then n else -1
  | Some v => if 0 <? st then Z.max 0 (Z.min n (counted n v)) else Z.max (-1) (Z.min (n - 1) (counted n v))
  end.
(** the t-th item (from 0) that [a:b:st] addresses is at position k *)
Definition slc_at (n : Z) (a b : option Z) (st : Z) (t k : nat) : Prop :=
  Z.of_nat k < n /\ Z.of_nat k = slc_first n a st + Z.of_nat t * st /\ (0 < st -> Z.of_nat k < slc_limit n b st) /\ (st < 0 -> slc_limit n b st < Z.of_nat k).

(** c may stand between the children l and r of p *)
Definition may_stand (h : heap) (p : nat) (l r : list nat) (c : nat) : Prop :=
  fits h c p /\ c <> p /\ Forall (fun x => h_before h x c) l /\ Forall (h_before h c) r.
(** so may all of cs, in this order *)
Definition may_stand_all (h : heap) (p : nat) (l r : list nat) (cs : list nat) : Prop :=
  Forall (may_stand h p l r) cs /\ StronglySorted (h_before h) cs.
