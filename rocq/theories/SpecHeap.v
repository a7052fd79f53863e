(** Specification vocabulary for the object graph. *)
From Verif Require Export Heap.
From Coq Require Export Sorted Permutation.

(** a lies strictly before b and does not overlap it *)
Definition h_before (h : heap) (a b : nat) : Prop :=
  h_start h a < h_start h b /\ h_stop h a <= h_start h b.
Definition kids_sorted (h : heap) (ks : list nat) : Prop := StronglySorted (h_before h) ks.

(** c may be a child of p as far as string and span are concerned *)
Definition fits (h : heap) (c p : nat) : Prop :=
  h_string h c = h_string h p /\ h_start h p <= h_start h c /\ h_stop h c <= h_stop h p.

(** well-formed forest of Itos: every span inside its string; children sorted,
    disjoint, inside their parent and on its string; c is in p.children iff
    c.parent is p *)
Record hwf (h : heap) : Prop := {
  hwf_span : forall i, fwf (n_f (nd h i));
  hwf_kid : forall p c, In c (n_kids (nd h p)) -> n_par (nd h c) = Some p /\ fits h c p /\ c <> p /\ (c < length h)%nat;
  hwf_par : forall p c, n_par (nd h c) = Some p -> In c (n_kids (nd h p)) /\ (p < length h)%nat;
  hwf_sorted : forall p, kids_sorted h (n_kids (nd h p))
}.

(** objects keep their data: string, span, desc, value function *)
Definition same_data (h h' : heap) : Prop := forall i, (i < length h)%nat -> n_f (nd h' i) = n_f (nd h i).

(** a is a proper ancestor of i *)
Inductive anc (h : heap) (a : nat) : nat -> Prop :=
| anc_parent i : n_par (nd h i) = Some a -> anc h a i
| anc_up i p : n_par (nd h i) = Some p -> anc h a p -> anc h a i.
Definition acyclic (h : heap) : Prop := forall i, ~ anc h i i.

(** j is a descendant of i, n levels below its children (0: j is a child of i) *)
Inductive below (h : heap) (i : nat) : nat -> nat -> Prop :=
| below_child j : n_par (nd h j) = Some i -> below h i j 0
| below_down j p n : n_par (nd h j) = Some p -> below h i p n -> below h i j (S n).

(** document order: a is an ancestor of b, or a and b lie under (or are)
    siblings x, y of which x comes first *)
Definition self_or_anc (h : heap) (x a : nat) : Prop := a = x \/ anc h x a.
Definition doc_before (h : heap) (a b : nat) : Prop :=
  anc h a b \/
  exists p l x m y r, n_kids (nd h p) = l ++ x :: m ++ y :: r /\ self_or_anc h x a /\ self_or_anc h y b.

(** the spans of c and k neither start together nor overlap *)
Definition clear_of (h : heap) (c k : nat) : Prop := h_start h k <> h_start h c /\ (h_stop h k <= h_start h c \/ h_stop h c <= h_start h k).

(** when children.add(c) should be accepted by p *)
Definition addable (h : heap) (p c : nat) : Prop :=
  n_par (nd h c) = None /\ fits h c p /\ c <> p /\ Forall (clear_of h c) (n_kids (nd h p)).

(** existing objects are untouched *)
Definition extends (h h' : heap) : Prop := (length h <= length h')%nat /\ forall j, (j < length h)%nat -> nd h' j = nd h j.

(** i has a nonempty span *)
Definition nonempty (h : heap) (i : nat) : Prop := h_start h i < h_stop h i.

Definition same_span (h : heap) (a b : nat) : Prop := h_start h a = h_start h b /\ h_stop h a = h_stop h b.

(** no add in the history puts an Ito under a parent with its own span *)
Definition op_strict (h : heap) (o : op) : Prop :=
  match o with OAdd p cs => Forall (fun c => ~ same_span h c p) cs | _ => True end.
Fixpoint run_strict (h : heap) (os : list op) : Prop :=
  match os with [] => True | o :: os' => op_strict h o /\ run_strict (step h o) os' end.

(** r is the parentless ancestor-or-self of i *)
Definition root_of (h : heap) (r i : nat) : Prop := n_par (nd h r) = None /\ (r = i \/ anc h r i).
