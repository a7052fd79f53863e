(** Specification vocabulary for the axes. *)
From Verif Require Export Axis.

(** j comes after / before i in document order and is not below / above it *)
Definition following (h : heap) (i j : nat) : Prop := doc_before h i j /\ ~ anc h i j.
Definition preceding (h : heap) (i j : nat) : Prop := doc_before h j i /\ ~ anc h j i.
(** siblings, x first *)
Definition sib_before (h : heap) (x y : nat) : Prop :=
  exists p l m r, n_kids (nd h p) = l ++ x :: m ++ y :: r.
Definition sib_next (h : heap) (x y : nat) : Prop := exists p l r, n_kids (nd h p) = l ++ x :: y :: r.

(** the nodes an axis selects from i *)
Definition ax_set (h : heap) (k : axkey) (i j : nat) : Prop :=
  match k with
  | AxRoot => n_par (nd h j) = None /\ anc h j i
  | AxAncs => anc h j i
  | AxParent => n_par (nd h i) = Some j
  | AxSelf | AxDedup => j = i
  | AxKids => n_par (nd h j) = Some i
  | AxDescs => anc h i j
  | AxLeaves => anc h i j /\ n_kids (nd h j) = []
  | AxPrec => preceding h i j
  | AxPrevs => sib_before h j i
  | AxPrev => sib_next h j i
  | AxNext => sib_next h i j
  | AxNexts => sib_before h i j
  | AxFoll => following h i j
  end.
(** XPath's reverse axes list the nodes from i backwards *)
Definition ax_backward (k : axkey) : bool :=
  match k with AxAncs | AxPrec | AxPrevs => true | _ => false end.
(** nearest first: document order, or the opposite for a backward axis *)
Definition ax_order (h : heap) (k : axkey) (a b : nat) : Prop :=
  if ax_backward k then doc_before h b a else doc_before h a b.
(** where the two axes that compare spans are exact *)
Definition ax_domain (h : heap) (k : axkey) (i : nat) : Prop :=
  match k with
  | AxPrec => n_par (nd h i) = None \/ nonempty h i
  | AxFoll => n_par (nd h i) = None \/ (nonempty h i /\ forall j, anc h i j -> nonempty h j)
  | _ => True
  end.
(** axes defined node by node *)
Definition ax_local (k : axkey) : bool :=
  match k with AxSelf | AxDedup | AxPrec | AxFoll => false | _ => true end.

(** what ! and !! add to the result l of an axis from node s *)
Definition with_self (o : orself) (reverse : bool) (s : nat) (l : list nat) : list nat :=
  match o with
  | OsNo => l
  | OsEmpty => match l with [] => [s] | _ => l end
  | OsAlways => if reverse then l ++ [s] else s :: l
  end.

(** the position of the first occurrence of x in l *)
Fixpoint first_at (x : nat) (l : list nat) : nat :=
  match l with [] => 0 | y :: r => if (y =? x)%nat then 0 else S (first_at x r) end.
(** l' holds each element of l once, in the order of first occurrence *)
Definition firsts_of (l l' : list nat) : Prop :=
  (forall x, In x l' <-> In x l) /\ StronglySorted (fun x y => (first_at x l < first_at y l)%nat) l'.
