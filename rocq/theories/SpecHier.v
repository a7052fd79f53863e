(** Specification vocabulary for hierarchical insertion. *)
From Verif Require Export AddHier.

(** f and g partially overlap *)
Definition crosses (f g : fito) : Prop :=
  (f_start f < f_start g /\ f_start g < f_stop f /\ f_stop f < f_stop g) \/
  (f_start g < f_start f /\ f_start f < f_stop g /\ f_stop g < f_stop f).
(** the data of all nodes of a tree / forest, in document order *)
Fixpoint t_nodes (t : tree) : list fito := let (f, ts) := t in f :: flat_map t_nodes ts.
Definition f_nodes (ts : list tree) : list fito := flat_map t_nodes ts.
Definition inside (c p : fito) : Prop := f_str c = f_str p /\ f_start p <= f_start c /\ f_stop c <= f_stop p.
Definition f_nonempty (f : fito) : Prop := f_start f < f_stop f.
Definition f_span (f : fito) : Z * Z := (f_start f, f_stop f).

(** the (parent, child) pairs of a forest *)
Fixpoint t_edges (t : tree) : list (fito * fito) :=
  let (f, ts) := t in map (fun c => (f, t_f c)) ts ++ flat_map t_edges ts.
Definition f_edges (ts : list tree) : list (fito * fito) := flat_map t_edges ts.
(** all (ancestor, descendant) pairs of a forest *)
Fixpoint t_pairs (t : tree) : list (fito * fito) :=
  let (f, ts) := t in map (fun y => (f, y)) (f_nodes ts) ++ flat_map t_pairs ts.
Definition f_pairs (ts : list tree) : list (fito * fito) := flat_map t_pairs ts.
(** nodes of equal span are nested in non-decreasing key order *)
Definition key_ordered (key : fito -> Z) (ts : list tree) : Prop :=
  forall x y, In (x, y) (f_pairs ts) -> f_span x = f_span y -> key x <= key y.
(** leaves to be added *)
Definition leaves (fs : list fito) : list tree := map (fun f => T f []) fs.
(** a chain: each the only child of the one before *)
Fixpoint chain (fs : list fito) : list tree :=
  match fs with [] => [] | f :: fs' => [T f (chain fs')] end.

(** document order of spans: earlier start first, longer span first *)
Definition span_le (x y : fito) : Prop := f_start x < f_start y \/ (f_start x = f_start y /\ f_stop y <= f_stop x).
(** x is strictly contained in y *)
Definition strictly_inside (x y : fito) : Prop := inside x y /\ f_span x <> f_span y.
(** x and y share a position; for x inside y this fails only when x is a
    zero-width span sitting on an end of y *)
Definition f_overlap (x y : fito) : Prop := f_start y < f_stop x /\ f_start x < f_stop y.

(** ** on lists of trees *)
Definition forest_wf (pf : fito) (ks : list tree) : Prop :=
  StronglySorted t_before ks /\ Forall (fun c => inside (t_f c) pf) ks /\ Forall twf ks.
Definition no_cross (A B : list fito) : Prop := forall x y, In x A -> In y B -> ~ crosses x y.
Definition some_cross (A B : list fito) : Prop := exists x y, In x A /\ In y B /\ crosses x y.
(** what even a failing call keeps *)
Definition kept (h h' : heap) : Prop := hwf h' /\ acyclic h' /\ length h' = length h /\ (forall j, n_f (nd h' j) = n_f (nd h j)).
(** a heap-level reading of the specification *)
Definition h_cross (h : heap) (a b : nat) : Prop := crosses (n_f (nd h a)) (n_f (nd h b)).
Definition h_inside (h : heap) (a b : nat) : Prop := h_start h b <= h_start h a /\ h_stop h a <= h_stop h b.
(** x is one of the Itos [cs] or below one of them *)
Definition among_trees (h : heap) (cs : list nat) (x : nat) : Prop := exists c, In c cs /\ self_or_anc h c x.
