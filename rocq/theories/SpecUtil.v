(** Specification vocabulary for util.py. *)
From Verif Require Export Util SpecStr.
From Coq Require Export Sorted.

(** the text of the source *)
Definition u_text (u : usrc) : pystr := match u with UStr s => s | UIto i => ito_str i end.
Definition u_wf (u : usrc) : Prop := match u with UStr _ => True | UIto i => fwf i end.

(** v is a part of u: of the same kind and, for an Ito, a segment of it *)
Definition u_part (v u : usrc) : Prop :=
  match v, u with UStr _, UStr _ => True | UIto j, UIto i => within j i | _, _ => False end.

(** number of escape characters at the very end of w *)
Definition esc_run (e : Z) (w : pystr) : nat := length (take_while (Z.eqb e) (rev w)).
(** a character after w is taken literally *)
Definition literal_after (e : Z) (w : pystr) : Prop := Nat.even (esc_run e w) = true.
(** sep.join(l) *)
Fixpoint py_join (sep : pystr) (l : list pystr) : pystr :=
  match l with
  | [] => []
  | [x] => x
  | x :: r => x ++ sep ++ py_join sep r
  end.

(** balanced sequences of delimiters; the bool says "left" *)
Inductive balanced : list (Z * bool) -> Prop :=
| bal_nil : balanced []
| bal_wrap p u q v : balanced u -> balanced v -> balanced ((p, true) :: u ++ (q, false) :: v).
(** its outermost pairs, in order *)
Inductive outermost : list (Z * bool) -> list (Z * Z) -> Prop :=
| out_nil : outermost [] []
| out_cons p u q v segs : balanced u -> outermost v segs -> outermost ((p, true) :: u ++ (q, false) :: v) ((p, q) :: segs).
(** left and right delimiter equal: they pair up two by two *)
Inductive paired : list Z -> list (Z * Z) -> Prop :=
| pair_nil : paired [] []
| pair_cons p q v segs : paired v segs -> paired (p :: q :: v) ((p, q) :: segs).

(** the pieces of t from cur on, cut at the given positions (which are dropped) *)
Fixpoint cut (t : pystr) (cur : Z) (ys : list Z) : list pystr :=
  match ys with
  | [] => [zsub t cur (zlen t)]
  | i :: r => zsub t cur i :: cut t (i + 1) r
  end.
(** an unescaped occurrence, in the window of t that starts at a, of one of chars *)
Definition unescaped_at (e : Z) (chars : pystr) (t : pystr) (a k : Z) : Prop :=
  exists c, zget t k = Some c /\ In c chars /\ c <> e /\ literal_after e (zsub t a k).
(** ys lists, in order, exactly the positions in [a,b) that satisfy P *)
Definition positions (P : Z -> Prop) (a b : Z) (ys : list Z) : Prop :=
  StronglySorted Z.lt ys /\ forall k, In k ys <-> a <= k < b /\ P k.
(** k holds an escape that ends a maximal run of escapes of odd length within
    [a,b) of t, and another character follows *)
Definition lone_escape (e : Z) (t : pystr) (a b k : Z) : Prop :=
  zget t k = Some e /\ k + 1 < b /\ (exists c, zget t (k + 1) = Some c /\ c <> e) /\
  Nat.odd (esc_run e (zsub t a (k + 1))) = true.
(** the delimiters l, r (different) of the window [a,b) of t, unescaped, in
    order; true marks l *)
Definition delimiters (e l r : Z) (t : pystr) (a b : Z) (items : list (Z * bool)) : Prop :=
  positions (unescaped_at e [l; r] t a) a b (map fst items) /\
  Forall (fun it : Z * bool => zget t (fst it) = Some (if snd it then l else r)) items.
(** w is v with every escape character e dropped and the character after it kept; a dangling escape has no w *)
Inductive unescapes (e : Z) : pystr -> pystr -> Prop :=
| ue_nil : unescapes e [] []
| ue_plain c v w : c <> e -> unescapes e v w -> unescapes e (c :: v) (c :: w)
| ue_esc c v w : unescapes e v w -> unescapes e (e :: c :: v) (c :: w).
