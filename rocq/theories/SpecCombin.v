(** Specification vocabulary for Combin.v. *)
From Verif Require Export Combin SpecUtil SpecHier.

(** -- gaps -- *)
(** position k of the string is covered by one of the (absolute) spans *)
Definition covered (sps : list span) (k : Z) : Prop := exists n, In n sps /\ fst n <= k < snd n.
(** starts and stops both ascend: ordered, without a span nested at the front of a later one *)
Definition ascending (sps : list span) : Prop :=
  StronglySorted (fun x y => fst x <= fst y /\ snd x <= snd y) sps.
Definition in_f (k : Z) (g : fito) : Prop := f_start g <= k < f_stop g.
(** gs are the uncovered segments of [s,e), in order.  Every gap begins at s or
    at the end of a non-gap and ends at e or at the beginning of one. *)
Definition gaps_of (s e : Z) (sps : list span) (gs : list fito) : Prop :=
  StronglySorted (fun x y => f_stop x <= f_start y) gs /\
  Forall (fun g => s <= f_start g < f_stop g /\ f_stop g <= e) gs /\
  (forall k, s <= k < e -> ((exists g, In g gs /\ in_f k g) <-> ~ covered sps k)) /\
  Forall (fun g => (f_start g = s \/ exists n, In n sps /\ snd n = f_start g) /\
                   (f_stop g = e \/ exists n, In n sps /\ fst n = f_stop g)) gs.
(** the absolute span of a non-gap: a Span is relative to the source, which
    begins at off; an Ito must be one of the same string *)
Definition ng_abs (basis : pystr) (off : Z) (n : nongap) (s : span) : Prop :=
  match n with
  | NSpan (a, b) => s = (a + off, b + off) /\ (off = 0 \/ (0 <= a + off /\ 0 <= b + off))
  | NIto f => f_str f = basis /\ s = (f_start f, f_stop f)
  end.

(** -- sets of Itos -- *)
Definition same_key (x y : tree) : Prop := ito_key (t_f x) = ito_key (t_f y).
(** cached is a possible iteration order of set(itos) *)
Definition set_order (itos cached : list tree) : Prop :=
  incl cached itos /\ (forall x, In x itos -> exists y, In y cached /\ same_key x y) /\
  NoDup (map (fun t => ito_key (t_f t)) cached).

(** -- groups -- *)
Definition re_ok (re : pattern) : Prop :=
  NoDup (map fst (re_index re)) /\ NoDup (map snd (re_index re)) /\
  Forall (fun e => (1 <= snd e <= re_groups re)%nat) (re_index re).
(** the group a key denotes *)
Definition denotes (re : pattern) (k : gkey) (g : nat) : Prop :=
  match k with
  | KInt z => z = Z.of_nat g /\ (g <= re_groups re)%nat
  | KStr s => In (s, g) (re_index re)
  end.
Definition preferred_key (re : pattern) (g : nat) (k : gkey) : Prop :=
  denotes re k g /\ (forall s, In (s, g) (re_index re) -> k = KStr s) /\
  ((forall s, ~ In (s, g) (re_index re)) -> k = KInt (Z.of_nat g)).

(** -- captures -- *)
Definition cap_inside (x y : span) : Prop := fst y <= fst x /\ snd x <= snd y.
Definition cap_cross (x y : span) : Prop :=
  (fst x < fst y /\ fst y < snd x /\ snd x < snd y) \/ (fst y < fst x /\ fst x < snd y /\ snd y < snd x).
(** i is the nearest capture before j that contains it *)
Definition nearest_container (caps : list span) (i j : nat) : Prop :=
  (i < j)%nat /\ cap_inside (nth j caps (0, 0)) (nth i caps (0, 0)) /\
  forall k, (i < k < j)%nat -> ~ cap_inside (nth j caps (0, 0)) (nth k caps (0, 0)).
Definition no_container (caps : list span) (j : nat) : Prop :=
  forall k, (k < j)%nat -> ~ cap_inside (nth j caps (0, 0)) (nth k caps (0, 0)).
(** the order of sorted(): by start, longer first *)
Definition cap_order (x y : span) : Prop := fst x < fst y \/ (fst x = fst y /\ snd y <= snd x).
Definition cap_valid (s : pystr) (x : span) : Prop := 0 <= fst x <= snd x /\ snd x <= zlen s.
(** r and its descendants in the order walk_descendants yields them *)
Definition preorder_of (h : heap) (r : nat) : list nat :=
  match walk_levels (depth_fuel h) h r 0 false with Ok l => r :: map snd l | Err _ => [] end.

(** a new object without parent and children *)
Definition fresh_leaf (h h' : heap) (i : nat) : Prop := (length h <= i < length h')%nat /\ n_par (nd h' i) = None /\ n_kids (nd h' i) = [].
(** from_match on one match after another *)
Fixpoint run_matches (h : heap) (keys : rmatch -> list gkey) (df : rmatch -> gkey -> option pystr) (ms : list rmatch) : out (list (list nat)) :=
  match ms with
  | [] => (h, Ok [])
  | m :: r => obind (from_match h m (df m) (keys m)) (fun h1 l => obind (run_matches h1 keys df r) (fun h2 ls => (h2, Ok (l :: ls))))
  end.
(** how many Itos the first k matches give; None if one of them raises *)
Definition prefix_count (h : heap) keys df (ms : list rmatch) (k : nat) : option Z :=
  match run_matches h keys df (firstn k ms) with (_, Ok ls) => Some (zlen (concat ls)) | _ => None end.
(** the spans of the children of i *)
Definition kid_spans (h : heap) (i : nat) : list span := map (fun c => (h_start h c, h_stop h c)) (n_kids (nd h i)).
(** i has no parent *)
Definition is_root (h : heap) (i : nat) : bool := match n_par (nd h i) with None => true | Some _ => false end.
(** equality and order of captures, by span *)
Definition eqb_span (x y : span) : bool := (fst x =? fst y) && (snd x =? snd y).
Definition cap2_order (x y : span * gkey) : Prop := cap_order (fst x) (fst y).
(** non-gaps as absolute spans for which from_gaps works: ascending starts and
    stops, none ending before the source begins; and, if the source is empty,
    not beginning after it *)
Definition gap_domain (s e : Z) (sps : list span) : Prop :=
  ascending sps /\ Forall (fun n => fst n <= snd n /\ s <= snd n) sps /\
  (s = e -> Forall (fun n => fst n <= s) (firstn 1 sps)).
(** j spans exactly from the least start to the greatest stop *)
Definition spans_inputs (itos : list fito) (j : fito) : Prop :=
  Forall (fun x => f_start j <= f_start x /\ f_stop x <= f_stop j) itos /\
  (exists x, In x itos /\ f_start x = f_start j) /\ (exists x, In x itos /\ f_stop x = f_stop j).
(** the keys from_re uses for match m *)
Definition re_keys (re : pattern) (gf : gfilter) (m : rmatch) : list gkey :=
  match gf with GFKeys l => l | GFPred p => gk_from_filter (gk_preferred re) (p m) end.
Definition gf_valid (re : pattern) (gf : gfilter) : Prop :=
  match gf with GFKeys l => gk_validate re l = Ok tt | GFPred _ => True end.
(** the first n items, n a possibly negative limit *)
Definition take_limit {A} (k : Z) (l : list A) : list A := firstn (Z.to_nat k) l.
