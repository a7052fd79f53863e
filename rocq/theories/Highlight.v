(** Model of pawpaw/visualization/sgr/sgr.py (codes and colours) and pawpaw/visualization/highlighter.py. *)
From Verif Require Export Query SpecUtil.

(** str(n) of an int *)
Definition int_str (n : Z) : pystr :=
  match n with
  | Z0 => [48]
  | Zpos p => uint_str (Pos.to_uint p)
  | Zneg p => 45 :: uint_str (Pos.to_uint p)
  end.
(** sgr.py:12-17  encode *)
Definition sgr_encode (n : list Z) : pystr :=
  [27; 91] ++ match n with [] => lit "0" | _ => py_join (lit ";") (map int_str n) end ++ lit "m".

(** sgr.py:101-147  Colors.Named (by value), Colors.Rgb, Colors.EightBit; CNone: any other object *)
Inductive color := CNamed (v : Z) | CRgb (r g b : Z) | CEight (n : Z) | CNone.
(** sgr.py:103-122  the values of the enum *)
Definition named_values : list Z := [0; 1; 2; 3; 4; 5; 6; 7; 60; 61; 62; 63; 64; 65; 66; 67].
(** sgr.py:129-131  Rgb.from_24_bit *)
Definition rgb_from_24_bit (val : Z) : color := CRgb (Z.shiftr val 16) (Z.land (Z.shiftr val 8) 255) (Z.land val 255).

(** sgr.py:151-168, 177-181  Fore and Back: _NAMED_OFFSET, _BY_IDX, RESET *)
Record plane := { pl_offset : Z; pl_by_idx : Z; pl_reset : pystr }.
Definition fore : plane := {| pl_offset := 30; pl_by_idx := 38; pl_reset := sgr_encode [39] |}.
Definition back : plane := {| pl_offset := pl_offset fore + 10; pl_by_idx := pl_by_idx fore + 10; pl_reset := sgr_encode [49] |}.
(** sgr.py:157-168  from_color *)
Definition from_color (p : plane) (c : color) : res pystr :=
  match c with
  | CNamed v => Ok (sgr_encode [v + pl_offset p])
  | CRgb r g b => Ok (sgr_encode [pl_by_idx p; 2; r; g; b])
  | CEight n => Ok (sgr_encode [pl_by_idx p; 5; n])
  | CNone => Err TypeError
  end.

(** highlighter.py:18-19  Highlighter(palette)._backs *)
Fixpoint hl_init (palette : list color) : res (list pystr) :=
  match palette with [] => Ok [] | c :: r => do s <- from_color back c; do l <- hl_init r; Ok (s :: l) end.

(** what has been written, how many colours have been taken from the cycle, and the exception that ended it *)
Definition painted := (pystr * nat * option exn)%type.
Definition p_then (x : painted) (f : nat -> painted) : painted :=
  match x with
  | (s, k, None) => let '(s', k', e) := f k in (s ++ s', k', e)
  | _ => x
  end.
(** highlighter.py:21-33  print(_compose(predicate, it_back, ito, slice(a, b))); next(cycle(backs)) for the k-th time.
    The predicate only reads. *)
Definition hl_compose (h : heap) (pred : nat -> bool) (backs : list pystr) (i : nat) (a b : Z) (k : nat) : painted :=
  let s := py_slice (h_string h i) (Some a) (Some b) in
  if pred i then
    match nth_error backs (k mod length backs)%nat with
    | Some c => (c ++ s ++ pl_reset back, S k, None)
    | None => ([], k, Some StopIteration)
    end
  else (s, k, None).
(** highlighter.py:41-48  the loop over the children and the tail; f is self._print *)
Fixpoint hl_gaps (f : nat -> nat -> painted) (h : heap) (pred : nat -> bool) (backs : list pystr) (i : nat) (kids : list nat) (last : Z) (k : nat) : painted :=
  match kids with
  | [] => if last <? h_stop h i then hl_compose h pred backs i last (h_stop h i) k else ([], k, None)
  | c :: r =>
      p_then (if last <? h_start h c then hl_compose h pred backs i last (h_start h c) k else ([], k, None)) (fun k1 =>
      p_then (f c k1) (fun k2 => hl_gaps f h pred backs i r (h_stop h c) k2))
  end.
(** highlighter.py:35-48  _print.  ito.children == 0 compares a ChildItos with an int and is never true, so lines 36-39
    are never taken.  Fuel is the depth of recursion. *)
Fixpoint hl_print (fuel : nat) (h : heap) (pred : nat -> bool) (backs : list pystr) (i : nat) (k : nat) : painted :=
  match fuel with
  | O => ([], k, Some OutOfFuel)
  | S n => hl_gaps (hl_print n h pred backs) h pred backs i (n_kids (nd h i)) (h_start h i) k
  end.
(** highlighter.py:50-51  print: what is written, and the exception if any *)
Definition highlight (h : heap) (pred : nat -> bool) (backs : list pystr) (i : nat) : pystr * option exn :=
  let '(s, _, e) := hl_print (depth_fuel h) h pred backs i 0 in (s, e).
