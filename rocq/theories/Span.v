(** Model of pawpaw/span.py. *)
From Verif Require Export Py.

(** span.py:9-11  class Span(NamedTuple): start, stop *)
Definition span := (Z * Z)%type.

(** span.py:13-43  Span.from_indices.  [basis] is an int or a Sized: both
    reduce to the length [n] (lines 20-25).  The TypeErrors for wrongly typed
    arguments (lines 25, 30, 37) cannot arise in a typed model. *)
Definition from_indices (n : Z) (start stop : option Z) : span :=
  let a := match start with
           | None => 0
           | Some v => if 0 <=? v then Z.min n v else Z.max 0 (n + v)
           end in
  let b := match stop with
           | None => n
           | Some v => if 0 <=? v then Z.min n v else Z.max 0 (n + v)
           end in
  (a, Z.max a b).

(** span.py:45-56  Span.offset *)
Definition offset (s : span) (i : Z) : res span :=
  if i =? 0 then Ok s
  else let rv := (fst s + i, snd s + i) in
       if (fst rv <? 0) || (snd rv <? 0) then Err ValueError else Ok rv.
