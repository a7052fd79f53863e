(** Model of to_re_char_set of pawpaw/nlp/nlp.py. *)
From Verif Require Export Py.

(** the argument chars: a dictionary, another iterable with what it yields (None: something that is no str), anything else *)
Inductive chars_arg := CDict (l : list (pystr * pystr)) | CIter (l : list (option pystr)) | CNot.
(** ''.join of what an iterable yields: TypeError at something that is no str *)
Fixpoint join_all (l : list (option pystr)) : res pystr :=
  match l with
  | [] => Ok []
  | Some x :: r => do t <- join_all r; Ok (x ++ t)
  | None :: _ => Err TypeError
  end.
(** regex.escape of the regex module (third party): a backslash in front of each character of a class, esc *)
Definition re_escape (esc : Z -> bool) (t : pystr) : pystr := flat_map (fun c => if esc c then [92; c] else [c]) t.
(** nlp.py:97-102  to_re_char_set(chars, inclusive) *)
Definition to_re_char_set (esc : Z -> bool) (chars : chars_arg) (inclusive : bool) : res pystr :=
  match chars with
  | CNot => Err TypeError
  | CDict l => Ok (lit "[" ++ (if inclusive then [] else lit "^") ++ re_escape esc (concat (map snd l)) ++ lit "]")
  | CIter l => do t <- join_all l; Ok (lit "[" ++ (if inclusive then [] else lit "^") ++ re_escape esc t ++ lit "]")
  end.
