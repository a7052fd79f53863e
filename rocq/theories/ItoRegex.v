(** Model of the regex methods of Ito: what they ask of the pattern, which is matched by the engine of Table.v (a
    model of the regex module for patterns of characters, literals, sequence, alternatives and repetition of what does
    not match the empty text). *)
From Verif Require Export Table.

(** ito.py:900-910  regex_match: re.match(string, start, stop): the first way to match at start *)
Definition regex_match (r : trx) (i : fito) : option span :=
  match zways r (f_str i) (f_stop i) (f_start i, []) with w :: _ => Some (f_start i, fst w) | [] => None end.
(** ito.py:912-922  regex_fullmatch: re.fullmatch(string, start, stop): the first that ends at stop *)
Definition regex_fullmatch (r : trx) (i : fito) : option span :=
  match filter (fun w => fst w =? f_stop i) (zways r (f_str i) (f_stop i) (f_start i, [])) with w :: _ => Some (f_start i, fst w) | [] => None end.
(** ito.py:888-898  regex_search: re.search(string, start, stop): the first match finditer finds *)
Definition regex_search (r : trx) (i : fito) : option span :=
  match zfound r (f_str i) (f_start i) (f_stop i) with m :: _ => Some (fst m) | [] => None end.
(** ito.py:944-956  regex_finditer *)
Definition regex_finditer (r : trx) (i : fito) : list span := map fst (zfound r (f_str i) (f_start i) (f_stop i)).
(** ito.py:930-942  regex_findall, of a pattern without groups: the texts *)
Definition regex_findall (r : trx) (i : fito) : list pystr :=
  map (fun m => py_slice (f_str i) (Some (fst (fst m))) (Some (snd (fst m)))) (zfound r (f_str i) (f_start i) (f_stop i)).
(** ito.py:924-928  regex_split and regex_splititer: split_iter (843-868) over those matches, without the separators *)
Definition regex_split (r : trx) (i : fito) (max_split : Z) : list fito := split_iter i (regex_finditer r i) max_split false None.
(** ito.py:843-876  split_iter and split with keep_seps=True *)
Definition split_with_seps (r : trx) (i : fito) (max_split : Z) (desc : option pystr) : list fito := split_iter i (regex_finditer r i) max_split true desc.
