(** Vocabulary for C129. *)
From Verif Require Export SpecQuery.
(** '[name:t]', and '[~name:t]' if [n] *)
Definition bracket (n : bool) (name t : pystr) : pystr := lit "[" ++ (if n then lit "~" else []) ++ name ++ lit ":" ++ t ++ lit "]".
(** [x] is an entry of the dictionary [d] under one of the names [vs] *)
Definition listed {A} (d : list (pystr * A)) (vs : list pystr) (x : A) : Prop := exists name, In name vs /\ In (name, x) d.
