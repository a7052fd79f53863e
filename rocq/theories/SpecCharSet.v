(** Specification vocabulary for CharSet.v: how a pattern's character set is read. *)
From Verif Require Export CharSet.

(** a member of a set: a character or a range *)
Inductive item := One (c : Z) | Range (a b : Z).
Definition ascii_word (c : Z) : bool := (48 <=? c) && (c <=? 57) || (65 <=? c) && (c <=? 90) || (97 <=? c) && (c <=? 122).
(** one character of a set: written plainly, or behind a backslash.  None: what has another meaning there (a backslash in
    front of a letter or digit, a bracket that opens) *)
Definition read_char (t : pystr) : option (Z * pystr) :=
  match t with
  | 92 :: c :: r => if ascii_word c then None else Some (c, r)
  | 91 :: _ => None
  | c :: r => Some (c, r)
  | [] => None
  end.
(** the members up to the closing bracket, and what comes behind it; a closing bracket right at the beginning is a member *)
Fixpoint read_items (fuel : nat) (first : bool) (t : pystr) : option (list item * pystr) :=
  match fuel with
  | O => None
  | S n =>
    match t with
    | 93 :: r => if first then match read_items n false r with Some (l, x) => Some (One 93 :: l, x) | None => None end else Some ([], r)
    | _ =>
      match read_char t with
      | None => None
      | Some (a, 45 :: 93 :: r) => Some ([One a; One 45], r)
      | Some (a, 45 :: r) =>
        match read_char r with
        | Some (b, r') => match read_items n false r' with Some (l, x) => Some (Range a b :: l, x) | None => None end
        | None => None
        end
      | Some (a, r) => match read_items n false r with Some (l, x) => Some (One a :: l, x) | None => None end
      end
    end
  end.
(** a whole set: is it negated, its members, and what of the pattern is left *)
Definition read_set (t : pystr) : option (bool * list item * pystr) :=
  match t with
  | 91 :: 94 :: r => match read_items (length t) true r with Some (l, x) => Some (true, l, x) | None => None end
  | 91 :: r => match read_items (length t) true r with Some (l, x) => Some (false, l, x) | None => None end
  | _ => None
  end.
Definition item_has (c : Z) (i : item) : bool := match i with One a => a =? c | Range a b => (a <=? c) && (c <=? b) end.
(** does the set match the character? *)
Definition set_has (neg : bool) (l : list item) (c : Z) : bool := xorb neg (existsb (item_has c) l).
(** what is asked of regex.escape: the characters with a meaning inside sets are escaped, letters and digits are not *)
Definition escapes (esc : Z -> bool) : Prop :=
  (forall c, In c (lit "\]^-[&~|") -> esc c = true) /\ forall c, ascii_word c = true -> esc c = false.
(** the strings among the characters are joined of *)
Definition values (a : chars_arg) : option (list pystr) :=
  match a with
  | CDict l => Some (map snd l)
  | CIter l => fold_right (fun o acc => match o, acc with Some x, Some r => Some (x :: r) | _, _ => None end) (Some []) l
  | CNot => None
  end.
