(** Small, independent vocabulary used in the statements about one Ito. *)
From Verif Require Export PyFacts ItoStr.

(** the span of the Ito lies inside its string (true of every constructed Ito,
    see C03) *)
Definition fwf (i : fito) : Prop := 0 <= f_start i <= f_stop i /\ f_stop i <= zlen (f_str i).

(** [j] is a segment of [i]: same string, span inside *)
Definition within (j i : fito) : Prop :=
  f_str j = f_str i /\ f_start i <= f_start j <= f_stop j /\ f_stop j <= f_stop i.

(** the texts of a list of results *)
Definition texts (self : fito) (rs : list ref) : list pystr := map (fun r => ito_str (deref self r)) rs.

(** the segments are consecutive in [i], starting at [a] and ending at [b],
    and between neighbours there is exactly the text [sep] *)
Fixpoint laid_out (s sep : pystr) (a b : Z) (l : list fito) : Prop :=
  match l with
  | [] => False
  | [x] => f_str x = s /\ f_start x = a /\ a <= f_stop x /\ f_stop x = b
  | x :: l' => f_str x = s /\ f_start x = a /\ a <= f_stop x /\ f_stop x + zlen sep <= zlen s
               /\ zsub s (f_stop x) (f_stop x + zlen sep) = sep
               /\ laid_out s sep (f_stop x + zlen sep) b l'
  end.

(** adjacent segments covering [a,b) exactly *)
Fixpoint tiles (s : pystr) (a b : Z) (l : list fito) : Prop :=
  match l with
  | [] => a = b
  | x :: l' => f_str x = s /\ f_start x = a /\ a <= f_stop x /\ tiles s (f_stop x) b l'
  end.

(** Spans a regex engine can return from finditer over [a,b): ordered,
    non-overlapping, inside. *)
Fixpoint match_seq (a b : Z) (ms : list span) : Prop :=
  match ms with
  | [] => a <= b
  | m :: ms' => a <= fst m /\ fst m <= snd m /\ match_seq (snd m) b ms'
  end.

(** the segments between separator matches, and the segments each ending with
    its separator (the last one ends at b) *)
Fixpoint between (a b : Z) (ms : list span) : list span :=
  match ms with
  | [] => [(a, b)]
  | m :: ms' => (a, fst m) :: between (snd m) b ms'
  end.
Fixpoint up_to_and_with (a b : Z) (ms : list span) : list span :=
  match ms with
  | [] => [(a, b)]
  | m :: ms' => (a, snd m) :: up_to_and_with (snd m) b ms'
  end.
Definition spans_of (l : list fito) : list span := map (fun f => (f_start f, f_stop f)) l.

(** offsets k at which sub occurs in s with k + len(sub) <= n *)
Definition occs_before (sub s : pystr) (n : Z) : list Z :=
  filter (fun k => prefixb sub (zsub s k n)) (zrange 0 n).
(** no proper prefix of sub is a suffix of it *)
Definition no_self_overlap (sub : pystr) : Prop :=
  forall k, 0 < k < zlen sub -> zsub sub k (zlen sub) <> zsub sub 0 (zlen sub - k).

(** from_substrings: each piece is the leftmost occurrence of its substring in
    the part of s between the end of the previous piece and j *)
Fixpoint leftmost_chain (s : pystr) (i j : Z) (subs : list pystr) (l : list fito) : Prop :=
  match subs, l with
  | [], [] => True
  | sub :: subs', x :: l' =>
    f_str x = s /\ i <= f_start x /\ f_stop x = f_start x + zlen sub /\ f_stop x <= j /\
    ito_str x = sub /\
    (forall k, i <= k -> k + zlen sub <= j -> occ sub s k -> f_start x <= k) /\
    leftmost_chain s (f_stop x) j subs' l'
  | _, _ => False
  end.
