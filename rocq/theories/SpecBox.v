(** Vocabulary of the properties of ascii_box.py. *)
From Coq Require Export Sorting.Permutation.
From Verif Require Export Box.

(** the arm of a character in a direction *)
Definition dir_dec (a b : dir) : {a = b} + {a <> b}.
Proof. decide equality. Defined.
Definition arm (b : bdc) (d : dir) : option style :=
  option_map snd (find (fun x : dstyle => if dir_dec (fst x) d then true else false) (b_ds b)).

(** how many of weight, count, dash and path differ *)
Definition weight_dec (a b : weight) : {a = b} + {a <> b}. Proof. decide equality. Defined.
Definition count_dec (a b : count) : {a = b} + {a <> b}. Proof. decide equality. Defined.
Definition dash_dec (a b : dash) : {a = b} + {a <> b}. Proof. decide equality. Defined.
Definition path_dec (a b : path) : {a = b} + {a <> b}. Proof. decide equality. Defined.
Definition differ (x y : style) : Z :=
  match x, y with
  | Sty w c d p, Sty w' c' d' p' =>
    (if weight_dec w w' then 0 else 1) + (if count_dec c c' then 0 else 1) + (if dash_dec d d' then 0 else 1) + (if path_dec p p' then 0 else 1)
  end.
(** the cost of one wanted arm, and of all of them *)
Definition mismatch (b : bdc) (t : dstyle) : Z := match arm b (fst t) with None => 4 | Some s => differ (snd t) s end.
Fixpoint total (ts : list dstyle) (b : bdc) : Z := match ts with [] => 0 | t :: r => mismatch b t + total r b end.
Definition arms (b : bdc) : nat := length (b_ds b).

(** the character drawn by exactly these arms *)
Definition drawn (ts : list dstyle) (b : bdc) : Prop := In b instances /\ Permutation ts (b_ds b).
(** the first of the closest characters with as many arms *)
Definition closest (ts : list dstyle) (b : bdc) : Prop :=
  exists before after, instances = before ++ b :: after /\ arms b = length ts /\
    (forall c, In c before -> arms c = length ts -> total ts b < total ts c) /\
    (forall c, In c after -> arms c = length ts -> total ts b <= total ts c).

(** the eight parts of a box as characters of the table *)
Record frame := Frame { f_nw : bdc; f_n : bdc; f_ne : bdc; f_w : bdc; f_e : bdc; f_sw : bdc; f_s : bdc; f_se : bdc }.
Definition drawn_frame (x : frame) : boxer :=
  Boxer [b_char (f_nw x)] [b_char (f_n x)] [b_char (f_ne x)] [b_char (f_w x)] [b_char (f_e x)] [b_char (f_sw x)] [b_char (f_s x)] [b_char (f_se x)].
Definition in_table (x : frame) : Prop :=
  In (f_nw x) instances /\ In (f_n x) instances /\ In (f_ne x) instances /\ In (f_w x) instances /\
  In (f_e x) instances /\ In (f_sw x) instances /\ In (f_s x) instances /\ In (f_se x) instances.
(** two neighbours meet: the arm of a towards b is there, and the arm of b towards a is of the same style *)
Definition meet (a : bdc) (d : dir) (b : bdc) (d' : dir) : Prop := exists s, arm a d = Some s /\ arm b d' = Some s.
Definition joined (x : frame) : Prop :=
  meet (f_nw x) DE (f_n x) DW /\ meet (f_n x) DE (f_ne x) DW /\
  meet (f_ne x) DS (f_e x) DN /\ meet (f_e x) DS (f_se x) DN /\
  meet (f_se x) DW (f_s x) DE /\ meet (f_s x) DW (f_sw x) DE /\
  meet (f_sw x) DN (f_w x) DS /\ meet (f_w x) DN (f_nw x) DS.
(** side is the character closest to one whose arm in d has the style of a's arm e and whose arm in d' the style of b's arm e' *)
Definition spans (side : bdc) (d : dir) (a : bdc) (e : dir) (d' : dir) (b : bdc) (e' : dir) : Prop :=
  exists s s', arm a e = Some s /\ arm b e' = Some s' /\ closest [(d, s); (d', s')] side.
(** the four sides drawn after the arms of the corners they run between *)
Definition sides_span (x : frame) : Prop :=
  spans (f_n x) DW (f_nw x) DE DE (f_ne x) DW /\ spans (f_e x) DN (f_ne x) DS DS (f_se x) DN /\
  spans (f_s x) DE (f_se x) DW DW (f_sw x) DE /\ spans (f_w x) DS (f_sw x) DN DN (f_nw x) DS.
(** the four corners drawn after the far arms of the sides they end: what from_sides does *)
Definition corners_span (x : frame) : Prop :=
  spans (f_ne x) DW (f_n x) DW DS (f_e x) DS /\ spans (f_se x) DN (f_e x) DN DW (f_s x) DW /\
  spans (f_sw x) DE (f_s x) DE DN (f_w x) DN /\ spans (f_nw x) DS (f_w x) DS DE (f_n x) DE.
(** the table has the character whose two arms have those very styles *)
Definition joinable (d : dir) (a : bdc) (e : dir) (d' : dir) (b : bdc) (e' : dir) : Prop :=
  exists s s' c, arm a e = Some s /\ arm b e' = Some s' /\ drawn [(d, s); (d', s')] c.
(** the corners clockwise from the north-west, and the arms each place needs *)
Definition corners (x : frame) : list bdc := [f_nw x; f_ne x; f_se x; f_sw x].
Definition needs : list (dir * dir) := [(DE, DS); (DS, DW); (DW, DN); (DN, DE)].
Definition suits (b : bdc) (j : nat) : Prop :=
  exists d d', nth_error needs j = Some (d, d') /\ arm b d <> None /\ arm b d' <> None.
(** the places of the given corners, all different *)
Definition seating (bs : list bdc) (p : list nat) : Prop := NoDup p /\ Forall2 suits bs p.
Definition seated (x : frame) (bs : list bdc) (p : list nat) : Prop :=
  seating bs p /\ Forall2 (fun b j => nth_error (corners x) j = Some b) bs p.
(** a part given as a character of the table, or as the str of one *)
Definition denotes (p : part) (b : bdc) : Prop := In b instances /\ (p = PBdc b \/ p = PStr [b_char b]).
(** a side given (or not) as a character of the table with both its arms *)
Definition gives (p : part) (d d' : dir) : Prop := p = PNone \/ exists b, p = PBdc b /\ In b instances /\ arm b d <> None /\ arm b d' <> None.
Definition kept (p : part) (b : bdc) : Prop := p = PNone \/ p = PBdc b.
(** both ends of a side of the same style *)
Definition level (b : bdc) (d d' : dir) : Prop := arm b d = arm b d'.

(** the lines of the sources and the rows of the box around them *)
Definition row (l : pystr) (w e text : pystr) (m : nat) : Prop :=
  exists a b, l = w ++ [32] ++ repeat 32 a ++ text ++ repeat 32 b ++ [32] ++ e /\ (a + length text + b = m)%nat /\ (a <= b <= a + 1)%nat.
(** the lines of the sources, in order, and the length of the longest *)
Definition src_lines (srcs : list fito) : list pystr := flat_map (fun s => py_splitlines (ito_str s) false) srcs.
Definition widest (l : list pystr) : nat := fold_right (fun s m => Nat.max (length s) m) 0%nat l.
