(** Specification vocabulary for the highlighter. *)
From Verif Require Export Highlight SpecArbor.

(** a run of text [a,b) and the Ito it is coloured for *)
Definition paint_run := (nat * (Z * Z))%type.
(** the run lies in its owner and touches none of the owner's children: the owner is the deepest Ito there *)
Definition deepest (h : heap) (i : nat) (r : paint_run) : Prop :=
  let '(o, (a, b)) := r in
  (o = i \/ anc h i o) /\ h_start h o <= a /\ b <= h_stop h o /\
  forall c, In c (n_kids (nd h o)) -> h_stop h c <= a \/ b <= h_start h c.
(** no Ito of the tree starts or ends in the middle of the run *)
Definition uncut (h : heap) (i : nat) (r : paint_run) : Prop :=
  let '(_, (a, b)) := r in
  forall x, x = i \/ anc h i x -> ~ (a < h_start h x < b) /\ ~ (a < h_stop h x < b).
(** the text of s with the runs coloured: the k-th selected run is preceded by colour k mod n of the palette and
    followed by reset; the others are plain *)
Fixpoint coloured (s : pystr) (pred : nat -> bool) (palette : list pystr) (reset : pystr) (k : nat) (rs : list paint_run) : pystr :=
  match rs with
  | [] => []
  | (o, (a, b)) :: r =>
      if pred o then nth (k mod length palette) palette [] ++ zsub s a b ++ reset ++ coloured s pred palette reset (S k) r
      else zsub s a b ++ coloured s pred palette reset k r
  end.
(** s without its escape sequences (ESC up to the next m) *)
Fixpoint strip_codes (inside : bool) (s : pystr) : pystr :=
  match s with
  | [] => []
  | c :: r => if inside then strip_codes (negb (c =? 109)) r
              else if c =? 27 then strip_codes true r else c :: strip_codes false r
  end.
(** a colour of the type the library documents *)
Definition is_color (c : color) : Prop :=
  match c with
  | CNamed v => In v named_values
  | CRgb r g b => 0 <= r <= 255 /\ 0 <= g <= 255 /\ 0 <= b <= 255
  | CEight n => 0 <= n <= 255
  | CNone => False
  end.
(** ** what a terminal makes of a code (ECMA-48, SGR) *)
Inductive shade := ShDefault | ShBasic (bright : bool) (k : Z) | ShIndex (n : Z) | ShRgb (r g b : Z).
(** the numbers of a code: ESC [ n ; ... ; n m *)
Fixpoint code_numbers (acc : Z) (s : pystr) : list Z :=
  match s with
  | [] => []
  | c :: r => if c =? 109 then [acc] else if c =? 59 then acc :: code_numbers 0 r else code_numbers (acc * 10 + (c - 48)) r
  end.
Definition code_of (s : pystr) : list Z := match s with 27 :: 91 :: r => code_numbers 0 r | _ => [] end.
(** foreground and background after it *)
Definition terminal (s : pystr) (now : shade * shade) : shade * shade :=
  let (f, b) := now in
  match code_of s with
  | [0] => (ShDefault, ShDefault)
  | [38; 5; n] => (ShIndex n, b)
  | [48; 5; n] => (f, ShIndex n)
  | [38; 2; x; y; z] => (ShRgb x y z, b)
  | [48; 2; x; y; z] => (f, ShRgb x y z)
  | [39] => (ShDefault, b)
  | [49] => (f, ShDefault)
  | [n] => if (30 <=? n) && (n <=? 37) then (ShBasic false (n - 30), b) else if (90 <=? n) && (n <=? 97) then (ShBasic true (n - 90), b)
           else if (40 <=? n) && (n <=? 47) then (f, ShBasic false (n - 40)) else if (100 <=? n) && (n <=? 107) then (f, ShBasic true (n - 100)) else now
  | _ => now
  end.
(** the colour meant: the named ones from 60 on are the bright ones *)
Definition meant (c : color) : shade :=
  match c with
  | CNamed v => if v <? 60 then ShBasic false v else ShBasic true (v - 60)
  | CRgb r g b => ShRgb r g b
  | CEight n => ShIndex n
  | CNone => ShDefault
  end.
