(** Model of pawpaw/visualization/ascii_box.py: directions, box-drawing characters, boxes. *)
From Verif Require Export Highlight Json.

(** ascii_box.py:14-23  Direction *)
Inductive dir := DN | DNE | DE | DSE | DS | DSW | DW | DNW.
Definition all_dirs : list dir := [DN; DNE; DE; DSE; DS; DSW; DW; DNW].
Definition dvalue (d : dir) : Z :=
  match d with DN => 0 | DNE => 45 | DE => 90 | DSE => 135 | DS => 180 | DSW => 225 | DW => 270 | DNW => 315 end.
(** ascii_box.py:25-31  Direction.from_degrees: the (degrees % 360) // 45 + 1 st member *)
Definition from_degrees (degrees : Z) : dir := nth (Z.to_nat (degrees mod 360 / 45)) all_dirs DN.
(** ascii_box.py:33-34  Direction.rotate *)
Definition rotate (d : dir) (degrees : Z) : dir := from_degrees (dvalue d + degrees).
(** ascii_box.py:36-38  Direction.reflect *)
Definition reflect (d surface : dir) : dir := rotate d ((dvalue surface - dvalue d) * 2).

(** ascii_box.py:41-64  Style *)
Inductive weight := Light | Heavy.
Inductive count := Single | Double.
Inductive dash := DashNone | DashDouble | DashTriple | DashQuad.
Inductive path := Segment | Arc.
Inductive style := Sty (w : weight) (c : count) (d : dash) (p : path).
Definition light : style := Sty Light Single DashNone Segment.
Definition heavy : style := Sty Heavy Single DashNone Segment.
Definition double : style := Sty Light Double DashNone Segment.
Definition dir_eqb (a b : dir) : bool := dvalue a =? dvalue b.
Definition weight_eqb (a b : weight) : bool := match a, b with Light, Light | Heavy, Heavy => true | _, _ => false end.
Definition count_eqb (a b : count) : bool := match a, b with Single, Single | Double, Double => true | _, _ => false end.
Definition dash_eqb (a b : dash) : bool :=
  match a, b with DashNone, DashNone | DashDouble, DashDouble | DashTriple, DashTriple | DashQuad, DashQuad => true | _, _ => false end.
Definition path_eqb (a b : path) : bool := match a, b with Segment, Segment | Arc, Arc => true | _, _ => false end.

(** ascii_box.py:67-76  DirectionStyle with rotate and reflect *)
Definition dstyle := (dir * style)%type.
Definition ds_rotate (degrees : Z) (x : dstyle) : dstyle := (rotate (fst x) degrees, snd x).
Definition ds_reflect (surface : dir) (x : dstyle) : dstyle := (reflect (fst x) surface, snd x).

(** ascii_box.py:82-84  BoxDrawingChar._sort: stable, by direction value *)
Fixpoint ds_insert (x : dstyle) (l : list dstyle) : list dstyle :=
  match l with [] => [x] | y :: r => if dvalue (fst x) <? dvalue (fst y) then x :: l else y :: ds_insert x r end.
Definition ds_sort (l : list dstyle) : list dstyle := fold_left (fun r x => ds_insert x r) l [].
(** ascii_box.py:79-139  BoxDrawingChar.  Its identity is its place in the table; no two entries have the same character *)
Record bdc := Bdc { b_char : Z; b_name : pystr; b_ds : list dstyle }.
Definition new_bdc (c : Z) (name : pystr) (l : list dstyle) : bdc := Bdc c name (ds_sort l).
(** ascii_box.py:164-1050  BoxDrawingChar._instances *)
Definition instances : list bdc := [
  new_bdc 9472 (lit "BOX DRAWINGS LIGHT HORIZONTAL") [(DW, light); (DE, light)];
  new_bdc 9473 (lit "BOX DRAWINGS HEAVY HORIZONTAL") [(DW, heavy); (DE, heavy)];
  new_bdc 9474 (lit "BOX DRAWINGS LIGHT VERTICAL") [(DN, light); (DS, light)];
  new_bdc 9475 (lit "BOX DRAWINGS HEAVY VERTICAL") [(DN, heavy); (DS, heavy)];
  new_bdc 9476 (lit "BOX DRAWINGS LIGHT TRIPLE DASH HORIZONTAL") [(DW, (Sty Light Single DashTriple Segment)); (DE, (Sty Light Single DashTriple Segment))];
  new_bdc 9477 (lit "BOX DRAWINGS HEAVY TRIPLE DASH HORIZONTAL") [(DW, (Sty Heavy Single DashTriple Segment)); (DE, (Sty Heavy Single DashTriple Segment))];
  new_bdc 9478 (lit "BOX DRAWINGS LIGHT TRIPLE DASH VERTICAL") [(DN, (Sty Light Single DashTriple Segment)); (DS, (Sty Light Single DashTriple Segment))];
  new_bdc 9479 (lit "BOX DRAWINGS HEAVY TRIPLE DASH VERTICAL") [(DN, (Sty Heavy Single DashTriple Segment)); (DS, (Sty Heavy Single DashTriple Segment))];
  new_bdc 9480 (lit "BOX DRAWINGS LIGHT QUADRUPLE DASH HORIZONTAL") [(DW, (Sty Light Single DashQuad Segment)); (DE, (Sty Light Single DashQuad Segment))];
  new_bdc 9481 (lit "BOX DRAWINGS HEAVY QUADRUPLE DASH HORIZONTAL") [(DW, (Sty Heavy Single DashQuad Segment)); (DE, (Sty Heavy Single DashQuad Segment))];
  new_bdc 9482 (lit "BOX DRAWINGS LIGHT QUADRUPLE DASH VERTICAL") [(DN, (Sty Light Single DashQuad Segment)); (DS, (Sty Light Single DashQuad Segment))];
  new_bdc 9483 (lit "BOX DRAWINGS HEAVY QUADRUPLE DASH VERTICAL") [(DN, (Sty Heavy Single DashQuad Segment)); (DS, (Sty Heavy Single DashQuad Segment))];
  new_bdc 9484 (lit "BOX DRAWINGS LIGHT DOWN AND RIGHT") [(DE, light); (DS, light)];
  new_bdc 9485 (lit "BOX DRAWINGS DOWN LIGHT AND RIGHT HEAVY") [(DE, heavy); (DS, light)];
  new_bdc 9486 (lit "BOX DRAWINGS DOWN HEAVY AND RIGHT LIGHT") [(DE, light); (DS, heavy)];
  new_bdc 9487 (lit "BOX DRAWINGS HEAVY DOWN AND RIGHT") [(DE, heavy); (DS, heavy)];
  new_bdc 9488 (lit "BOX DRAWINGS LIGHT DOWN AND LEFT") [(DW, light); (DS, light)];
  new_bdc 9489 (lit "BOX DRAWINGS DOWN LIGHT AND LEFT HEAVY") [(DW, heavy); (DS, light)];
  new_bdc 9490 (lit "BOX DRAWINGS DOWN HEAVY AND LEFT LIGHT") [(DW, light); (DS, heavy)];
  new_bdc 9491 (lit "BOX DRAWINGS HEAVY DOWN AND LEFT") [(DW, heavy); (DS, heavy)];
  new_bdc 9492 (lit "BOX DRAWINGS LIGHT UP AND RIGHT") [(DN, light); (DE, light)];
  new_bdc 9493 (lit "BOX DRAWINGS UP LIGHT AND RIGHT HEAVY") [(DN, light); (DE, heavy)];
  new_bdc 9494 (lit "BOX DRAWINGS UP HEAVY AND RIGHT LIGHT") [(DN, heavy); (DE, light)];
  new_bdc 9495 (lit "BOX DRAWINGS HEAVY UP AND RIGHT") [(DN, heavy); (DE, heavy)];
  new_bdc 9496 (lit "BOX DRAWINGS LIGHT UP AND LEFT") [(DN, light); (DW, light)];
  new_bdc 9497 (lit "BOX DRAWINGS UP LIGHT AND LEFT HEAVY") [(DN, light); (DW, heavy)];
  new_bdc 9498 (lit "BOX DRAWINGS UP HEAVY AND LEFT LIGHT") [(DN, heavy); (DW, light)];
  new_bdc 9499 (lit "BOX DRAWINGS HEAVY UP AND LEFT") [(DN, heavy); (DW, heavy)];
  new_bdc 9500 (lit "BOX DRAWINGS LIGHT VERTICAL AND RIGHT") [(DN, light); (DE, light); (DS, light)];
  new_bdc 9501 (lit "BOX DRAWINGS VERTICAL LIGHT AND RIGHT HEAVY") [(DN, light); (DE, heavy); (DS, light)];
  new_bdc 9502 (lit "BOX DRAWINGS UP HEAVY AND RIGHT DOWN LIGHT") [(DN, heavy); (DE, light); (DS, light)];
  new_bdc 9503 (lit "BOX DRAWINGS DOWN HEAVY AND RIGHT UP LIGHT") [(DN, light); (DE, light); (DS, heavy)];
  new_bdc 9504 (lit "BOX DRAWINGS VERTICAL HEAVY AND RIGHT LIGHT") [(DN, heavy); (DE, light); (DS, heavy)];
  new_bdc 9505 (lit "BOX DRAWINGS DOWN LIGHT AND RIGHT UP HEAVY") [(DN, heavy); (DE, heavy); (DS, light)];
  new_bdc 9506 (lit "BOX DRAWINGS UP LIGHT AND RIGHT DOWN HEAVY") [(DN, light); (DE, heavy); (DS, heavy)];
  new_bdc 9507 (lit "BOX DRAWINGS HEAVY VERTICAL AND RIGHT") [(DN, heavy); (DE, heavy); (DS, heavy)];
  new_bdc 9508 (lit "BOX DRAWINGS LIGHT VERTICAL AND LEFT") [(DN, light); (DW, light); (DS, light)];
  new_bdc 9509 (lit "BOX DRAWINGS VERTICAL LIGHT AND LEFT HEAVY") [(DN, light); (DW, heavy); (DS, light)];
  new_bdc 9510 (lit "BOX DRAWINGS UP HEAVY AND LEFT DOWN LIGHT") [(DN, heavy); (DW, light); (DS, light)];
  new_bdc 9511 (lit "BOX DRAWINGS DOWN HEAVY AND LEFT UP LIGHT") [(DN, light); (DW, light); (DS, heavy)];
  new_bdc 9512 (lit "BOX DRAWINGS VERTICAL HEAVY AND LEFT LIGHT") [(DN, heavy); (DW, light); (DS, heavy)];
  new_bdc 9513 (lit "BOX DRAWINGS DOWN LIGHT AND LEFT UP HEAVY") [(DN, heavy); (DW, heavy); (DS, light)];
  new_bdc 9514 (lit "BOX DRAWINGS UP LIGHT AND LEFT DOWN HEAVY") [(DN, light); (DW, heavy); (DS, heavy)];
  new_bdc 9515 (lit "BOX DRAWINGS HEAVY VERTICAL AND LEFT") [(DN, heavy); (DW, heavy); (DS, heavy)];
  new_bdc 9516 (lit "BOX DRAWINGS LIGHT DOWN AND HORIZONTAL") [(DW, light); (DE, light); (DS, light)];
  new_bdc 9517 (lit "BOX DRAWINGS LEFT HEAVY AND RIGHT DOWN LIGHT") [(DW, heavy); (DE, light); (DS, light)];
  new_bdc 9518 (lit "BOX DRAWINGS RIGHT HEAVY AND LEFT DOWN LIGHT") [(DW, light); (DE, heavy); (DS, light)];
  new_bdc 9519 (lit "BOX DRAWINGS DOWN LIGHT AND HORIZONTAL HEAVY") [(DW, heavy); (DE, heavy); (DS, light)];
  new_bdc 9520 (lit "BOX DRAWINGS DOWN HEAVY AND HORIZONTAL LIGHT") [(DW, light); (DE, light); (DS, heavy)];
  new_bdc 9521 (lit "BOX DRAWINGS RIGHT LIGHT AND LEFT DOWN HEAVY") [(DW, heavy); (DE, light); (DS, heavy)];
  new_bdc 9522 (lit "BOX DRAWINGS LEFT LIGHT AND RIGHT DOWN HEAVY") [(DW, light); (DE, heavy); (DS, heavy)];
  new_bdc 9523 (lit "BOX DRAWINGS HEAVY DOWN AND HORIZONTAL") [(DW, heavy); (DE, heavy); (DS, heavy)];
  new_bdc 9524 (lit "BOX DRAWINGS LIGHT UP AND HORIZONTAL") [(DN, light); (DW, light); (DE, light)];
  new_bdc 9525 (lit "BOX DRAWINGS LEFT HEAVY AND RIGHT UP LIGHT") [(DN, light); (DW, heavy); (DE, light)];
  new_bdc 9526 (lit "BOX DRAWINGS RIGHT HEAVY AND LEFT UP LIGHT") [(DN, light); (DW, light); (DE, heavy)];
  new_bdc 9527 (lit "BOX DRAWINGS UP LIGHT AND HORIZONTAL HEAVY") [(DN, light); (DW, heavy); (DE, heavy)];
  new_bdc 9528 (lit "BOX DRAWINGS UP HEAVY AND HORIZONTAL LIGHT") [(DN, heavy); (DW, light); (DE, light)];
  new_bdc 9529 (lit "BOX DRAWINGS RIGHT LIGHT AND LEFT UP HEAVY") [(DN, heavy); (DW, heavy); (DE, light)];
  new_bdc 9530 (lit "BOX DRAWINGS LEFT LIGHT AND RIGHT UP HEAVY") [(DN, heavy); (DW, light); (DE, heavy)];
  new_bdc 9531 (lit "BOX DRAWINGS HEAVY UP AND HORIZONTAL") [(DN, heavy); (DW, heavy); (DE, heavy)];
  new_bdc 9532 (lit "BOX DRAWINGS LIGHT VERTICAL AND HORIZONTAL") [(DN, light); (DW, light); (DE, light); (DS, light)];
  new_bdc 9533 (lit "BOX DRAWINGS LEFT HEAVY AND RIGHT VERTICAL LIGHT") [(DN, light); (DW, heavy); (DE, light); (DS, light)];
  new_bdc 9534 (lit "BOX DRAWINGS RIGHT HEAVY AND LEFT VERTICAL LIGHT") [(DN, light); (DW, light); (DE, heavy); (DS, light)];
  new_bdc 9535 (lit "BOX DRAWINGS VERTICAL LIGHT AND HORIZONTAL HEAVY") [(DN, light); (DW, heavy); (DE, heavy); (DS, light)];
  new_bdc 9536 (lit "BOX DRAWINGS UP HEAVY AND DOWN HORIZONTAL LIGHT") [(DN, heavy); (DW, light); (DE, light); (DS, light)];
  new_bdc 9537 (lit "BOX DRAWINGS DOWN HEAVY AND UP HORIZONTAL LIGHT") [(DN, light); (DW, light); (DE, light); (DS, heavy)];
  new_bdc 9538 (lit "BOX DRAWINGS VERTICAL HEAVY AND HORIZONTAL LIGHT") [(DN, heavy); (DW, light); (DE, light); (DS, heavy)];
  new_bdc 9539 (lit "BOX DRAWINGS LEFT UP HEAVY AND RIGHT DOWN LIGHT") [(DN, heavy); (DW, heavy); (DE, light); (DS, light)];
  new_bdc 9540 (lit "BOX DRAWINGS RIGHT UP HEAVY AND LEFT DOWN LIGHT") [(DN, heavy); (DW, light); (DE, heavy); (DS, light)];
  new_bdc 9541 (lit "BOX DRAWINGS LEFT DOWN HEAVY AND RIGHT UP LIGHT") [(DN, light); (DW, heavy); (DE, light); (DS, heavy)];
  new_bdc 9542 (lit "BOX DRAWINGS RIGHT DOWN HEAVY AND LEFT UP LIGHT") [(DN, light); (DW, light); (DE, heavy); (DS, heavy)];
  new_bdc 9543 (lit "BOX DRAWINGS DOWN LIGHT AND UP HORIZONTAL HEAVY") [(DN, heavy); (DW, heavy); (DE, heavy); (DS, light)];
  new_bdc 9544 (lit "BOX DRAWINGS UP LIGHT AND DOWN HORIZONTAL HEAVY") [(DN, light); (DW, heavy); (DE, heavy); (DS, heavy)];
  new_bdc 9545 (lit "BOX DRAWINGS RIGHT LIGHT AND LEFT VERTICAL HEAVY") [(DN, heavy); (DW, heavy); (DE, light); (DS, heavy)];
  new_bdc 9546 (lit "BOX DRAWINGS LEFT LIGHT AND RIGHT VERTICAL HEAVY") [(DN, heavy); (DW, light); (DE, heavy); (DS, heavy)];
  new_bdc 9547 (lit "BOX DRAWINGS HEAVY VERTICAL AND HORIZONTAL") [(DN, heavy); (DW, heavy); (DE, heavy); (DS, heavy)];
  new_bdc 9548 (lit "BOX DRAWINGS LIGHT DOUBLE DASH HORIZONTAL") [(DW, (Sty Light Single DashDouble Segment)); (DE, (Sty Light Single DashDouble Segment))];
  new_bdc 9549 (lit "BOX DRAWINGS HEAVY DOUBLE DASH HORIZONTAL") [(DW, (Sty Heavy Single DashDouble Segment)); (DE, (Sty Heavy Single DashDouble Segment))];
  new_bdc 9550 (lit "BOX DRAWINGS LIGHT DOUBLE DASH VERTICAL") [(DN, (Sty Light Single DashDouble Segment)); (DS, (Sty Light Single DashDouble Segment))];
  new_bdc 9551 (lit "BOX DRAWINGS HEAVY DOUBLE DASH VERTICAL") [(DN, (Sty Heavy Single DashDouble Segment)); (DS, (Sty Heavy Single DashDouble Segment))];
  new_bdc 9552 (lit "BOX DRAWINGS DOUBLE HORIZONTAL") [(DW, double); (DE, double)];
  new_bdc 9553 (lit "BOX DRAWINGS DOUBLE VERTICAL") [(DN, double); (DS, double)];
  new_bdc 9554 (lit "BOX DRAWINGS DOWN SINGLE AND RIGHT DOUBLE") [(DE, double); (DS, light)];
  new_bdc 9555 (lit "BOX DRAWINGS DOWN DOUBLE AND RIGHT SINGLE") [(DE, light); (DS, double)];
  new_bdc 9556 (lit "BOX DRAWINGS DOUBLE DOWN AND RIGHT") [(DE, double); (DS, double)];
  new_bdc 9557 (lit "BOX DRAWINGS DOWN SINGLE AND LEFT DOUBLE") [(DW, double); (DS, light)];
  new_bdc 9558 (lit "BOX DRAWINGS DOWN DOUBLE AND LEFT SINGLE") [(DW, light); (DS, double)];
  new_bdc 9559 (lit "BOX DRAWINGS DOUBLE DOWN AND LEFT") [(DW, double); (DS, double)];
  new_bdc 9560 (lit "BOX DRAWINGS UP SINGLE AND RIGHT DOUBLE") [(DN, light); (DE, double)];
  new_bdc 9561 (lit "BOX DRAWINGS UP DOUBLE AND RIGHT SINGLE") [(DN, double); (DE, light)];
  new_bdc 9562 (lit "BOX DRAWINGS DOUBLE UP AND RIGHT") [(DN, double); (DE, double)];
  new_bdc 9563 (lit "BOX DRAWINGS UP SINGLE AND LEFT DOUBLE") [(DN, light); (DW, double)];
  new_bdc 9564 (lit "BOX DRAWINGS UP DOUBLE AND LEFT SINGLE") [(DN, double); (DW, light)];
  new_bdc 9565 (lit "BOX DRAWINGS DOUBLE UP AND LEFT") [(DN, double); (DW, double)];
  new_bdc 9566 (lit "BOX DRAWINGS VERTICAL SINGLE AND RIGHT DOUBLE") [(DN, light); (DE, double); (DS, light)];
  new_bdc 9567 (lit "BOX DRAWINGS VERTICAL DOUBLE AND RIGHT SINGLE") [(DN, double); (DE, light); (DS, double)];
  new_bdc 9568 (lit "BOX DRAWINGS DOUBLE VERTICAL AND RIGHT") [(DN, double); (DE, double); (DS, double)];
  new_bdc 9569 (lit "BOX DRAWINGS VERTICAL SINGLE AND LEFT DOUBLE") [(DN, light); (DW, double); (DS, light)];
  new_bdc 9570 (lit "BOX DRAWINGS VERTICAL DOUBLE AND LEFT SINGLE") [(DN, double); (DW, light); (DS, double)];
  new_bdc 9571 (lit "BOX DRAWINGS DOUBLE VERTICAL AND LEFT") [(DN, double); (DW, double); (DS, double)];
  new_bdc 9572 (lit "BOX DRAWINGS DOWN SINGLE AND HORIZONTAL DOUBLE") [(DW, double); (DE, double); (DS, light)];
  new_bdc 9573 (lit "BOX DRAWINGS DOWN DOUBLE AND HORIZONTAL SINGLE") [(DW, light); (DE, light); (DS, double)];
  new_bdc 9574 (lit "BOX DRAWINGS DOUBLE DOWN AND HORIZONTAL") [(DW, double); (DE, double); (DS, double)];
  new_bdc 9575 (lit "BOX DRAWINGS UP SINGLE AND HORIZONTAL DOUBLE") [(DN, light); (DW, double); (DE, double)];
  new_bdc 9576 (lit "BOX DRAWINGS UP DOUBLE AND HORIZONTAL SINGLE") [(DN, double); (DW, light); (DE, light)];
  new_bdc 9577 (lit "BOX DRAWINGS DOUBLE UP AND HORIZONTAL") [(DN, double); (DW, double); (DE, double)];
  new_bdc 9578 (lit "BOX DRAWINGS VERTICAL SINGLE AND HORIZONTAL DOUBLE") [(DN, light); (DW, double); (DE, double); (DS, light)];
  new_bdc 9579 (lit "BOX DRAWINGS VERTICAL DOUBLE AND HORIZONTAL SINGLE") [(DN, double); (DW, light); (DE, light); (DS, double)];
  new_bdc 9580 (lit "BOX DRAWINGS DOUBLE VERTICAL AND HORIZONTAL") [(DN, double); (DW, double); (DE, double); (DS, double)];
  new_bdc 9581 (lit "BOX DRAWINGS LIGHT ARC DOWN AND RIGHT") [(DE, (Sty Light Single DashNone Arc)); (DS, (Sty Light Single DashNone Arc))];
  new_bdc 9582 (lit "BOX DRAWINGS LIGHT ARC DOWN AND LEFT") [(DW, (Sty Light Single DashNone Arc)); (DS, (Sty Light Single DashNone Arc))];
  new_bdc 9583 (lit "BOX DRAWINGS LIGHT ARC UP AND LEFT") [(DN, (Sty Light Single DashNone Arc)); (DW, (Sty Light Single DashNone Arc))];
  new_bdc 9584 (lit "BOX DRAWINGS LIGHT ARC UP AND RIGHT") [(DN, (Sty Light Single DashNone Arc)); (DE, (Sty Light Single DashNone Arc))];
  new_bdc 9585 (lit "BOX DRAWINGS LIGHT DIAGONAL UPPER RIGHT TO LOWER LEFT") [(DNE, light); (DSW, light)];
  new_bdc 9586 (lit "BOX DRAWINGS LIGHT DIAGONAL UPPER LEFT TO LOWER RIGHT") [(DNW, light); (DSE, light)];
  new_bdc 9587 (lit "BOX DRAWINGS LIGHT DIAGONAL CROSS") [(DNW, light); (DNE, light); (DSW, light); (DSE, light)];
  new_bdc 9588 (lit "BOX DRAWINGS LIGHT LEFT") [(DW, light)];
  new_bdc 9589 (lit "BOX DRAWINGS LIGHT UP") [(DN, light)];
  new_bdc 9590 (lit "BOX DRAWINGS LIGHT RIGHT") [(DE, light)];
  new_bdc 9591 (lit "BOX DRAWINGS LIGHT DOWN") [(DS, light)];
  new_bdc 9592 (lit "BOX DRAWINGS HEAVY LEFT") [(DW, heavy)];
  new_bdc 9593 (lit "BOX DRAWINGS HEAVY UP") [(DN, heavy)];
  new_bdc 9594 (lit "BOX DRAWINGS HEAVY RIGHT") [(DE, heavy)];
  new_bdc 9595 (lit "BOX DRAWINGS HEAVY DOWN") [(DS, heavy)];
  new_bdc 9596 (lit "BOX DRAWINGS LIGHT LEFT AND HEAVY RIGHT") [(DW, light); (DE, heavy)];
  new_bdc 9597 (lit "BOX DRAWINGS LIGHT UP AND HEAVY DOWN") [(DN, light); (DS, heavy)];
  new_bdc 9598 (lit "BOX DRAWINGS HEAVY LEFT AND LIGHT RIGHT") [(DW, heavy); (DE, light)];
  new_bdc 9599 (lit "BOX DRAWINGS HEAVY UP AND LIGHT DOWN") [(DN, heavy); (DS, light)]].

(** ascii_box.py:86-90  BoxDrawingChar.from_char *)
Definition from_char (c : pystr) : res bdc :=
  match find (fun b => eqb_str [b_char b] c) instances with Some b => Ok b | None => Err ValueError end.
(** ascii_box.py:92-96  BoxDrawingChar.from_name *)
Definition from_name (n : pystr) : res bdc :=
  match find (fun b => eqb_str (b_name b) n) instances with Some b => Ok b | None => Err ValueError end.
(** ascii_box.py:103, 1130-1135  the first entry with direction d *)
Definition ds_get (l : list dstyle) (d : dir) : option dstyle := find (fun x => dir_eqb (fst x) d) l.
(** ascii_box.py:98-115  BoxDrawingChar._distance *)
Definition b2z (b : bool) : Z := if b then 1 else 0.
Definition style_distance (a b : style) : Z :=
  let (w, c, d, p) := a in let (w', c', d', p') := b in
  b2z (negb (weight_eqb w w')) + b2z (negb (count_eqb c c')) + b2z (negb (dash_eqb d d')) + b2z (negb (path_eqb p p')).
Definition distance (candidate : bdc) (targets : list dstyle) : Z :=
  fold_left (fun rv t => rv + match ds_get (b_ds candidate) (fst t) with None => 4 | Some x => style_distance (snd t) (snd x) end) targets 0.
(** ascii_box.py:117-135  BoxDrawingChar.from_direction_styles *)
Fixpoint fuzzy_loop (l : list bdc) (targets : list dstyle) (best : option (Z * bdc)) : option (Z * bdc) :=
  match l with
  | [] => best
  | b :: r => let d := distance b targets in
              fuzzy_loop r targets (match best with None => Some (d, b) | Some (s, _) => if d <? s then Some (d, b) else best end)
  end.
Definition from_direction_styles (targets : list dstyle) (fuzzy : bool) : res bdc :=
  let l := filter (fun b => (length (b_ds b) =? length targets)%nat) instances in
  if fuzzy then match fuzzy_loop l targets None with Some (_, b) => Ok b | None => Err UnboundLocalError end
  else match find (fun b => distance b targets =? 0) l with Some b => Ok b | None => Err ValueError end.
(** ascii_box.py:156-158  BoxDrawingChar.rotate *)
Definition bdc_rotate (b : bdc) (degrees : Z) : res bdc := from_direction_styles (map (ds_rotate degrees) (b_ds b)) true.
(** ascii_box.py:160-162  BoxDrawingChar.reflect *)
Definition bdc_reflect (b : bdc) (surface : dir) : res bdc := from_direction_styles (map (ds_reflect surface) (b_ds b)) true.

(** a box part: a str or a character of the table (rendered by str()) *)
Record boxer := Boxer { bx_nw : pystr; bx_n : pystr; bx_ne : pystr; bx_w : pystr; bx_e : pystr; bx_sw : pystr; bx_s : pystr; bx_se : pystr }.
(** str.__mul__ *)
Fixpoint rep_str (s : pystr) (n : nat) : pystr := match n with O => [] | S k => s ++ rep_str s k end.
(** format(s, '^w') of a str: the spare columns split, the odd one to the right *)
Definition center (s : pystr) (w : nat) : pystr :=
  let pad := (w - length s)%nat in rep_str [32] (pad / 2) ++ s ++ rep_str [32] (pad - pad / 2).
(** ascii_box.py:1104-1116  Boxer._from_lines; printable is str.isprintable of one character *)
Definition from_lines (printable : Z -> bool) (b : boxer) (lines : list fito) : res (list pystr) :=
  match map (fun l => length (filter printable (ito_str l))) lines with
  | [] => Err ValueError
  | n :: r => let m := fold_left Nat.max r n in
      Ok ([bx_nw b ++ rep_str (bx_n b) (m + 2) ++ bx_ne b] ++
          map (fun l => bx_w b ++ [32] ++ center (ito_str l) m ++ [32] ++ bx_e b) lines ++
          [bx_sw b ++ rep_str (bx_s b) (m + 2) ++ bx_se b])
  end.
(** ascii_box.py:1118-1127  Boxer.from_srcs; a str source stands for the Ito over it *)
Definition from_srcs (printable : Z -> bool) (b : boxer) (srcs : list fito) : res (list pystr) :=
  from_lines printable b (flat_map (fun s => str_splitlines s false None) srcs).

(** a side or corner given by the caller *)
Inductive part := PNone | PStr (s : pystr) | PBdc (b : bdc).
(** v.direction_styles, v.rotate(..), v.reflect(..): only a BoxDrawingChar has them *)
Definition as_bdc (p : part) : res bdc := match p with PBdc b => Ok b | _ => Err AttributeError end.
(** from_direction_styles called with entries that may be None: reading None.direction *)
Definition from_opt_styles (l : list (option dstyle)) : res bdc :=
  do t <- (fix go l := match l with [] => Ok [] | None :: _ => Err AttributeError | Some x :: r => do y <- go r; Ok (x :: y) end) l;
  from_direction_styles t true.
(** x.rotate(degrees) where x may be None *)
Definition o_rotate (degrees : Z) (x : option dstyle) : res (option dstyle) :=
  match x with None => Err AttributeError | Some y => Ok (Some (ds_rotate degrees y)) end.
(** l[i % 4] and l[i] = x *)
Definition four {A} (l : list A) (i : nat) (d : A) : A := nth (i mod 4) l d.
Fixpoint set_at {A} (l : list A) (i : nat) (x : A) : list A :=
  match l, i with [], _ => [] | _ :: r, O => x :: r | y :: r, S k => y :: set_at r k x end.
(** the four sides, clockwise from the north *)
Definition side_dirs : list dir := [DN; DE; DS; DW].
Definition is_none (p : part) : bool := match p with PNone => true | _ => false end.
(** ascii_box.py:1158-1162  type and character checks; what from_char finds is dropped *)
Fixpoint check_sides (l : list part) : res unit :=
  match l with [] => Ok tt | PStr s :: r => do _ <- from_char s; check_sides r | _ :: r => check_sides r end.
(** ascii_box.py:1172-1178  the given sides have both arms *)
Fixpoint check_arms (l : list (dir * part)) (vertical : bool) : res unit :=
  match l with
  | [] => Ok tt
  | (d, p) :: r =>
    if Bool.eqb (dir_eqb d DW || dir_eqb d DE) vertical && negb (is_none p) then
      do b <- as_bdc p;
      let arms := if vertical then [DN; DS] else [DW; DE] in
      if existsb (fun a => match ds_get (b_ds b) a with None => true | Some _ => false end) arms then Err ValueError
      else check_arms r vertical
    else check_arms r vertical
  end.
(** ascii_box.py:1165-1169  one side: the others by reflection *)
Fixpoint spread_sides (n : nat) (prior : nat) (sides : list part) : res (list part) :=
  match n with
  | O => Ok sides
  | S k => do b <- as_bdc (four sides prior PNone);
           do c <- bdc_reflect b (rotate (four side_dirs prior DN) 45);
           spread_sides k (S prior) (set_at sides (S prior mod 4) (PBdc c))
  end.
(** ascii_box.py:1180-1199  several sides: the others by interpolation *)
Fixpoint fill_sides (n : nat) (prior : nat) (sides : list part) : res (list part) :=
  match n with
  | O => Ok sides
  | S k =>
    let cur := (S prior mod 4)%nat in
    if negb (is_none (four sides cur PNone)) then fill_sides k (S prior) sides
    else
      do p <- as_bdc (four sides prior PNone);
      if is_none (four sides (S cur) PNone) then
        do c <- bdc_rotate p 90; fill_sides k (S prior) (set_at sides cur (PBdc c))
      else
        let d := four side_dirs cur DN in
        do ds1 <- o_rotate (-90) (ds_get (b_ds p) d);
        do q <- as_bdc (four sides (S cur) PNone);
        do ds2 <- o_rotate 90 (ds_get (b_ds q) d);
        do c <- from_opt_styles [ds1; ds2];
        fill_sides k (S prior) (set_at sides cur (PBdc c))
  end.
(** ascii_box.py:1202-1210  the corner between sides i and i + 1 *)
Definition side_corner (sides : list part) (i : nat) : res bdc :=
  do a <- as_bdc (four sides i PNone);
  let d := rotate DW (Z.of_nat i * 90) in
  do b <- as_bdc (four sides (S i) PNone);
  from_opt_styles [ds_get (b_ds a) d; ds_get (b_ds b) (rotate d (-90))].
(** f'{part}' of a side or corner *)
Definition part_str (p : part) : pystr := match p with PNone => lit "None" | PStr s => s | PBdc b => [b_char b] end.
(** ascii_box.py:1154, 1257  next(i for i in range(4) if ...) *)
Fixpoint first_index {A} (f : A -> bool) (l : list A) (i : nat) : option nat :=
  match l with [] => None | x :: r => if f x then Some i else first_index f r (S i) end.
(** ascii_box.py:1146-1216  from_sides *)
Definition from_sides (n w e s : part) : res boxer :=
  let sides := [n; e; s; w] in
  match first_index (fun p => negb (is_none p)) sides 0 with
  | None => Err StopIteration
  | Some k =>
    do _ <- check_sides sides;
    do sides' <- (if (length (filter is_none sides) =? 3)%nat then spread_sides 3 k sides
                  else do _ <- check_arms (combine side_dirs sides) false;
                       do _ <- check_arms (combine side_dirs sides) true;
                       fill_sides 3 k sides);
    do c0 <- side_corner sides' 0; do c1 <- side_corner sides' 1; do c2 <- side_corner sides' 2; do c3 <- side_corner sides' 3;
    let side i := part_str (nth i sides' PNone) in
    Ok (Boxer [b_char c3] (side 0%nat) [b_char c0] (side 3%nat) (side 1%nat) [b_char c2] (side 2%nat) [b_char c1])
  end.

(** ascii_box.py:1225-1230  the corners, clockwise from the north-west, with their two arms *)
Definition corner_dirs : list (dir * dir) := [(DE, DS); (DS, DW); (DW, DN); (DN, DE)].
(** ascii_box.py:1232 *)
Definition corner_bdc (p : part) : res bdc := match p with PBdc b => Ok b | PStr s => from_char s | PNone => Err ValueError end.
(** ascii_box.py:1234-1237  how many of the arms of place i the corner has *)
Definition corner_score (i : nat) (b : bdc) : Z :=
  let (d1, d2) := nth i corner_dirs (DN, DN) in
  Z.of_nat (length (filter (fun d => match ds_get (b_ds b) d with None => false | Some _ => true end) [d1; d2])).
(** itertools.permutations(l, n), in its order *)
Fixpoint picks {A} (l : list A) : list (A * list A) :=
  match l with [] => [] | x :: r => (x, r) :: map (fun p => (fst p, x :: snd p)) (picks r) end.
Fixpoint perms {A} (n : nat) (l : list A) : list (list A) :=
  match n with O => [[]] | S k => flat_map (fun p => map (cons (fst p)) (perms k (snd p))) (picks l) end.
(** ascii_box.py:1242 *)
Definition perm_score (corners : list bdc) (p : list nat) : Z :=
  fold_left (fun n cj => n + (let s := corner_score (snd cj) (fst cj) in if 2 <=? s then 2 else s)) (combine corners p) 0.
(** ascii_box.py:1239-1249 *)
Fixpoint best_perm (corners : list bdc) (possible : Z) (ps : list (list nat)) (best : option (list nat * Z)) : option (list nat * Z) :=
  match ps with
  | [] => best
  | p :: r => let score := perm_score corners p in
      if score =? possible then Some (p, score)
      else best_perm corners possible r (match best with None => Some (p, score) | Some (_, s) => if s <? score then Some (p, score) else best end)
  end.
(** ascii_box.py:1254-1255 *)
Fixpoint place_corners (corners : list bdc) (p : list nat) (tmp : list part) : list part :=
  match corners, p with c :: cs, j :: js => place_corners cs js (set_at tmp j (PBdc c)) | _, _ => tmp end.
(** ascii_box.py:1259-1263  one corner: the others by reflection *)
Fixpoint spread_corners (n prior : nat) (tmp : list part) : res (list part) :=
  match n with
  | O => Ok tmp
  | S k => do b <- as_bdc (four tmp prior PNone);
           do c <- bdc_reflect b (snd (four corner_dirs prior (DN, DN)));
           spread_corners k (S prior) (set_at tmp (S prior mod 4) (PBdc c))
  end.
(** ascii_box.py:1284-1290, 1294-1302  the character between two corners: arm one of the first, arm two of the second, turned round *)
Definition corner_link (a b : part) (da db : dir * dir) : res bdc :=
  do x <- as_bdc a;
  do ds1 <- o_rotate 180 (ds_get (b_ds x) (fst da));
  do y <- as_bdc b;
  do ds2 <- o_rotate 180 (ds_get (b_ds y) (snd db));
  from_opt_styles [ds1; ds2].
(** ascii_box.py:1265-1290  several corners: the others by interpolation *)
Fixpoint fill_corners (n prior : nat) (tmp : list part) : res (list part) :=
  match n with
  | O => Ok tmp
  | S k =>
    let cur := (S prior mod 4)%nat in
    if negb (is_none (four tmp cur PNone)) then fill_corners k (S prior) tmp
    else
      do c <- (if is_none (four tmp (S cur) PNone) then do p <- as_bdc (four tmp prior PNone); bdc_rotate p 90
               else corner_link (four tmp prior PNone) (four tmp (S cur) PNone) (four corner_dirs prior (DN, DN)) (four corner_dirs (S cur) (DN, DN)));
      fill_corners k (S prior) (set_at tmp cur (PBdc c))
  end.
(** ascii_box.py:1294-1302 *)
Definition corner_side (tmp : list part) (i : nat) : res bdc :=
  corner_link (four tmp i PNone) (four tmp (S i) PNone) (four corner_dirs i (DN, DN)) (four corner_dirs (S i) (DN, DN)).
(** ascii_box.py:1219-1308  from_corners *)
Definition from_corners (l : list part) : res boxer :=
  if (length l =? 0)%nat || (4 <? length l)%nat then Err ValueError else
  do corners <- map_res corner_bdc l;
  let possible := Z.of_nat (length corners) * 2 in
  match best_perm corners possible (perms (length corners) [0; 1; 2; 3]%nat) None with
  | None => Err ValueError
  | Some (p, score) =>
    if negb (score =? possible) then Err ValueError else
    let tmp := place_corners corners p [PNone; PNone; PNone; PNone] in
    match first_index (fun p => negb (is_none p)) tmp 0 with
    | None => Err StopIteration
    | Some k =>
      do tmp' <- (if (length corners =? 1)%nat then spread_corners 3 k tmp else fill_corners 3 k tmp);
      do s0 <- corner_side tmp' 0; do s1 <- corner_side tmp' 1; do s2 <- corner_side tmp' 2; do s3 <- corner_side tmp' 3;
      let corner i := part_str (nth i tmp' PNone) in
      Ok (Boxer (corner 0%nat) [b_char s0] (corner 1%nat) [b_char s3] [b_char s1] (corner 3%nat) [b_char s2] (corner 2%nat))
    end
  end.
