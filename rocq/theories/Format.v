(** Model of Ito.__format__ (ito.py:599-715).  Number formatting, repr, ascii, int(), the regex class \d and str(ito.value())
    are parameters. *)
From Verif Require Export Highlight.

Record fmt_env := {
  fe_int : Z -> pystr -> res pystr;     (* format(n, spec) of an int *)
  fe_repr : pystr -> pystr;
  fe_ascii : pystr -> pystr;
  fe_digit : Z -> bool;                 (* the class \d *)
  fe_num : pystr -> Z;                  (* int(s) of a nonempty string of \d *)
  fe_value : fito -> res pystr          (* str(ito.value()) *)
}.

(** ito.py:599-600  the directives *)
Inductive fdir_int := DSpan | DStart | DStop.
Inductive fdir_str := DDesc | DString | DSubstr | DValue.
Definition dir_int_name (d : fdir_int) : pystr := match d with DSpan => lit "span" | DStart => lit "start" | DStop => lit "stop" end.
Definition dir_str_name (d : fdir_str) : pystr :=
  match d with DDesc => lit "desc" | DString => lit "string" | DSubstr => lit "substr" | DValue => lit "value" end.

(** a match of _re_format: zws; dir and the rest of an int directive; dir, (lslice, conv, rslice) and (abbr_pos, width, abbr)
    of a str directive.  A group that did not take part is None, or the empty string for lslice, rslice and abbr. *)
Inductive fitem :=
| FZws
| FInt (d : fdir_int) (fstr : pystr)
| FStr (d : fdir_str) (conv : option (pystr * Z * pystr)) (width : option (option Z * pystr * pystr)).

Fixpoint strip_pre (p s : pystr) : option pystr :=
  match p, s with
  | [], _ => Some s
  | x :: p', y :: s' => if x =? y then strip_pre p' s' else None
  | _ :: _, [] => None
  end.
(** the first alternative whose literal is a prefix *)
Fixpoint first_alt {A} (name : A -> pystr) (l : list A) (s : pystr) : option (A * pystr) :=
  match l with [] => None | d :: r => match strip_pre (name d) s with Some s' => Some (d, s') | None => first_alt name r s end end.
(** \d* *)
Fixpoint digits (E : fmt_env) (s : pystr) : pystr * pystr :=
  match s with
  | [] => ([], [])
  | c :: r => if fe_digit E c then let (a, b) := digits E r in (c :: a, b) else ([], s)
  end.
(** an optional character class *)
Definition opt_class (cs : pystr) (s : pystr) : pystr :=
  match s with c :: r => if mem_char c cs then r else s | [] => s end.
(** ito.py:612  (?:(?P<fill>.)?(?P<align>[<>=^]))?  what is left *)
Definition fill_align (s : pystr) : pystr :=
  let al := lit "<>=^" in
  match s with
  | f :: ((a :: r) as r') => if mem_char a al then r else if mem_char f al then r' else s
  | [f] => if mem_char f al then [] else s
  | [] => []
  end.
(** ito.py:612-618  what the fields after the colon leave *)
Definition int_fields (E : fmt_env) (s : pystr) : pystr :=
  opt_class (lit "bcdeEfFgGnosxX%") (opt_class (lit "_,") (snd (digits E (opt_class (lit "0") (opt_class (lit "#") (opt_class (lit "+-") (fill_align s))))))).
(** ito.py:610-619  after the name of an int directive: the text after the colon, and what is left *)
Definition int_tail (E : fmt_env) (s : pystr) : pystr * pystr :=
  match s with
  | 58 :: r => let rest := int_fields E r in (firstn (length r - length rest) r, rest)
  | _ => ([], s)
  end.
(** ito.py:621-625  (?:\!(?P<lslice>\d+)?(?P<conv>[ar])(?P<rslice>\d+)?)? *)
Definition conv_tail (E : fmt_env) (s : pystr) : option (pystr * Z * pystr) * pystr :=
  match s with
  | 33 :: r => let (l, r1) := digits E r in
               match r1 with
               | c :: r2 => if mem_char c (lit "ar") then let (x, r3) := digits E r2 in (Some (l, c, x), r3) else (None, s)
               | [] => (None, s)
               end
  | _ => (None, s)
  end.
(** ito.py:626-630  (?:\:(?P<abbr_pos>[<^>])?(?P<width>\d+)(?P<abbr>.+)?)? *)
Definition width_tail (E : fmt_env) (s : pystr) : option (option Z * pystr * pystr) * pystr :=
  match s with
  | 58 :: r =>
      let (p, r1) := match r with c :: r' => if mem_char c (lit "<^>") then (Some c, r') else (None, r) | [] => (None, r) end in
      match digits E r1 with
      | ([], _) => (None, s)
      | (w, abbr) => (Some (p, w, abbr), [])
      end
  | _ => (None, s)
  end.
(** ito.py:608-633  _re_format.match on the text from one '%' up to the next escape: the match and the text after it *)
Definition fmt_match (E : fmt_env) (seg : pystr) : option (fitem * pystr) :=
  match seg with
  | 37 :: s =>
      match s with
      | 32 :: r => Some (FZws, r)
      | _ =>
        match first_alt dir_int_name [DSpan; DStart; DStop] s with
        | Some (d, r) => let (f, rest) := int_tail E r in Some (FInt d f, rest)
        | None =>
          match first_alt dir_str_name [DDesc; DString; DSubstr; DValue] s with
          | Some (d, r) => let (c, r1) := conv_tail E r in let (w, rest) := width_tail E r1 in Some (FStr d c w, rest)
          | None => None
          end
        end
      end
  | _ => None
  end.

(** ito.py:676-683  the text of a str directive *)
Definition fmt_text (E : fmt_env) (i : fito) (d : fdir_str) : res pystr :=
  match d with
  | DString => Ok (f_str i)
  | DDesc => Ok (odflt (f_desc i) [])
  | DSubstr => Ok (ito_str i)
  | DValue => fe_value E i
  end.
(** ito.py:685-697  conversion and slice *)
Definition fmt_conv (E : fmt_env) (c : option (pystr * Z * pystr)) (sub : pystr) : pystr :=
  match c with
  | None => sub
  | Some (l, k, r) =>
      let sub := if k =? 97 then fe_ascii E sub else fe_repr E sub in
      let lslice := match l with [] => 0 | _ => fe_num E l end in
      let rslice := match r with [] => None | _ => if eqb_str r (lit "0") then None else Some (- fe_num E r) end in
      py_slice sub (Some lslice) rslice
  end.
(** ito.py:701-714  abbreviation to a width *)
Definition abbreviate (pos : option Z) (width : Z) (abbr sub : pystr) : pystr :=
  if width <? zlen sub then
    if width <=? zlen abbr then py_slice abbr (Some (zlen abbr - width)) None
    else match pos with
         | Some 60 => abbr ++ py_slice sub (Some (zlen abbr - width)) None
         | Some 94 => let post_len := (width - zlen abbr) / 2 in
                      let post := if 0 <? post_len then py_slice sub (Some (- post_len)) None else [] in
                      let pre := py_slice sub None (Some (width - zlen post - zlen abbr)) in
                      pre ++ abbr ++ post
         | _ => py_slice sub None (Some (width - zlen abbr)) ++ abbr
         end
  else sub.
(** ito.py:699-714 *)
Definition fmt_width (E : fmt_env) (w : option (option Z * pystr * pystr)) (sub : pystr) : pystr :=
  match w with None => sub | Some (pos, width, abbr) => abbreviate pos (fe_num E width) abbr sub end.
(** ito.py:657-714  what replaces one match *)
Definition fmt_item (E : fmt_env) (i : fito) (it : fitem) : res pystr :=
  match it with
  | FZws => Ok []
  | FInt DSpan f => do a <- fe_int E (f_start i) f; do b <- fe_int E (f_stop i) f; Ok (lit "(" ++ a ++ lit ", " ++ b ++ lit ")")
  | FInt DStart f => fe_int E (f_start i) f
  | FInt DStop f => fe_int E (f_stop i) f
  | FStr d c w => do s <- fmt_text E i d; Ok (fmt_width E w (fmt_conv E c s))
  end.
(** ito.py:641-652  the matches: m.span()[0], m.span()[1], what was matched *)
Fixpoint fmt_matches (E : fmt_env) (spec : pystr) (idxs : list Z) : list (Z * Z * fitem) :=
  match idxs with
  | [] => []
  | a :: r =>
      let seg := py_slice spec (Some a) (match r with [] => None | b :: _ => Some b end) in
      match fmt_match E seg with
      | Some (it, rest) => [(a, a + zlen seg - zlen rest, it)]
      | None => []
      end ++ fmt_matches E spec r
  end.
(** ito.py:654-717  for m in matches[::-1]: rv = rv[:m.span()[0]] + sub + rv[m.span()[1]:] *)
Fixpoint fmt_replace (E : fmt_env) (i : fito) (ms : list (Z * Z * fitem)) (rv : pystr) : res pystr :=
  match ms with
  | [] => Ok rv
  | (a, b, it) :: r => do rv1 <- fmt_replace E i r rv; do sub <- fmt_item E i it;
                       Ok (py_slice rv1 None (Some a) ++ sub ++ py_slice rv1 (Some b) None)
  end.
(** ito.py:635-717  Ito.__format__ *)
Definition ito_format (E : fmt_env) (i : fito) (spec : pystr) : res pystr :=
  match spec with
  | [] => Ok (ito_str i)
  | _ => match find_escapes (UStr spec) [37] None None with
         | (idxs, None) => fmt_replace E i (fmt_matches E spec idxs) spec
         | (_, Some e) => Err e
         end
  end.
