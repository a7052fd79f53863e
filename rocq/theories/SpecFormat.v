(** Specification vocabulary for Ito.__format__. *)
From Verif Require Export Format SpecStr.

(** \d contains no character that has a meaning in a directive *)
Definition fmt_env_ok (E : fmt_env) : Prop := forall c, In c (lit "!:% ar<^>=+-#_,bcdeEfFgGnosxX") -> fe_digit E c = false.
(** a string of digits *)
Definition is_digits (E : fmt_env) (s : pystr) : Prop := Forall (fun c => fe_digit E c = true) s.
(** a directive starts here: '%' followed by something else than '%' *)
Definition lone (b : pystr) : Prop := exists c r, b = 37 :: c :: r /\ c <> 37.
(** a does not end in '%' *)
Definition closed_end (a : pystr) : Prop := forall u, a <> u ++ [37].

(** directives as they are written.  %name!<l><c><r>:<p><w><abbr> *)
Definition write_conv (c : option (pystr * Z * pystr)) : pystr :=
  match c with None => [] | Some (l, k, r) => [33] ++ l ++ [k] ++ r end.
Definition write_width (w : option (option Z * pystr * pystr)) : pystr :=
  match w with None => [] | Some (p, d, abbr) => [58] ++ match p with None => [] | Some c => [c] end ++ d ++ abbr end.
Definition write_str (d : fdir_str) (c : option (pystr * Z * pystr)) (w : option (option Z * pystr * pystr)) : pystr :=
  [37] ++ dir_str_name d ++ write_conv c ++ write_width w.
Definition conv_ok (E : fmt_env) (c : option (pystr * Z * pystr)) : Prop :=
  match c with None => True | Some (l, k, r) => is_digits E l /\ is_digits E r /\ (k = 97 \/ k = 114) end.
Definition width_ok (E : fmt_env) (w : option (option Z * pystr * pystr)) : Prop :=
  match w with
  | None => True
  | Some (p, d, abbr) => match p with None => True | Some c => In c (lit "<^>") end /\ d <> [] /\ is_digits E d /\
                         ~ In 37 abbr /\ match abbr with [] => True | x :: _ => fe_digit E x = false end
  end.
(** format_spec mini-language of an int directive: [[fill]align][sign][#][0][width][grouping][type] *)
Definition opt_of (cs : pystr) (s : pystr) : Prop := s = [] \/ exists c, s = [c] /\ In c cs.
Inductive int_spec (E : fmt_env) : pystr -> Prop :=
| int_spec_intro fa sg hs ze wd gr ty :
    (fa = [] \/ (exists a, fa = [a] /\ In a (lit "<>=^")) \/ (exists f a, fa = [f; a] /\ f <> 37 /\ In a (lit "<>=^"))) ->
    opt_of (lit "+-") sg -> opt_of (lit "#") hs -> opt_of (lit "0") ze -> is_digits E wd -> opt_of (lit "_,") gr ->
    opt_of (lit "bcdeEfFgGnosxX") ty -> int_spec E (fa ++ sg ++ hs ++ ze ++ wd ++ gr ++ ty).

(** r is s cut to w characters with abbr put at the place pos says *)
Definition last_of (n : Z) (s : pystr) : pystr := zsub s (zlen s - n) (zlen s).
Definition first_of (n : Z) (s : pystr) : pystr := zsub s 0 n.
Definition abbreviated (pos : option Z) (w : Z) (abbr s r : pystr) : Prop :=
  (zlen s <= w /\ r = s) \/
  (w < zlen s /\ zlen r = w /\
    ((w <= zlen abbr /\ r = last_of w abbr) \/
     (zlen abbr < w /\ exists n m, n + m = w - zlen abbr /\ 0 <= n /\ 0 <= m /\ r = first_of n s ++ abbr ++ last_of m s /\
        match pos with
        | Some 60 => n = 0
        | Some 94 => m <= n <= m + 1
        | _ => m = 0
        end))).
(** what an int directive shows, for start shown as a and stop shown as b *)
Definition int_text (d : fdir_int) (a b : pystr) : pystr :=
  match d with DSpan => lit "(" ++ a ++ lit ", " ++ b ++ lit ")" | DStart => a | DStop => b end.
(** the text a str directive names *)
Definition names_text (E : fmt_env) (i : fito) (d : fdir_str) (t : pystr) : Prop :=
  match d with
  | DDesc => t = match f_desc i with Some s => s | None => [] end
  | DString => t = f_str i
  | DSubstr => t = zsub (f_str i) (f_start i) (f_stop i)
  | DValue => fe_value E i = Ok t
  end.
