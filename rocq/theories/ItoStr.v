(** Model of the parts of pawpaw/ito.py that concern one Ito and its text:
    construction, cloning, slicing, iteration, the str_* methods, regex
    splitting and to_line_col.  The objects of this file have no children;
    methods whose clones carry children (partition) are in Tree.v. *)
From Verif Require Export Py Span.

(** ito.py:71-96  the data of one Ito: ._string, ._span, .desc, ._value_func.
    A value function is represented by its identity (a number). *)
Record fito := FI {
  f_str   : pystr;
  f_start : Z;
  f_stop  : Z;
  f_desc  : option pystr;
  f_vf    : option Z
}.

(** A method that may return [self] itself or a new object. *)
Inductive ref := RSelf | RNew (f : fito).
Definition deref (self : fito) (r : ref) : fito :=
  match r with RSelf => self | RNew f => f end.

(** ito.py:572-573  Ito.__len__ *)
Definition ito_len (i : fito) : Z := f_stop i - f_start i.

(** ito.py:569-570  Ito.__str__ : self._string[slice( *self.span )] *)
Definition ito_str (i : fito) : pystr :=
  py_slice (f_str i) (Some (f_start i)) (Some (f_stop i)).

(** ito.py:71-96  Ito(src: str, start, stop, desc) *)
Definition ito_of_str (s : pystr) (start stop : option Z) (desc : option pystr) : fito :=
  let sp := from_indices (zlen s) start stop in
  FI s (fst sp) (snd sp) desc None.

(** ito.py:82-84  Ito(src: Ito, start, stop, desc) *)
Definition ito_of_ito (src : fito) (start stop : option Z) (desc : option pystr) : res fito :=
  do sp <- offset (from_indices (ito_len src) start stop) (f_start src);
  Ok (FI (f_str src) (fst sp) (snd sp) desc None).

Definition odflt {A} (o : option A) (d : A) : A := match o with Some x => x | None => d end.

(** ito.py:317-337  Ito.clone(start, stop, desc, clone_children=False).
    [desc = None] is the sentinel default (keep self.desc).  The class
    (self.__class__) is not represented here.  Lines 331-332 keep the value
    function. *)
Definition clone_f (i : fito) (start stop : option Z) (desc : option (option pystr)) : fito :=
  let c := ito_of_str (f_str i) (Some (odflt start (f_start i))) (Some (odflt stop (f_stop i)))
                      (odflt desc (f_desc i)) in
  FI (f_str c) (f_start c) (f_stop c) (f_desc c) (f_vf i).

(** ito.py:555-561  Ito.__iter__ (the list of everything it yields) *)
Definition ito_iter (i : fito) : list ref :=
  if ito_len i =? 1 then [RSelf]
  else if 1 <? ito_len i
       then map (fun k => RNew (clone_f i (Some k) (Some (k + 1)) None)) (zrange (f_start i) (f_stop i))
       else [].

(** ito.py:594-597  common tail of __getitem__ *)
Definition getitem_tail (i : fito) (sp : span) : ref :=
  if (f_start i =? fst sp) && (f_stop i =? snd sp) then RSelf
  else RNew (clone_f i (Some (fst sp)) (Some (snd sp)) None).

(** ito.py:576-583  Ito.__getitem__(int) *)
Definition getitem_int (i : fito) (key : Z) : res ref :=
  do sp <-
    (if (0 <=? key) && (key <? ito_len i)
     then offset (from_indices (ito_len i) (Some key) (Some (key + 1))) (f_start i)
     else if (- ito_len i <=? key) && (key <? 0)
     then let s := f_stop i + key - 1 in
          offset (from_indices (ito_len i) (Some s) (Some (s + 1))) (f_start i)
     else Err IndexError);
  Ok (getitem_tail i sp).

(** ito.py:585-589  Ito.__getitem__(slice).  step other than None or 1 raises
    IndexError (line 589). *)
Definition getitem_slice (i : fito) (start stop step : option Z) : res ref :=
  match step with
  | None | Some 1 =>
    do sp <- offset (from_indices (ito_len i) start stop) (f_start i);
    Ok (getitem_tail i sp)
  | _ => Err IndexError
  end.

(** -- search ------------------------------------------------------------- *)

(** the window every search method uses:
    *Span.from_indices(self, start, end).offset(self.start) *)
Definition window (i : fito) (start end_ : option Z) : res span :=
  offset (from_indices (ito_len i) start end_) (f_start i).

(** ito.py:962-963  Ito.str_count *)
Definition str_count (i : fito) (sub : pystr) (a b : option Z) : res Z :=
  do w <- window i a b; Ok (py_count (f_str i) sub (Some (fst w)) (Some (snd w))).
(** ito.py:1022-1026  Ito.str_find *)
Definition str_find (i : fito) (sub : pystr) (a b : option Z) : res Z :=
  do w <- window i a b;
  let rv := py_find (f_str i) sub (Some (fst w)) (Some (snd w)) in
  Ok (if rv =? -1 then rv else rv - f_start i).
(** ito.py:1028-1029  Ito.str_index *)
Definition str_index (i : fito) (sub : pystr) (a b : option Z) : res Z :=
  do w <- window i a b;
  do rv <- py_index_of (f_str i) sub (Some (fst w)) (Some (snd w));
  Ok (rv - f_start i).
(** ito.py:1031-1035  Ito.str_rfind *)
Definition str_rfind (i : fito) (sub : pystr) (a b : option Z) : res Z :=
  do w <- window i a b;
  let rv := py_rfind (f_str i) sub (Some (fst w)) (Some (snd w)) in
  Ok (if rv =? -1 then rv else rv - f_start i).
(** ito.py:1037-1038  Ito.str_rindex *)
Definition str_rindex (i : fito) (sub : pystr) (a b : option Z) : res Z :=
  do w <- window i a b;
  do rv <- py_rindex_of (f_str i) sub (Some (fst w)) (Some (snd w));
  Ok (rv - f_start i).

(** ito.py:979-988 and 1003-1012  the "strange behavior" block shared by
    str_endswith and str_startswith: True = return False at once *)
Definition affix_reject (i : fito) (start end_ : option Z) : bool :=
  match start with
  | None => false
  | Some st =>
    if st =? 0 then false
    else let ls := ito_len i in
         if ls <? st then true
         else let start_c := if 0 <=? st then st else ls + st in
              let end_c := match end_ with
                           | None => ls
                           | Some e => if 0 <=? e then e else ls + e
                           end in
              end_c <? start_c
  end.
(** ito.py:970-992  Ito.str_endswith (suffix not None) *)
Definition str_endswith (i : fito) (p : affix) (a b : option Z) : res bool :=
  if affix_reject i a b then Ok false
  else do w <- window i a b; Ok (py_endswith (f_str i) p (Some (fst w)) (Some (snd w))).
(** ito.py:994-1016  Ito.str_startswith (prefix not None) *)
Definition str_startswith (i : fito) (p : affix) (a b : option Z) : res bool :=
  if affix_reject i a b then Ok false
  else do w <- window i a b; Ok (py_startswith (f_str i) p (Some (fst w)) (Some (snd w))).
(** ito.py:965-966  Ito.str_eq *)
Definition str_eq (i : fito) (v : pystr) : res bool :=
  if ito_len i =? zlen v then str_startswith i (AStr v) None None else Ok false.

(** -- 'is' predicates ---------------------------------------------------- *)

(** self._string[k]; the loops below only use indices inside the span *)
Definition char_at (i : fito) (k : Z) : option Z := zget (f_str i) k.
Definition test_at (i : fito) (p : Z -> bool) (k : Z) : bool :=
  match char_at i k with Some c => p c | None => false end.

(** ito.py:1044-1048  __str_is_helper_all(predicate) *)
Definition is_helper_all (i : fito) (pred : pystr -> bool) : bool :=
  if f_start i =? f_stop i then pred []
  else forallb (test_at i (fun c => pred [c])) (zrange (f_start i) (f_stop i)).
(** ito.py:1050-1054  __str_is_helper_any(predicate) *)
Definition is_helper_any (i : fito) (pred : pystr -> bool) : bool :=
  if f_start i =? f_stop i then pred []
  else existsb (test_at i (fun c => pred [c])) (zrange (f_start i) (f_stop i)).

(** ito.py:1056-1057, 1059-1060, 1065-1066, 1068-1069, 1084-1085, 1090-1091
    str_isalnum / isalpha / isdecimal / isdigit / isnumeric / isspace: all the
    same shape, over the respective character class *)
Definition str_is_class (cls : Z -> bool) (i : fito) : bool :=
  is_helper_all i (py_all_class cls).
(** ito.py:1062-1063  str_isascii ('' is ascii) *)
Definition str_isascii (isascii : Z -> bool) (i : fito) : bool :=
  is_helper_all i (py_all_class_e isascii).
(** ito.py:1087-1088  str_isprintable ('' is printable); note: helper_any *)
Definition str_isprintable (isprintable : Z -> bool) (i : fito) : bool :=
  is_helper_any i (py_all_class_e isprintable).
(** ito.py:1071-1072 str_isidentifier and 1093-1094 str_istitle delegate to str(self) *)
Definition str_delegate (f : pystr -> bool) (i : fito) : bool := f (ito_str i).

(** ito.py:1074-1082  str_islower (and 1096-1104 str_isupper with the other
    class): [alpha] and [low] are c.isalpha() and c.islower() of a one
    character str *)
Fixpoint cased_loop (i : fito) (alpha low : Z -> bool) (alphas : bool) (ks : list Z) : bool :=
  match ks with
  | [] => alphas
  | k :: ks' => if test_at i alpha k
                then if test_at i low k then cased_loop i alpha low true ks' else false
                else cased_loop i alpha low alphas ks'
  end.
Definition str_islower (alpha low : Z -> bool) (i : fito) : bool :=
  cased_loop i alpha low false (zrange (f_start i) (f_stop i)).
Definition str_isupper (alpha upp : Z -> bool) (i : fito) : bool :=
  cased_loop i alpha upp false (zrange (f_start i) (f_stop i)).

(** -- strip -------------------------------------------------------------- *)

(** ito.py:1110-1114  __f_c_in *)
Definition f_c_in (isspace : Z -> bool) (i : fito) (chars : option pystr) (k : Z) : bool :=
  match chars with
  | None | Some [] => test_at i isspace k
  | Some cs => test_at i (fun c => mem_char c cs) k
  end.

(** ito.py:1118-1120  while i < self.stop and f_c_in(i): i += 1 *)
Fixpoint up_while (fuel : nat) (f : Z -> bool) (k stop : Z) : Z :=
  match fuel with
  | O => k
  | S n => if (k <? stop) && f k then up_while n f (k + 1) stop else k
  end.
(** ito.py:1116-1122  Ito.str_lstrip.  The fuel is the length of the range. *)
Definition str_lstrip (isspace : Z -> bool) (i : fito) (chars : option pystr) : ref :=
  let k := up_while (Z.to_nat (f_stop i - f_start i)) (f_c_in isspace i chars) (f_start i) (f_stop i) in
  if k =? f_start i then RSelf else RNew (clone_f i (Some k) None None).
(** ito.py:1126-1128  i = self.stop - 1; while i >= 0 and f_c_in(i): i -= 1 *)
Fixpoint down_while (fuel : nat) (f : Z -> bool) (k : Z) : Z :=
  match fuel with
  | O => k
  | S n => if (0 <=? k) && f k then down_while n f (k - 1) else k
  end.
(** ito.py:1124-1130  Ito.str_rstrip.  The fuel is stop, the loop runs at most
    stop times. *)
Definition str_rstrip (isspace : Z -> bool) (i : fito) (chars : option pystr) : ref :=
  let k := down_while (Z.to_nat (f_stop i)) (f_c_in isspace i chars) (f_stop i - 1) in
  if k =? f_stop i - 1 then RSelf else RNew (clone_f i None (Some (k + 1)) None).
(** ito.py:1132-1133  Ito.str_strip *)
Definition str_strip (isspace : Z -> bool) (i : fito) (chars : option pystr) : ref :=
  match str_lstrip isspace i chars with
  | RSelf => str_rstrip isspace i chars
  | RNew j => RNew (deref j (str_rstrip isspace j chars))
  end.

(** -- split on a separator ------------------------------------------------ *)

(** ito.py:1273-1278  the while loop of str_split: pieces so far are returned
    in order together with the final i.  The loop advances by len(sep) >= 1,
    so fuel stop - i + 1 suffices. *)
Fixpoint split_loop (fuel : nat) (self : fito) (sep : pystr) (i m : Z) : res (list fito * Z) :=
  match fuel with
  | O => Err OutOfFuel
  | S n =>
    let j := py_find (f_str self) sep (Some i) (Some (f_stop self)) in
    if (0 <=? j) && negb (m =? 0)
    then do r <- split_loop n self sep (j + zlen sep) (m - 1);
         Ok (clone_f self (Some i) (Some j) None :: fst r, snd r)
    else Ok ([], i)
  end.
(** ito.py:1244-1285  Ito.str_split(sep: str, maxsplit), sep not None *)
Definition str_split (self : fito) (sep : pystr) (m : Z) : res (list ref) :=
  match sep with
  | [] => Err ValueError
  | _ =>
    if m =? 0 then Ok [RSelf]
    else
      do r <- split_loop (S (S (Z.to_nat (f_stop self - f_start self)))) self sep (f_start self) m;
      match fst r with
      | [] => Ok [RSelf]
      | _ => Ok (map RNew (fst r) ++
                 [if snd r =? f_start self then RSelf
                  else RNew (clone_f self (Some (snd r)) None None)])
      end
  end.

(** ito.py:1230-1235  the while loop of str_rsplit *)
Fixpoint rsplit_loop (fuel : nat) (self : fito) (sep : pystr) (i m : Z) (rv : list fito)
  : res (list fito * Z) :=
  match fuel with
  | O => Err OutOfFuel
  | S n =>
    let j := py_rfind (f_str self) sep (Some (f_start self)) (Some i) in
    if (0 <=? j) && negb (m =? 0)
    then rsplit_loop n self sep j (m - 1) (clone_f self (Some (j + zlen sep)) (Some i) None :: rv)
    else Ok (rv, i)
  end.
(** ito.py:1199-1242  Ito.str_rsplit(sep: str, maxsplit), sep not None *)
Definition str_rsplit (self : fito) (sep : pystr) (m : Z) : res (list ref) :=
  match sep with
  | [] => Err ValueError
  | _ =>
    if m =? 0 then Ok [RSelf]
    else
      do r <- rsplit_loop (S (S (Z.to_nat (f_stop self - f_start self)))) self sep (f_stop self) m [];
      match fst r with
      | [] => Ok [RSelf]
      | _ => Ok ((if snd r =? f_stop self then RSelf
                  else RNew (clone_f self None (Some (snd r)) None)) :: map RNew (fst r))
      end
  end.

(** -- split on white space ------------------------------------------------ *)

(** ito.py:1183-1197  the loop of _nearest_non_ws_sub: [ks] are the remaining
    values of range(start, stop, step), [non_ws] is Some non_ws_i once in_ws is
    False, [last] the last value of i.  Python's s[i] raises IndexError beyond
    the end; the indices here are never negative. *)
Fixpoint nn_loop (isspace : Z -> bool) (self : fito) (step : Z) (ks : list Z)
         (non_ws : option Z) (last : Z) : res (option fito) :=
  let from_idxs nw i :=
    if step =? 1 then clone_f self (Some nw) (Some i) None
    else clone_f self (Some (i + 1)) (Some (nw + 1)) None in
  match ks with
  | [] => match non_ws with
          | Some nw => Ok (Some (from_idxs nw (last + step)))
          | None => Ok None
          end
  | k :: ks' =>
    match char_at self k with
    | None => Err IndexError
    | Some c =>
      match non_ws with
      | None => if isspace c then nn_loop isspace self step ks' None k
                else nn_loop isspace self step ks' (Some k) k
      | Some nw => if isspace c then Ok (Some (from_idxs nw k))
                   else nn_loop isspace self step ks' non_ws k
      end
    end
  end.
(** range(a, b, -1) *)
Definition zrange_down (a b : Z) : list Z := map (fun k => a + b + 1 - k) (zrange (b + 1) (a + 1)).
(** ito.py:1167-1197  Ito._nearest_non_ws_sub(start, reverse) *)
Definition nearest_non_ws (isspace : Z -> bool) (self : fito) (start : Z) (reverse : bool)
  : res (option fito) :=
  let start := start + f_start self in
  if reverse
  then nn_loop isspace self (-1) (zrange_down start (f_start self - 1)) None start
  else nn_loop isspace self 1 (zrange start (f_stop self)) None start.

(** ito.py:1250-1254  the while loop of str_split(None) *)
Fixpoint wsplit_loop (fuel : nat) isspace (self : fito) (i m : Z) : res (list fito * Z) :=
  match fuel with
  | O => Err OutOfFuel
  | S n =>
    do sub <- nearest_non_ws isspace self i false;
    match sub with
    | Some s => if m =? 0 then Ok ([], m)
                else do r <- wsplit_loop n isspace self (f_stop s) (m - 1);
                     Ok (s :: fst r, snd r)
    | None => Ok ([], m)
    end
  end.
(** ito.py:1245-1261  Ito.str_split(None, maxsplit).  The real loop has no
    bound: [fuel] is the number of iterations the model allows. *)
Definition str_wsplit (fuel : nat) isspace (self : fito) (m : Z) : res (list fito) :=
  match f_str self with
  | [] => Ok []
  | _ =>
    do r <- wsplit_loop fuel isspace self 0 m;
    let (rv, m) := (r : list fito * Z) in
    if m =? 0
    then let tail_start := match rev rv with [] => f_start self | s :: _ => f_stop s end in
         let c := clone_f self (Some tail_start) None None in
         let tail := deref c (str_lstrip isspace c None) in
         Ok (if 0 <? ito_len tail then rv ++ [tail] else rv)
    else Ok rv
  end.
(** ito.py:1205-1211  the while loop of str_rsplit(None); [rv] is already
    reversed (rv.reverse(), line 1211) *)
Fixpoint rwsplit_loop (fuel : nat) isspace (self : fito) (i m : Z) (rv : list fito)
  : res (list fito * Z) :=
  match fuel with
  | O => Err OutOfFuel
  | S n =>
    do sub <- nearest_non_ws isspace self i true;
    match sub with
    | Some s => if m =? 0 then Ok (rv, m)
                else rwsplit_loop n isspace self (f_start s - 1) (m - 1) (s :: rv)
    | None => Ok (rv, m)
    end
  end.
(** ito.py:1200-1218  Ito.str_rsplit(None, maxsplit) *)
Definition str_rwsplit (fuel : nat) isspace (self : fito) (m : Z) : res (list fito) :=
  match f_str self with
  | [] => Ok []
  | _ =>
    do r <- rwsplit_loop fuel isspace self (ito_len self - 1) m [];
    let (rv, m) := (r : list fito * Z) in
    if m =? 0
    then let head_stop := match rv with [] => f_stop self | s :: _ => f_start s end in
         let c := clone_f self None (Some head_stop) None in
         let head := deref c (str_rstrip isspace c None) in
         Ok (if 0 <? ito_len head then head :: rv else rv)
    else Ok rv
  end.

(** -- regex splitting ----------------------------------------------------- *)

(** ito.py:855-868  the body of split_iter over the spans of the matches
    self.regex_finditer(re) yields.  [i] is the local variable i, [count] is
    the local variable count, which no statement of the loop updates. *)
Fixpoint split_iter_loop (self : fito) (ms : list span) (max_split count : Z) (keep : bool)
         (desc : option pystr) (i : Z) : list fito * Z :=
  match ms with
  | [] => ([], i)
  | m :: ms' =>
    if negb (max_split =? 0) && (count <=? max_split) then ([], i)
    else let stop := if keep then snd m else fst m in
         let r := split_iter_loop self ms' max_split count keep desc (snd m) in
         (clone_f self (Some i) (Some stop) (Some desc) :: fst r, snd r)
  end.
(** ito.py:843-868  Ito.split_iter, with the regex engine's matches [ms] *)
Definition split_iter (self : fito) (ms : list span) (max_split : Z) (keep : bool)
           (desc : option pystr) : list fito :=
  let r := split_iter_loop self ms max_split 0 keep desc (f_start self) in
  let i := snd r in
  if i <? f_stop self then fst r ++ [clone_f self (Some i) None (Some desc)]
  else if i =? f_stop self then fst r ++ [clone_f self (Some i) (Some i) (Some desc)]
  else fst r.

(** The matches of ito.py:1288 _splitlines_re within [pos, stop):
    \r\n, else any single line break character. *)
Fixpoint linebreak_matches (fuel : nat) (s : pystr) (pos stop : Z) : list span :=
  match fuel with
  | O => []
  | S n =>
    if stop <=? pos then []
    else match zget s pos with
         | None => []
         | Some c =>
           if (c =? 13) && (pos + 1 <? stop) && match zget s (pos + 1) with Some d => d =? 10 | None => false end
           then (pos, pos + 2) :: linebreak_matches n s (pos + 2) stop
           else if is_linebreak c then (pos, pos + 1) :: linebreak_matches n s (pos + 1) stop
           else linebreak_matches n s (pos + 1) stop
         end
  end.
(** ito.py:1290-1297  Ito.str_splitlines *)
Definition str_splitlines (self : fito) (keepends : bool) (desc : option pystr) : list fito :=
  let ms := linebreak_matches (Z.to_nat (f_stop self - f_start self)) (f_str self) (f_start self) (f_stop self) in
  let rv := split_iter self ms 0 keepends desc in
  match rev rv with
  | [] => rv
  | l :: r => if ito_len l =? 0 then rev r else rv
  end.

(** -- removeprefix / removesuffix ----------------------------------------- *)

(** ito.py:1303-1307  Ito.str_removeprefix *)
Definition str_removeprefix (i : fito) (p : pystr) : res ref :=
  do b <- str_startswith i (AStr p) None None;
  if (b : bool) then do c <- ito_of_ito i (Some (zlen p)) None (f_desc i); Ok (RNew c) else Ok RSelf.
(** ito.py:1309-1313  Ito.str_removesuffix *)
Definition str_removesuffix (i : fito) (p : pystr) : res ref :=
  do b <- str_endswith i (AStr p) None None;
  if (b : bool) then do c <- ito_of_ito i None (Some (- zlen p)) (f_desc i); Ok (RNew c) else Ok RSelf.

(** -- to_line_col ---------------------------------------------------------- *)

(** ito.py:1392-1401  Ito.to_line_col(eol: str) *)
Definition to_line_col (i : fito) (eol : pystr) : Z * Z :=
  let prior := py_rfind (f_str i) eol (Some 0) (Some (f_start i)) in
  if prior =? -1 then (1, f_start i + 1)
  else (py_count (f_str i) eol (Some 0) (Some prior) + 2,
        f_start i - (prior + zlen eol) + 1).
(** ito.py:1377-1390  Ito.to_line_col(eol: regex.Pattern), [ms] the spans of
    the matches of eol in string[:start] *)
Definition to_line_col_re (i : fito) (ms : list span) : Z * Z :=
  (1 + zlen ms,
   match rev ms with
   | [] => 1 + f_start i
   | m :: _ => 1 + (f_start i - snd m)
   end).

(** ito.py:271-315  Ito.from_substrings (src = Ito; a str src is the Ito of
    the whole string).  Returns what was yielded and how it ended. *)
Fixpoint from_substrings (s : pystr) (i j : Z) (subs : list pystr) (desc : option pystr)
  : list fito * option exn :=
  match subs with
  | [] => ([], None)
  | sub :: subs' =>
    match py_index_of s sub (Some i) (Some j) with
    | Err e => ([], Some e)
    | Ok i' =>
      let k := i' + zlen sub in
      let r := from_substrings s k j subs' desc in
      (ito_of_str s (Some i') (Some k) desc :: fst r, snd r)
    end
  end.
