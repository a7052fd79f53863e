(** Python run-time primitives used by pawpaw, as total Gallina functions.
    Nothing here models a file of /repo: it is the part of CPython the code
    calls (str slicing, searching, splitting...), transcribed from the CPython
    algorithms (Objects/unicodeobject.c, Objects/stringlib), so that the model
    of pawpaw can be compared with "what the str method returns".  Each
    function gets a declarative characterisation in PyFacts.v. *)
From Coq Require Export String Ascii.
From Coq Require Export List ZArith Lia Bool.
From Coq Require Export ZifyBool ZifyNat.
Export ListNotations.
Global Open Scope Z_scope.

(** A str is a list of code points. *)
Notation pystr := (list Z) (only parsing).

(** Literals for examples. *)
Fixpoint lit (s : string) : pystr :=
  match s with
  | EmptyString => []
  | String c s' => Z.of_N (N_of_ascii c) :: lit s'
  end.

(** Exceptions are values.  [OutOfFuel] is not a Python exception: it marks a
    loop that did not finish within the fuel the model gives it. *)
Inductive exn :=
| ValueError | TypeError | IndexError | KeyError | AttributeError
| UnboundLocalError | RecursionError | StopIteration | OutOfFuel.

Inductive res (A : Type) :=
| Ok (a : A)
| Err (e : exn).
Arguments Ok {A} a.
Arguments Err {A} e.

Definition bind {A B} (x : res A) (f : A -> res B) : res B :=
  match x with Ok a => f a | Err e => Err e end.
Notation "'do' x <- e ; k" := (bind e (fun x => k))
  (at level 200, x pattern, e at level 100, k at level 200, right associativity).

Definition is_ok {A} (x : res A) : bool := match x with Ok _ => true | Err _ => false end.

(** len(l) *)
Definition zlen {A} (l : list A) : Z := Z.of_nat (length l).

(** l[a:b] for indices already known to satisfy 0 <= a <= b <= len(l). *)
Definition zsub {A} (l : list A) (a b : Z) : list A :=
  firstn (Z.to_nat (b - a)) (skipn (Z.to_nat a) l).

(** l[i] for i already known to satisfy 0 <= i < len(l); None otherwise. *)
Definition zget {A} (l : list A) (i : Z) : option A :=
  if i <? 0 then None else nth_error l (Z.to_nat i).

(** list.insert(i, x) for 0 <= i <= len. *)
Definition zinsert {A} (i : Z) (x : A) (l : list A) : list A :=
  firstn (Z.to_nat i) l ++ x :: skipn (Z.to_nat i) l.

(** CPython PySlice_AdjustIndices for one bound, step 1. *)
Definition slice_adjust (len : Z) (dflt : Z) (i : option Z) : Z :=
  match i with
  | None => dflt
  | Some v => if v <? 0
              then (if v + len <? 0 then 0 else v + len)
              else (if len <=? v then len else v)
  end.

(** seq[a:b] with Python semantics for every optional a, b. *)
Definition py_slice {A} (l : list A) (a b : option Z) : list A :=
  let n := zlen l in
  let i := slice_adjust n 0 a in
  let j := slice_adjust n n b in
  if i <? j then zsub l i j else [].

(** seq[k] with Python semantics. *)
Definition py_index {A} (l : list A) (k : Z) : res A :=
  let k' := if k <? 0 then k + zlen l else k in
  match zget l k' with Some x => Ok x | None => Err IndexError end.

Fixpoint eqb_str (a b : pystr) : bool :=
  match a, b with
  | [], [] => true
  | x :: a', y :: b' => (x =? y) && eqb_str a' b'
  | _, _ => false
  end.

(** p is a prefix of l *)
Fixpoint prefixb (p l : pystr) : bool :=
  match p, l with
  | [], _ => true
  | x :: p', y :: l' => (x =? y) && prefixb p' l'
  | _, _ => false
  end.

Definition mem_char (c : Z) (l : pystr) : bool := existsb (Z.eqb c) l.

(** CPython ADJUST_INDICES: the end is clamped into [0,len]; a negative start
    is adjusted, but a start beyond len stays beyond len. *)
Definition adj_end (len : Z) (e : option Z) : Z :=
  match e with
  | None => len
  | Some v => if len <? v then len
              else if v <? 0 then (if v + len <? 0 then 0 else v + len)
              else v
  end.
Definition adj_start (len : Z) (s : option Z) : Z :=
  match s with
  | None => 0
  | Some v => if v <? 0 then (if v + len <? 0 then 0 else v + len) else v
  end.

(** first / last occurrence of sub inside l, as an offset *)
Fixpoint find_in (sub l : pystr) : option Z :=
  if prefixb sub l then Some 0
  else match l with
       | [] => None
       | _ :: l' => match find_in sub l' with
                    | Some i => Some (1 + i)
                    | None => None
                    end
       end.
Fixpoint rfind_in (sub l : pystr) : option Z :=
  match l with
  | [] => if prefixb sub [] then Some 0 else None
  | _ :: l' => match rfind_in sub l' with
               | Some i => Some (1 + i)
               | None => if prefixb sub l then Some 0 else None
               end
  end.
(** number of non-overlapping occurrences, scanning left to right, of a
    nonempty sub; [fuel] >= length l suffices *)
Fixpoint count_in (fuel : nat) (sub l : pystr) : Z :=
  match fuel with
  | O => 0
  | S f => match l with
           | [] => 0
           | _ :: l' => if prefixb sub l
                        then 1 + count_in f sub (skipn (length sub) l)
                        else count_in f sub l'
           end
  end.

(** str.find / rfind / count / index / rindex (start, end optional) *)
Definition py_find (s sub : pystr) (a b : option Z) : Z :=
  let i := adj_start (zlen s) a in
  let j := adj_end (zlen s) b in
  if j - i <? zlen sub then -1
  else match find_in sub (zsub s i j) with Some k => i + k | None => -1 end.
Definition py_rfind (s sub : pystr) (a b : option Z) : Z :=
  let i := adj_start (zlen s) a in
  let j := adj_end (zlen s) b in
  if j - i <? zlen sub then -1
  else match rfind_in sub (zsub s i j) with Some k => i + k | None => -1 end.
Definition py_count (s sub : pystr) (a b : option Z) : Z :=
  let i := adj_start (zlen s) a in
  let j := adj_end (zlen s) b in
  if j - i <? zlen sub then 0
  else match sub with
       | [] => j - i + 1
       | _ => let w := zsub s i j in count_in (length w) sub w
       end.
Definition py_index_of (s sub : pystr) (a b : option Z) : res Z :=
  let r := py_find s sub a b in if r =? -1 then Err ValueError else Ok r.
Definition py_rindex_of (s sub : pystr) (a b : option Z) : res Z :=
  let r := py_rfind s sub a b in if r =? -1 then Err ValueError else Ok r.

(** CPython tailmatch, for one affix *)
Definition py_startswith1 (s p : pystr) (a b : option Z) : bool :=
  let i := adj_start (zlen s) a in
  let j := adj_end (zlen s) b in
  if j - zlen p <? i then false
  else eqb_str (zsub s i (i + zlen p)) p.
Definition py_endswith1 (s p : pystr) (a b : option Z) : bool :=
  let i := adj_start (zlen s) a in
  let j := adj_end (zlen s) b in
  if j - zlen p <? i then false
  else eqb_str (zsub s (j - zlen p) j) p.
(** the argument may be a str or a tuple of str *)
Inductive affix := AStr (p : pystr) | ATuple (ps : list pystr).
Definition py_startswith (s : pystr) (p : affix) (a b : option Z) : bool :=
  match p with
  | AStr p => py_startswith1 s p a b
  | ATuple ps => existsb (fun p => py_startswith1 s p a b) ps
  end.
Definition py_endswith (s : pystr) (p : affix) (a b : option Z) : bool :=
  match p with
  | AStr p => py_endswith1 s p a b
  | ATuple ps => existsb (fun p => py_endswith1 s p a b) ps
  end.

(** str.isalnum and friends: nonempty and every character in the class *)
Definition py_all_class (cls : Z -> bool) (s : pystr) : bool :=
  match s with [] => false | _ => forallb cls s end.
(** str.isascii / isprintable: also True on the empty string *)
Definition py_all_class_e (cls : Z -> bool) (s : pystr) : bool := forallb cls s.
(** str.islower: CPython unicode_islower_impl, over the classes
    lower / upper / title *)
Fixpoint py_islower_from (lower upper title : Z -> bool) (cased : bool) (s : pystr) : bool :=
  match s with
  | [] => cased
  | c :: s' => if upper c || title c then false
               else py_islower_from lower upper title (cased || lower c) s'
  end.
Definition py_islower lower upper title s := py_islower_from lower upper title false s.
(** str.isupper: CPython unicode_isupper_impl *)
Fixpoint py_isupper_from (lower upper title : Z -> bool) (cased : bool) (s : pystr) : bool :=
  match s with
  | [] => cased
  | c :: s' => if lower c || title c then false
               else py_isupper_from lower upper title (cased || upper c) s'
  end.
Definition py_isupper lower upper title s := py_isupper_from lower upper title false s.

(** str.lstrip / rstrip / strip: drop the longest prefix / suffix in the set *)
Fixpoint drop_while (p : Z -> bool) (s : pystr) : pystr :=
  match s with
  | [] => []
  | c :: s' => if p c then drop_while p s' else s
  end.
Definition strip_set (isspace : Z -> bool) (chars : option pystr) : Z -> bool :=
  match chars with None => isspace | Some cs => fun c => mem_char c cs end.
Definition py_lstrip isspace (s : pystr) (chars : option pystr) : pystr :=
  drop_while (strip_set isspace chars) s.
Definition py_rstrip isspace (s : pystr) (chars : option pystr) : pystr :=
  rev (drop_while (strip_set isspace chars) (rev s)).
Definition py_strip isspace s chars := py_rstrip isspace (py_lstrip isspace s chars) chars.

(** str.partition / rpartition with a nonempty separator *)
Definition py_partition (s sep : pystr) : pystr * pystr * pystr :=
  match find_in sep s with
  | Some i => (zsub s 0 i, sep, zsub s (i + zlen sep) (zlen s))
  | None => (s, [], [])
  end.
Definition py_rpartition (s sep : pystr) : pystr * pystr * pystr :=
  match rfind_in sep s with
  | Some i => (zsub s 0 i, sep, zsub s (i + zlen sep) (zlen s))
  | None => ([], [], s)
  end.

(** str.split(sep, maxsplit), sep nonempty: peel pieces from the left while
    splits remain (a negative maxsplit never reaches 0). *)
Fixpoint py_split_fuel (fuel : nat) (s sep : pystr) (m : Z) : list pystr :=
  match fuel with
  | O => [s]
  | S f => if m =? 0 then [s]
           else match find_in sep s with
                | None => [s]
                | Some i => zsub s 0 i :: py_split_fuel f (zsub s (i + zlen sep) (zlen s)) sep (m - 1)
                end
  end.
Definition py_split (s sep : pystr) (m : Z) : list pystr := py_split_fuel (S (length s)) s sep m.
(** str.rsplit(sep, maxsplit), sep nonempty *)
Fixpoint py_rsplit_fuel (fuel : nat) (s sep : pystr) (m : Z) : list pystr :=
  match fuel with
  | O => [s]
  | S f => if m =? 0 then [s]
           else match rfind_in sep s with
                | None => [s]
                | Some i => py_rsplit_fuel f (zsub s 0 i) sep (m - 1) ++ [zsub s (i + zlen sep) (zlen s)]
                end
  end.
Definition py_rsplit (s sep : pystr) (m : Z) : list pystr := py_rsplit_fuel (S (length s)) s sep m.

(** str.split(None, maxsplit): CPython split_whitespace.  Skip blanks; if the
    splits are used up the rest is one piece, with trailing blanks kept. *)
Fixpoint take_while (p : Z -> bool) (s : pystr) : pystr :=
  match s with
  | [] => []
  | c :: s' => if p c then c :: take_while p s' else []
  end.
Fixpoint py_wsplit_fuel (fuel : nat) (isspace : Z -> bool) (s : pystr) (m : Z) : list pystr :=
  match fuel with
  | O => []
  | S f =>
    let s := drop_while isspace s in
    match s with
    | [] => []
    | _ => if m =? 0 then [s]
           else let w := take_while (fun c => negb (isspace c)) s in
                w :: py_wsplit_fuel f isspace (skipn (length w) s) (m - 1)
    end
  end.
Definition py_wsplit isspace (s : pystr) (m : Z) : list pystr :=
  py_wsplit_fuel (S (length s)) isspace s m.
(** str.rsplit(None, maxsplit): the mirror image *)
Definition py_rwsplit isspace (s : pystr) (m : Z) : list pystr :=
  rev (map (@rev Z) (py_wsplit isspace (rev s) m)).

(** str.removeprefix / removesuffix *)
Definition py_removeprefix (s p : pystr) : pystr :=
  if prefixb p s then skipn (length p) s else s.
Definition py_removesuffix (s p : pystr) : pystr :=
  match p with
  | [] => s
  | _ => if prefixb (rev p) (rev s) then firstn (length s - length p) s else s
  end.

(** str.splitlines(keepends): CPython stringlib splitlines *)
Definition is_linebreak (c : Z) : bool :=
  mem_char c [10; 11; 12; 13; 28; 29; 30; 133; 8232; 8233].
Fixpoint take_line (s : pystr) : pystr * pystr * pystr :=   (* body, eol, rest *)
  match s with
  | [] => ([], [], [])
  | c :: s' =>
    if is_linebreak c
    then match s' with
         | d :: s'' => if (c =? 13) && (d =? 10) then ([], [c; d], s'') else ([], [c], s')
         | [] => ([], [c], [])
         end
    else let '(b, e, r) := take_line s' in (c :: b, e, r)
  end.
Fixpoint py_splitlines_fuel (fuel : nat) (keep : bool) (s : pystr) : list pystr :=
  match fuel with
  | O => []
  | S f => match s with
           | [] => []
           | _ => let '(b, e, r) := take_line s in
                  (if keep then b ++ e else b) :: py_splitlines_fuel f keep r
           end
  end.
Definition py_splitlines (s : pystr) (keep : bool) : list pystr :=
  py_splitlines_fuel (length s) keep s.

(** range(a, b) *)
Fixpoint zrange_nat (a : Z) (n : nat) : list Z :=
  match n with O => [] | S n' => a :: zrange_nat (a + 1) n' end.
Definition zrange (a b : Z) : list Z := zrange_nat a (Z.to_nat (b - a)).
