(** Model of pawpaw/query/_query.py: filters, sub-queries, phrases and queries.
    Query texts are Itos over the path in the code; the model works on their
    text (str(ito)), which by C04, C06, C09 and C10 is all that the calls made
    here (slices, str_find, str_count, str_strip, str_partition) depend on.
    A compiled filter is a function, as in the code (a shallow embedding). *)
From Verif Require Export Axis.

(** the parts of CPython / regex a query depends on, all arbitrary: casefold,
    the character classes, \s of regex, and int(str) *)
Record pyenv := PE {
  py_casefold : pystr -> pystr;
  py_isspace : Z -> bool;
  py_isdigit : Z -> bool;
  py_isprintable : Z -> bool;
  re_space : Z -> bool;
  py_int : pystr -> option Z
}.
(** what a query is run with (query/_query.py:677-694): the values and
    predicates dictionaries (None when not given) and Ito.value().  Values are
    opaque; rv_eq is what [in] decides between two of them.  A predicate gets
    the enumerated ito (index, node). *)
Record renv := RE {
  rv_values : option (list (pystr * Z));
  rv_preds : option (list (pystr * (nat * nat -> res bool)));
  rv_value : nat -> res Z;
  rv_eq : Z -> Z -> bool
}.
Definition ecf := heap -> renv -> nat * nat -> res bool.

(** -- generators --------------------------------------------------------- *)
(** any(f(x) for x in g), all(f(x) for x in g): they stop early *)
Fixpoint any_list {A} (f : A -> res bool) (l : list A) (err : option exn) : res bool :=
  match l with
  | [] => match err with None => Ok false | Some e => Err e end
  | x :: r => do b <- f x; if b then Ok true else any_list f r err
  end.
Fixpoint all_list {A} (f : A -> res bool) (l : list A) (err : option exn) : res bool :=
  match l with
  | [] => match err with None => Ok true | Some e => Err e end
  | x :: r => do b <- f x; if b then all_list f r err else Ok false
  end.
(** [f(x) for x in g] *)
Fixpoint map_list {A B} (f : A -> res B) (l : list A) (err : option exn) : res (list B) :=
  match l with
  | [] => match err with None => Ok [] | Some e => Err e end
  | x :: r => do y <- f x; do ys <- map_list f r err; Ok (y :: ys)
  end.
Definition g_any {A} (f : A -> res bool) (g : gen A) := any_list f (fst g) (snd g).
Definition g_all {A} (f : A -> res bool) (g : gen A) := all_list f (fst g) (snd g).
Definition g_map {A B} (f : A -> res B) (g : gen A) := map_list f (fst g) (snd g).
(** filter(f, g) *)
Fixpoint filter_list {A} (f : A -> res bool) (l : list A) (err : option exn) : gen A :=
  match l with
  | [] => ([], err)
  | x :: r => match f x with
              | Err e => graise e
              | Ok true => gyield x (filter_list f r err)
              | Ok false => filter_list f r err
              end
  end.
Definition g_filter {A} (f : A -> res bool) (g : gen A) := filter_list f (fst g) (snd g).
(** next(g, None) *)
Definition g_next {A} (g : gen A) : res (option A) :=
  match g with
  | (x :: _, _) => Ok (Some x)
  | ([], Some e) => Err e
  | ([], None) => Ok None
  end.

(** -- filters ------------------------------------------------------------ *)
(** query/_query.py:20-31  FILTER_KEYS, tested in the order of _func *)
Inductive fkey := KDesc | KText | KCf | KCfEw | KCfSw | KEw | KSw | KIndex | KPred | KValue.
Definition filter_keys : list (fkey * list pystr) :=
  [(KDesc, [lit "desc"; lit "d"]);
   (KText, [lit "string"; lit "s"]);
   (KCf, [lit "str-casefold"; lit "scf"; lit "lcs"]);
   (KCfEw, [lit "str-casefold-ew"; lit "scfew"; lit "lcsew"]);
   (KCfSw, [lit "str-casefold-sw"; lit "scfsw"; lit "lcssw"]);
   (KEw, [lit "str-ew"; lit "sew"]);
   (KSw, [lit "str-sw"; lit "ssw"]);
   (KIndex, [lit "index"; lit "i"]);
   (KPred, [lit "predicate"; lit "p"]);
   (KValue, [lit "value"; lit "v"])].
Definition mem_str (s : pystr) (l : list pystr) : bool := existsb (eqb_str s) l.
Definition filter_key (key : pystr) : option fkey :=
  match find (fun e => mem_str key (snd e)) filter_keys with Some (k, _) => Some k | None => None end.

(** pawpaw.split_unescaped(value, ',') *)
Definition pieces (v : pystr) : gen pystr :=
  let g := split_unescaped (UStr v) (lit ",") (lit "\") None None in
  (map (fun u => match u with UStr s => s | UIto i => ito_str i end) (fst g), snd g).
(** [descape(s) for s in pawpaw.split_unescaped(value, ',')] *)
Definition descaped (v : pystr) : res (list pystr) := g_map descape (pieces v).
Definition node_str (h : heap) (i : nat) : pystr := ito_str (n_f (nd h i)).
Definition opt_mem (d : option pystr) (l : list pystr) : bool :=
  match d with None => false | Some s => mem_str s l end.

(** query/_query.py:440-465  one chunk of an index filter: lower bound and
    optional upper bound (None: inf) *)
Definition index_range (E : pyenv) (chunk : pystr) : res (Z * option Z) :=
  match py_split chunk (lit "-") (-1) with
  | [a] => match py_int E a with Some x => Ok (x, Some (x + 1)) | None => Err ValueError end
  | [a; b] => match py_int E a with
              | None => Err ValueError
              | Some x => if py_all_class (py_isdigit E) b
                          then match py_int E b with Some y => Ok (x, Some y) | None => Err ValueError end
                          else match b with
                               | [] => Ok (x, None)
                               | _ => if py_all_class (py_isspace E) b then Ok (x, None) else Err ValueError
                               end
              end
  | _ => Err ValueError
  end.
Definition in_range (k : nat) (r : Z * option Z) : bool :=
  (fst r <=? Z.of_nat k) && match snd r with None => true | Some b => Z.of_nat k <? b end.
(** [v for k, v in d.items() if k in keys] *)
Definition selected {A} (d : list (pystr * A)) (keys : list pystr) : list A :=
  map snd (filter (fun e => mem_str (fst e) keys) d).
Definition validate {A} (o : option A) : res A :=                              (* 273-283 *)
  match o with Some d => Ok d | None => Err ValueError end.

Definition not_if (n : bool) (r : res bool) : res bool := do b <- r; Ok (if n then negb b else b).
(** any(p ...) or, with ~, all(not p ...) *)
Definition any_or_none {A} (n : bool) (f : A -> res bool) (g : gen A) : res bool :=
  if n then g_all (fun x => not_if true (f x)) g else g_any f g.

(** query/_query.py:389-486  EcfFilter._func; [n] is not_ == '~' *)
Definition filter_func (E : pyenv) (n : bool) (key value : pystr) : res ecf :=
  match filter_key key with
  | Some KDesc => Ok (fun h _ ec => do l <- descaped value;                                     (* 391-395 *)
                        Ok (let b := opt_mem (f_desc (n_f (nd h (snd ec)))) l in if n then negb b else b))
  | Some KText => Ok (fun h _ ec => do l <- descaped value;                                      (* 397-401 *)
                       Ok (let b := mem_str (node_str h (snd ec)) l in if n then negb b else b))
  | Some KCf => Ok (fun h _ ec =>                                                               (* 403-411 *)
                      do l <- g_map (fun s => do d <- descape s; Ok (py_casefold E d)) (pieces (py_casefold E value));
                      Ok (let b := mem_str (py_casefold E (node_str h (snd ec))) l in if n then negb b else b))
  | Some KCfEw => Ok (fun h _ ec =>                                                             (* 413-417 *)
                        any_or_none n (fun s => do d <- descape s;
                          Ok (py_endswith (py_casefold E (node_str h (snd ec))) (AStr (py_casefold E d)) None None))
                          (pieces (py_casefold E value)))
  | Some KCfSw => Ok (fun h _ ec =>                                                             (* 419-423 *)
                        any_or_none n (fun s => do d <- descape s;
                          Ok (py_startswith (py_casefold E (node_str h (snd ec))) (AStr (py_casefold E d)) None None))
                          (pieces (py_casefold E value)))
  | Some KEw => Ok (fun h _ ec =>                                                               (* 425-429 *)
                      any_or_none n (fun s => do d <- descape s; str_endswith (n_f (nd h (snd ec))) (AStr d) None None)
                        (pieces value))
  | Some KSw => Ok (fun h _ ec =>                                                               (* 431-435 *)
                      any_or_none n (fun s => do d <- descape s; str_startswith (n_f (nd h (snd ec))) (AStr d) None None)
                        (pieces value))
  | Some KIndex =>                                                                              (* 437-470 *)
    do rs <- map_list (index_range E) (py_split value (lit ",") (-1)) None;
    Ok (fun _ _ ec => Ok (let b := existsb (in_range (fst ec)) rs in if n then negb b else b))
  | Some KPred =>                                                                               (* 472-477 *)
    do keys <- descaped value;
    Ok (fun _ r ec => do d <- validate (rv_preds r);
          g_all (fun p => not_if n (p ec)) (selected d keys, None))
  | Some KValue =>                                                                              (* 479-484 *)
    do keys <- descaped value;
    Ok (fun _ r ec => do v <- rv_value r (snd ec); do d <- validate (rv_values r);
          Ok (let b := existsb (rv_eq r v) (selected d keys) in if n then negb b else b))
  | None => Err ValueError                                                                      (* 486 *)
  end.

(** -- combinations ------------------------------------------------------- *)
Definition has (c : Z) (s : pystr) : bool := mem_char c s.
Definition count_char (c : Z) (s : pystr) : nat := length (filter (Z.eqb c) s).
(** query/_query.py:12-17, 312-315  the characters allowed in an operand *)
Definition op_chars : pystr := lit "~&^| ()".
Definition c_open : Z := 40.   (* ( *)
Definition c_close : Z := 41.  (* ) *)
Definition c_not : Z := 126.
Definition c_and : Z := 38.
Definition c_xor : Z := 94.
Definition c_or : Z := 124.

(** query/_query.py:347-354  _eval *)
Definition eval_one (op : pystr) (f : ecf) : ecf :=
  fun h r ec => not_if (Nat.odd (count_char c_not op)) (f h r ec).
(** query/_query.py:356-364  _highest_precedence_diadic: the operator and the
    first operand that contains it; None when there is none *)
Fixpoint first_with (c : Z) (ops : list pystr) (i : nat) : option nat :=
  match ops with [] => None | op :: r => if has c op then Some i else first_with c r (S i) end.
Definition highest (ops : list pystr) : option (nat * (bool -> bool -> bool)) :=
  match first_with c_and ops 0 with
  | Some i => Some (i, andb)
  | None => match first_with c_xor ops 0 with
            | Some i => Some (i, xorb)
            | None => match first_with c_or ops 0 with Some i => Some (i, orb) | None => None end
            end
  end.
(** query/_query.py:370-376  the loop of func; fuel len(vals) suffices.
    Unpacking None raises TypeError. *)
Fixpoint reduce (fuel : nat) (vals : list bool) (ops : list pystr) : res bool :=
  match vals with
  | [] => Err IndexError
  | [v] => Ok v
  | _ => match fuel with
         | O => Err OutOfFuel
         | S n => match highest ops with
                  | None => Err TypeError
                  | Some (i, f) =>
                    let v := f (nth i vals false) (nth (S i) vals false) in
                    reduce n (firstn i vals ++ v :: skipn (i + 2) vals) (firstn i ops ++ skipn (S i) ops)
                  end
         end
  end.
Fixpoint eval_all (ops : list pystr) (fs : list ecf) (h : heap) (r : renv) (ec : nat * nat) : res (list bool) :=
  match fs, ops with
  | f :: fs', op :: ops' => do b <- eval_one op f h r ec; do bs <- eval_all ops' fs' h r ec; Ok (b :: bs)
  | _, _ => Ok []
  end.
(** query/_query.py:366-376  func; ops is operands[1:-1] *)
Definition combined_func (fs : list ecf) (ops : list pystr) : ecf :=
  fun h r ec => do vals <- eval_all ops fs h r ec; reduce (length vals) vals (removelast (tl ops)).

(** the last operand that contains '(' ; the first one from index i on that
    contains ')' *)
Fixpoint last_with (c : Z) (ops : list pystr) (i : nat) (acc : option nat) : option nat :=
  match ops with [] => acc | op :: r => last_with c r (S i) (if has c op then Some i else acc) end.
Definition set_nth {A} (i : nat) (x : A) (l : list A) : list A := firstn i l ++ x :: skipn (S i) l.
(** query/_query.py:320-342  the while loop of EcfCombined.__init__; [sub] is the
    recursive constructor call; fuel: the number of '(' plus one *)
Fixpoint paren_loop (sub : list ecf -> list pystr -> res ecf) (fuel : nat) (fs : list ecf) (ops : list pystr)
  : res (list ecf * list pystr) :=
  match fuel with
  | O => Err OutOfFuel
  | S n =>
    match last_with c_open ops 0 None with
    | None => Ok (fs, ops)
    | Some i =>
      let '(pre, _, tmp) := py_rpartition (nth i ops []) [c_open] in
      if has c_close tmp then Err ValueError
      else match first_with c_close (skipn (S i) ops) (S i) with
           | None => Err ValueError
           | Some j =>
             let '(inner, _, post) := py_partition (nth j ops []) [c_close] in
             if (j - i =? 1)%nat
             then paren_loop sub n fs (set_nth i tmp (set_nth j post ops))
             else do f <- sub (firstn (j - i) (skipn i fs)) (tmp :: firstn (j - i - 1) (skipn (S i) ops) ++ [inner]);
                  paren_loop sub n (firstn i fs ++ f :: skipn j fs) (firstn i ops ++ pre :: post :: skipn (S j) ops)
           end
    end
  end.
Definition total_count (c : Z) (ops : list pystr) : nat := length (filter (Z.eqb c) (concat ops)).
(** query/_query.py:299-345  EcfCombined.__init__.  The recursive call has no
    parentheses left, so fuel 2 suffices. *)
Fixpoint ecf_combined (fuel : nat) (fs : list ecf) (ops : list pystr) : res ecf :=
  match fuel with
  | O => Err OutOfFuel
  | S n =>
    if (length fs =? 0)%nat then Err ValueError
    else if negb (length ops =? length fs + 1)%nat then Err ValueError
    else if negb (forallb (fun op => forallb (fun c => mem_char c op_chars) op) ops) then Err ValueError
    else if negb (total_count c_open ops =? total_count c_close ops)%nat then Err ValueError
    else do x <- paren_loop (ecf_combined n) (S (total_count c_open ops)) fs ops;
         Ok (combined_func (fst x) (snd x))
  end.
Definition combined := ecf_combined 2.

(** -- splitting a text into operators and delimited groups ---------------- *)
(** query/_query.py:296, 380-381, 519-520  the number of matches of
    _obs_pat_1 followed by c: occurrences of c after an even run of backslashes.
    [esc]: the run just before has odd length. *)
Fixpoint count_unesc (c : Z) (esc : bool) (s : pystr) : nat :=
  match s with
  | [] => O
  | x :: r => if x =? 92 then count_unesc c (negb esc) r
              else Nat.add (if (x =? c) && negb esc then 1 else 0) (count_unesc c false r)
  end.
(** query/_query.py:384-387, 523-526  _re_balanced_splitter with finditer: the
    outermost groups o ... c, where a delimiter directly after a backslash is
    ordinary text, as (text before the group, group), and the text after the
    last one.  [depth] > 0: inside a group; [cur] is the current piece,
    reversed.  An unclosed group is an error here: in the code the opening
    delimiter then ends up in an operand, which EcfCombined rejects (also with
    ValueError), or no group is found at all (ValueError too). *)
Fixpoint groups (o c : Z) (s : pystr) (bs : bool) (depth : nat) (pre cur : pystr) : res (list (pystr * pystr) * pystr) :=
  match s with
  | [] => match depth with O => Ok ([], rev cur) | _ => Err ValueError end
  | x :: r =>
    let bs' := x =? 92 in
    match depth with
    | O => if (x =? o) && negb bs then groups o c r bs' 1 (rev cur) [x]
           else groups o c r bs' 0 [] (x :: cur)
    | S d => if (x =? o) && negb bs then groups o c r bs' (S depth) pre (x :: cur)
             else if (x =? c) && negb bs
             then match d with
                  | O => do y <- groups o c r bs' 0 [] []; Ok ((pre, rev (x :: cur)) :: fst y, snd y)
                  | _ => groups o c r bs' d pre (x :: cur)
                  end
             else groups o c r bs' depth pre (x :: cur)
    end
  end.
(** query/_query.py:495-512, 544-560  the operands of the groups: stripped, and
    not empty between two groups; the last one is kept as it is *)
Fixpoint group_ops (E : pyenv) (first : bool) (gs : list (pystr * pystr)) (post : pystr) : res (list pystr) :=
  match gs with
  | [] => Ok [post]
  | (op, _) :: r =>
    let op' := py_strip (py_isspace E) op None in
    if negb first && (zlen op' =? 0) then Err ValueError
    else do ops <- group_ops E false r post; Ok (op' :: ops)
  end.

(** query/_query.py:383  _re.fullmatch: [~?k:\s*v] *)
Definition key_char (c : Z) : bool := ((97 <=? c) && (c <=? 122)) || (c =? 45).
Definition parse_filter (E : pyenv) (g : pystr) : option (bool * pystr * pystr) :=
  match g with
  | o :: g' =>
    if negb (o =? 91) then None else
    let body := removelast g' in
    if negb (last g' 0 =? 93) then None else
    let '(n, b) := match body with x :: b => if x =? c_not then (true, b) else (false, body) | [] => (false, []) end in
    let k := take_while key_char b in
    match k, drop_while key_char b with
    | _ :: _, x :: rest =>
      if negb (x =? 58) then None else
      match drop_while (re_space E) rest, rest with
      | (_ :: _) as v, _ => Some (n, k, v)
      | [], [] => None
      | [], _ => Some (n, k, [last rest 0])
      end
    | _, _ => None
    end
  | [] => None
  end.
Definition one_filter (E : pyenv) (g : pystr) : res ecf :=
  match parse_filter E g with Some (n, k, v) => filter_func E n k v | None => Err ValueError end.
(** query/_query.py:488-515  EcfFilter.__init__ *)
Definition ecf_filter (E : pyenv) (s : pystr) : res ecf :=
  if negb (count_unesc 91 false s =? count_unesc 93 false s)%nat then Err ValueError
  else do y <- groups 91 93 s false 0 [] [];
       do ops <- group_ops E true (fst y) (snd y);
       do fs <- map_list (fun g => one_filter E (snd g)) (fst y) None;
       combined fs (match fs with [] => [] | _ => ops end).

(** -- phrases ------------------------------------------------------------ *)
(** query/_query.py:85  the axis pattern at the start of the text; the axis and
    the number of characters it takes *)
Fixpoint run_of (c : Z) (m : nat) (s : pystr) : nat :=
  match m, s with S m', x :: r => if x =? c then S (run_of c m' r) else O | _, _ => O end.
Definition parse_axis (s : pystr) : option (axis * nat) :=
  let '(rv, n0) := match s with x :: _ => if x =? 45 then (true, 1%nat) else if x =? 43 then (false, 1%nat) else (false, 0%nat)
                              | [] => (false, 0%nat) end in
  let s1 := skipn n0 s in
  let key :=
    match s1 with
    | x :: r =>
      if x =? 46 then Some (match run_of 46 4 s1 with 1%nat => AxSelf | 2%nat => AxParent | 3%nat => AxAncs | _ => AxRoot end, run_of 46 4 s1)
      else if x =? 42 then Some (match run_of 42 3 s1 with 1%nat => AxKids | 2%nat => AxDescs | _ => AxLeaves end, run_of 42 3 s1)
      else if (x =? 62) && match r with y :: _ => y =? 60 | [] => false end then Some (AxDedup, 2%nat)
      else if x =? 60 then Some (match run_of 60 3 s1 with 1%nat => AxPrev | 2%nat => AxPrevs | _ => AxPrec end, run_of 60 3 s1)
      else if x =? 62 then Some (match run_of 62 3 s1 with 1%nat => AxNext | 2%nat => AxNexts | _ => AxFoll end, run_of 62 3 s1)
      else None
    | [] => None
    end in
  match key with
  | None => None
  | Some (k, n1) =>
    let n2 := run_of 33 2 (skipn n1 s1) in
    Some (AX k rv (match n2 with O => OsNo | 1%nat => OsEmpty | _ => OsAlways end), (n0 + n1 + n2)%nat)
  end.

Record phrase := PH { ph_axis : axis; ph_filter : ecf; ph_sub : ecf }.
(** query/_query.py:290-292  EcfTautology *)
Definition tautology : ecf := fun _ _ _ => Ok true.
(** query/_query.py:587-597  Phrase.combined and Phrase.find_all *)
Definition phrase_test (p : phrase) (h : heap) (r : renv) (ec : nat * nat) : res bool :=
  do b <- ph_filter p h r ec; if b then ph_sub p h r ec else Ok false.
Definition phrase_find (p : phrase) (h : heap) (r : renv) (g : gen nat) : gen nat :=
  let y := g_filter (phrase_test p h r) (axis_find h (ph_axis p) g) in (map snd (fst y), snd y).
(** query/_query.py:677-686  Query.find_all *)
Definition query := list phrase.
Definition query_find_all (q : query) (h : heap) (r : renv) (i : nat) : gen nat :=
  fold_left (fun g p => phrase_find p h r g) q ([i], None).
(** query/_query.py:688-694  Query.find *)
Definition query_find (q : query) (h : heap) (r : renv) (i : nat) : res (option nat) := g_next (query_find_all q h r i).

(** query/_query.py:528-531  EcfSubquery._func *)
Definition sub_func (q : query) : ecf :=
  fun h r ec => do o <- query_find q h r (snd ec); Ok (match o with Some _ => true | None => false end).
(** query/_query.py:522, 537-541  _re: the text up to and from the first brace opened
    after an even run of backslashes.  [run]: None inside a run that begins
    before the text. *)
Fixpoint find_curl (s : pystr) (run : option bool) : option nat :=
  match s with
  | [] => None
  | x :: r => if x =? 92 then option_map S (find_curl r (option_map negb run))
              else if (x =? 123) && match run with Some false => true | _ => false end then Some O
              else option_map S (find_curl r (Some false))
  end.
(** query/_query.py:533-562  EcfSubquery.__init__; [parse] is the constructor of
    Query, [bs] says that the text follows a backslash *)
Definition ecf_subquery (E : pyenv) (parse : pystr -> res query) (s : pystr) (bs : bool) : res ecf :=
  match find_curl s (if bs then None else Some false) with
  | None => Err ValueError
  | Some k =>
    let pre := firstn k s in
    let sq := skipn k s in
    if negb (count_unesc 123 false sq =? count_unesc 125 false sq)%nat then Err ValueError
    else do y <- groups 123 125 sq (last pre 0 =? 92) 0 [] (rev pre);
         do ops <- group_ops E true (fst y) (snd y);
         do qs <- map_list (fun g => do q <- parse (removelast (tl (snd g))); Ok (sub_func q)) (fst y) None;
         combined qs (match qs with [] => [] | _ => ops end)
  end.

(** query/_query.py:576-578  while phrase[curl - 1] is an operator, a parenthesis or a space *)
Fixpoint walk_back (s : pystr) (k : nat) : nat :=
  match k with
  | O => O
  | S k' => if mem_char (nth k' s 0) op_chars then walk_back s k' else k
  end.
(** query/_query.py:566-585  Phrase.__init__ *)
Definition parse_phrase (E : pyenv) (parse : pystr -> res query) (p : pystr) : res phrase :=
  match parse_axis p with
  | None => Err ValueError
  | Some (ax, n) =>
    do o <- g_next (find_unescaped (UStr p) [123] (lit "\") (Some (Z.of_nat n)) None);
    let filt s := match py_strip (py_isspace E) s None with [] => Ok tautology | f => ecf_filter E f end in
    match o with
    | None => do f <- filt (skipn n p); Ok (PH ax f tautology)
    | Some z =>
      let curl := Z.to_nat z in
      let k := walk_back p curl in
      do sq <- ecf_subquery E parse (py_strip (py_isspace E) (skipn k p) None)
                 ((k =? curl)%nat && (0 <? k)%nat && (nth (k - 1) p 0 =? 92));
      do f <- filt (firstn (k - n) (skipn n p));
      Ok (PH ax f sq)
    end
  end.

(** query/_query.py:601-629  _split_phrases; [cur] is the current phrase,
    reversed.  Simplification: the phrases found before a dangling escape are
    not yielded first; the constructor raises ValueError either way. *)
Fixpoint split_phrases (s : pystr) (esc : bool) (depth : Z) (cur : pystr) : res (list pystr) :=
  match s with
  | [] => if esc then Err ValueError else Ok [rev cur]
  | c :: r =>
    if esc then split_phrases r false depth (c :: cur)
    else if c =? 92 then split_phrases r true depth (c :: cur)
    else if c =? 123 then split_phrases r false (depth + 1) (c :: cur)
    else if c =? 125 then split_phrases r false (depth - 1) (c :: cur)
    else if (c =? 47) && (depth =? 0) then do l <- split_phrases r false depth []; Ok (rev cur :: l)
    else split_phrases r false depth (c :: cur)
  end.
(** query/_query.py:631-675  Query.__init__ (lines 672-673: str_isprintable is
    any(), see C08).  Sub-queries are texts shorter than the query, so fuel
    len(path) + 1 suffices. *)
Fixpoint parse_query_fuel (E : pyenv) (fuel : nat) (s : pystr) : res query :=
  match fuel with
  | O => Err OutOfFuel
  | S n => if (zlen s =? 0) || negb (existsb (py_isprintable E) s) then Err ValueError
           else do l <- split_phrases s false 0 [];
                map_list (parse_phrase E (parse_query_fuel E n)) l None
  end.
Definition parse_query (E : pyenv) (s : pystr) : res query := parse_query_fuel E (S (length s)) s.

(** ito.py:1356-1374 and query/__init__.py  Ito.find_all, Ito.find: compile the path and run it *)
Definition ito_find_all (E : pyenv) (h : heap) (r : renv) (i : nat) (path : pystr) : gen nat :=
  match parse_query E path with Ok q => query_find_all q h r i | Err e => graise e end.
Definition ito_find (E : pyenv) (h : heap) (r : renv) (i : nat) (path : pystr) : res (option nat) :=
  do q <- parse_query E path; query_find q h r i.

(** str(n) of an int n >= 0 *)
Fixpoint uint_str (u : Decimal.uint) : pystr :=
  match u with
  | Decimal.Nil => []
  | Decimal.D0 u => 48 :: uint_str u | Decimal.D1 u => 49 :: uint_str u | Decimal.D2 u => 50 :: uint_str u
  | Decimal.D3 u => 51 :: uint_str u | Decimal.D4 u => 52 :: uint_str u | Decimal.D5 u => 53 :: uint_str u
  | Decimal.D6 u => 54 :: uint_str u | Decimal.D7 u => 55 :: uint_str u | Decimal.D8 u => 56 :: uint_str u
  | Decimal.D9 u => 57 :: uint_str u
  end.
Definition dec (n : nat) : pystr := uint_str (Nat.to_uint n).
(** next(i for i, c in enumerate(l) if c is x); StopIteration when there is none *)
Fixpoint position (x : nat) (l : list nat) (k : nat) : option nat :=
  match l with [] => None | y :: r => if (y =? x)%nat then Some k else position x r (S k) end.
(** ito.py:401-407  Ito.path.  StopIteration is rendered as ValueError: it cannot
    happen, a child is in its parent's list (C19). Fuel: as for get_root. *)
Fixpoint path_fuel (fuel : nat) (h : heap) (i : nat) : res pystr :=
  match fuel with
  | O => Err RecursionError
  | S n => match n_par (nd h i) with
           | None => Ok (lit ".")
           | Some p => match position i (n_kids (nd h p)) 0 with
                       | None => Err ValueError
                       | Some k => do s <- path_fuel n h p; Ok (s ++ lit "/*[i:" ++ dec k ++ lit "]")
                       end
           end
  end.
Definition ito_path (h : heap) (i : nat) : res pystr := path_fuel (depth_fuel h) h i.
