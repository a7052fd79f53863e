(** Model of pawpaw/util.py and of escape / descape in pawpaw/query/_query.py. *)
From Verif Require Export ItoStr.

(** A generator run to its end: everything it yields, then the exception it
    raises, if any. *)
Definition gen (A : Type) := (list A * option exn)%type.
Definition graise {A} (e : exn) : gen A := ([], Some e).
Definition gyield {A} (x : A) (g : gen A) : gen A := (x :: fst g, snd g).

(** the src parameter: str | Ito *)
Inductive usrc := UStr (s : pystr) | UIto (i : fito).
(** util.py:14-19  s, offset; len(src) as used by Span.from_indices *)
Definition u_string (u : usrc) : pystr := match u with UStr s => s | UIto i => f_str i end.
Definition u_offset (u : usrc) : Z := match u with UStr _ => 0 | UIto i => f_start i end.
Definition u_len (u : usrc) : Z := match u with UStr s => zlen s | UIto i => ito_len i end.
(** src[a:b]; for an Ito this is Ito.__getitem__ *)
Definition u_slice (u : usrc) (a b : option Z) : res usrc :=
  match u with
  | UStr s => Ok (UStr (py_slice s a b))
  | UIto i => do r <- getitem_slice i a b None; Ok (UIto (deref i r))
  end.

(** util.py:31-37  the loop of find_escapes *)
Fixpoint escapes_loop (s : pystr) (e : Z) (idx : list Z) (esc : bool) : list Z :=
  match idx with
  | [] => []
  | i :: r => let c := odflt (zget s i) 0 in
              if c =? e then escapes_loop s e r (negb esc)
              else if esc then (i - 1) :: escapes_loop s e r false
              else escapes_loop s e r esc
  end.
(** util.py:8-37  find_escapes *)
Definition find_escapes (u : usrc) (escape : pystr) (a b : option Z) : gen Z :=
  match offset (from_indices (u_len u) a b) (u_offset u) with
  | Err e => graise e
  | Ok sp => match escape with
             | [e] => (escapes_loop (u_string u) e (zrange (fst sp) (snd sp)) false, None)
             | _ => graise ValueError
             end
  end.

(** util.py:66-76  the loop of find_unescaped: what it yields and the final esc *)
Fixpoint unesc_loop (s : pystr) (off : Z) (chars : pystr) (e : Z) (idx : list Z) (esc : bool) : list Z * bool :=
  match idx with
  | [] => ([], esc)
  | i :: r => let c := odflt (zget s i) 0 in
              if esc then unesc_loop s off chars e r false
              else if c =? e then unesc_loop s off chars e r true
              else let (ys, f) := unesc_loop s off chars e r esc in
                   if mem_char c chars then (i - off :: ys, f) else (ys, f)
  end.
(** util.py:40-79  find_unescaped *)
Definition find_unescaped (u : usrc) (chars escape : pystr) (a b : option Z) : gen Z :=
  match offset (from_indices (u_len u) a b) (u_offset u) with
  | Err e => graise e
  | Ok sp =>
    match chars with
    | [] => graise ValueError
    | _ => match escape with
           | [e] => let (ys, esc) := unesc_loop (u_string u) (u_offset u) chars e (zrange (fst sp) (snd sp)) false in
                    (ys, if esc then Some ValueError else None)
           | _ => graise ValueError
           end
    end
  end.

(** util.py:89-93  the loop of split_unescaped over what find_unescaped yields
    ([err]: how find_unescaped ends) *)
Fixpoint usplit_loop (u : usrc) (cur : Z) (ys : list Z) (err : option exn) : gen usrc :=
  match ys with
  | [] => match err with
          | Some e => graise e
          | None => match u_slice u (Some cur) None with Ok p => ([p], None) | Err e => graise e end
          end
  | i :: r => match u_slice u (Some cur) (Some i) with
              | Ok p => gyield p (usplit_loop u (i + 1) r err)
              | Err e => graise e
              end
  end.
(** util.py:82-93  split_unescaped *)
Definition split_unescaped (u : usrc) (char escape : pystr) (a b : option Z) : gen usrc :=
  let (ys, err) := find_unescaped u char escape a b in usplit_loop u 0 ys err.

(** util.py:124-140  the loop of find_balanced; [lefts] is the stack, top first.
    It yields the bounds (l, i + 1) of the slices. *)
Fixpoint bal_loop (s : pystr) (off : Z) (l r : Z) (ys : list Z) (err : option exn) (lefts : list Z) : gen (Z * Z) :=
  match ys with
  | [] => match err with
          | Some e => graise e
          | None => match lefts with [] => ([], None) | _ => graise ValueError end
          end
  | i :: t =>
    let c := odflt (zget s (off + i)) 0 in
    if (c =? l) && (negb (l =? r) || match lefts with [] => true | _ => false end)
    then bal_loop s off l r t err (i :: lefts)
    else match lefts with
         | [] => graise ValueError
         | [p] => gyield (p, i + 1) (bal_loop s off l r t err [])
         | _ :: lefts' => bal_loop s off l r t err lefts'
         end
  end.
(** the generator that slices src at the given bounds *)
Fixpoint slice_all (u : usrc) (ps : list (Z * Z)) (err : option exn) : gen usrc :=
  match ps with
  | [] => ([], err)
  | (a, b) :: t => match u_slice u (Some a) (Some b) with
                   | Ok p => gyield p (slice_all u t err)
                   | Err e => graise e
                   end
  end.
(** util.py:96-140  find_balanced.  lchar and rchar may be Itos: the model takes
    their text. *)
Definition find_balanced (u : usrc) (lchar rchar escape : pystr) (a b : option Z) : gen usrc :=
  match lchar, rchar with
  | [l], [r] => let (ys, err) := find_unescaped u [l; r] escape a b in
                let (ps, err') := bal_loop (u_string u) (u_offset u) l r ys err [] in
                slice_all u ps err'
  | _, _ => graise ValueError
  end.

(** str.replace(c, r) for a one-character c *)
Definition py_replace_char (c : Z) (r : pystr) (s : pystr) : pystr :=
  flat_map (fun x => if x =? c then r else [x]) s.
(** query/_query.py:33  MUST_ESCAPE_CHARS *)
Definition must_escape : list Z := lit "\[]/,{}".
(** query/_query.py:61-65  escape *)
Definition escape (v : pystr) : pystr :=
  fold_left (fun rv c => py_replace_char c [92; c] rv) (filter (fun c => negb (c =? 92)) must_escape)
            (py_replace_char 92 [92; 92] v).
(** query/_query.py:68-81  descape *)
Fixpoint descape_loop (v : pystr) (rv : pystr) (esc : bool) : res pystr :=
  match v with
  | [] => if esc then Err ValueError else Ok rv
  | c :: v' => if esc || negb (c =? 92) then descape_loop v' (rv ++ [c]) false
               else descape_loop v' rv true
  end.
Definition descape (v : pystr) : res pystr := descape_loop v [] false.
