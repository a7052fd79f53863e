(** Model of the object graph: Itos are nodes of a heap, identified by their
    index; ._parent and ._children are fields.  Operations return the heap also
    when they raise, so that what a failing call leaves behind is visible. *)
From Verif Require Export SpecStr.

(** ito.py:71-96  the fields of an Ito object: data, ._parent, and the
    ._ChildItos__store of ._children (ito.py:1408-1412) *)
Record node := Nd { n_f : fito; n_par : option nat; n_kids : list nat }.
Definition heap := list node.
Definition dnode : node := Nd (FI [] 0 0 None None) None [].
(** the object with identity i (all ids used by a well-formed heap exist) *)
Definition nd (h : heap) (i : nat) : node := nth i h dnode.
Definition h_start h i := f_start (n_f (nd h i)).
Definition h_stop h i := f_stop (n_f (nd h i)).
Definition h_string h i := f_str (n_f (nd h i)).

Fixpoint upd (h : heap) (i : nat) (f : node -> node) : heap :=
  match h, i with
  | [], _ => []
  | x :: h', O => f x :: h'
  | x :: h', S i' => x :: upd h' i' f
  end.
Definition set_par (h : heap) (c : nat) (p : option nat) : heap :=
  upd h c (fun n => Nd (n_f n) p (n_kids n)).
Definition set_kids (h : heap) (p : nat) (ks : list nat) : heap :=
  upd h p (fun n => Nd (n_f n) (n_par n) ks).

Definition insert_at {A} (i : nat) (x : A) (l : list A) : list A := firstn i l ++ x :: skipn i l.

(** the result of a method: the heap afterwards and a value or an exception *)
Definition out (A : Type) := (heap * res A)%type.
Definition obind {A B} (x : out A) (f : heap -> A -> out B) : out B :=
  match snd x with Ok a => f (fst x) a | Err e => (fst x, Err e) end.

(** -- bisect --------------------------------------------------------------- *)

(** CPython Lib/bisect.py bisect_left (the interval lo, hi halves each time) *)
Fixpoint bisect_left (fuel : nat) (key : nat -> Z) (x : Z) (lo hi : nat) : nat :=
  match fuel with
  | O => lo
  | S n => if (lo <? hi)%nat
           then let mid := ((lo + hi) / 2)%nat in
                if key mid <? x then bisect_left n key x (mid + 1) hi
                else bisect_left n key x lo mid
           else lo
  end.
(** CPython Lib/bisect.py bisect_right *)
Fixpoint bisect_right (fuel : nat) (key : nat -> Z) (x : Z) (lo hi : nat) : nat :=
  match fuel with
  | O => lo
  | S n => if (lo <? hi)%nat
           then let mid := ((lo + hi) / 2)%nat in
                if x <? key mid then bisect_right n key x lo mid
                else bisect_right n key x (mid + 1) hi
           else lo
  end.
Definition key_at (keys : list Z) (i : nat) : Z := nth i keys 0.
(** ito.py:1416-1421  __bfind_start: (True, i) for "found at i", (False, i) for ~i.
    [starts] are the .start of the store, [x] is ito.start *)
Definition bfind_start (starts : list Z) (x : Z) : bool * nat :=
  let i := bisect_left (S (length starts)) (key_at starts) x 0 (length starts) in
  if (i =? length starts)%nat || negb (key_at starts i =? x) then (false, i) else (true, i).
(** ito.py:1423-1428  __bfind_stop *)
Definition bfind_stop (stops : list Z) (x : Z) : bool * nat :=
  let i := bisect_right (S (length stops)) (key_at stops) x 0 (length stops) in
  if (i =? length stops)%nat || negb (key_at stops i =? x) then (false, i) else (true, i).
(** ito.py:1430-1447  __ensure_between(ito, i, i): True = does not raise.
    [a], [b] are ito.start, ito.stop *)
Definition between_ok (starts stops : list Z) (i : nat) (a b : Z) : bool :=
  negb (negb (i =? 0)%nat && negb (length starts =? 0)%nat && (a <? key_at stops (i - 1)))
  && negb (negb (i =? length starts)%nat && (key_at starts i <? b)).

Definition starts_of (h : heap) (ks : list nat) : list Z := map (h_start h) ks.
Definition stops_of (h : heap) (ks : list nat) : list Z := map (h_stop h) ks.

(** -- children ------------------------------------------------------------- *)

(** ito.py:370-377  Ito._set_parent: the checks *)
Definition set_parent_ok (h : heap) (c p : nat) : bool :=
  if negb (eqb_str (h_string h c) (h_string h p)) then false
  else if (h_start h c <? h_start h p) || (h_stop h p <? h_stop h c) then false
  else negb (c =? p)%nat.

(** ito.py:1533-1544  one iteration of ChildItos.add *)
Definition kids_add1 (h : heap) (p c : nat) : out unit :=
  match n_par (nd h c) with
  | Some _ => (h, Err ValueError)
  | None =>
    let ks := n_kids (nd h p) in
    let starts := starts_of h ks in
    let stops := stops_of h ks in
    let (found, i) := bfind_start starts (h_start h c) in
    if found then (h, Err ValueError)
    else if negb (between_ok starts stops i (h_start h c) (h_stop h c)) then (h, Err ValueError)
    else if negb (set_parent_ok h c p) then (h, Err ValueError)
    else let h1 := set_par h c (Some p) in
         (set_kids h1 p (insert_at i c (n_kids (nd h1 p))), Ok tt)
  end.
(** ito.py:1532-1544  ChildItos.add( *itos ): stops at the first exception *)
Fixpoint kids_add (h : heap) (p : nat) (cs : list nat) : out unit :=
  match cs with
  | [] => (h, Ok tt)
  | c :: cs' => obind (kids_add1 h p c) (fun h1 _ => kids_add h1 p cs')
  end.

(** CPython PySlice_AdjustIndices + the positions a slice selects *)
Definition slice_bounds (n : Z) (a b : option Z) (step : Z) : Z * Z :=
  let lo := if step <? 0 then -1 else 0 in
  let hi := if step <? 0 then n - 1 else n in
  let clamp v := if v <? 0 then (let w := v + n in if w <? 0 then lo else w)
                 else if n <=? v then hi else v in
  (match a with Some v => clamp v | None => if step <? 0 then hi else lo end,
   match b with Some v => clamp v | None => if step <? 0 then lo else hi end).
Fixpoint slice_run (fuel : nat) (i stop step : Z) : list nat :=
  match fuel with
  | O => []
  | S f => if (if step <? 0 then stop <? i else i <? stop)
           then Z.to_nat i :: slice_run f (i + step) stop step
           else []
  end.
Definition slice_positions (n : nat) (a b step : option Z) : res (list nat) :=
  let st := odflt step 1 in
  if st =? 0 then Err ValueError
  else let (i, j) := slice_bounds (Z.of_nat n) a b st in Ok (slice_run n i j st).

Definition clear_pars (h : heap) (cs : list nat) : heap := fold_left (fun h c => set_par h c None) cs h.
(** the elements of l whose position is not in [pos] *)
Fixpoint drop_positions {A} (k : nat) (pos : list nat) (l : list A) : list A :=
  match l with
  | [] => []
  | x :: l' => if existsb (Nat.eqb k) pos then drop_positions (S k) pos l'
               else x :: drop_positions (S k) pos l'
  end.
(** ito.py:1478-1481  the body of __delitem__ for the selected positions *)
Definition kids_del_at (h : heap) (p : nat) (pos : list nat) : heap :=
  let ks := n_kids (nd h p) in
  let h1 := clear_pars h (map (fun k => nth k ks 0%nat) pos) in
  set_kids h1 p (drop_positions 0 pos (n_kids (nd h1 p))).
(** list index with Python semantics, as a position *)
Definition py_pos (n : nat) (k : Z) : res nat :=
  let k' := if k <? 0 then k + Z.of_nat n else k in
  if (0 <=? k') && (k' <? Z.of_nat n) then Ok (Z.to_nat k') else Err IndexError.
(** ito.py:1475-1481  ChildItos.__delitem__(int) *)
Definition kids_del_int (h : heap) (p : nat) (k : Z) : out unit :=
  match py_pos (length (n_kids (nd h p))) k with
  | Ok i => (kids_del_at h p [i], Ok tt)
  | Err e => (h, Err e)
  end.
(** ito.py:1475-1481  ChildItos.__delitem__(slice) *)
Definition kids_del_slice (h : heap) (p : nat) (a b step : option Z) : out unit :=
  match slice_positions (length (n_kids (nd h p))) a b step with
  | Ok pos => (kids_del_at h p pos, Ok tt)
  | Err e => (h, Err e)
  end.
(** ito.py:1453-1454  ChildItos.__contains__ *)
Definition kids_contains (h : heap) (p c : nat) : bool :=
  fst (bfind_start (starts_of h (n_kids (nd h p))) (h_start h c)).
(** ito.py:1483-1488  ChildItos.remove *)
Definition kids_remove (h : heap) (p c : nat) : out unit :=
  let ks := n_kids (nd h p) in
  let (found, i) := bfind_start (starts_of h ks) (h_start h c) in
  if found && (nth i ks 0 =? c)%nat then kids_del_int h p (Z.of_nat i) else (h, Err ValueError).
(** ito.py:1490-1493  ChildItos.pop *)
Definition kids_pop (h : heap) (p : nat) (k : Z) : out nat :=
  match py_pos (length (n_kids (nd h p))) k with
  | Ok i => obind (kids_del_int h p k) (fun h1 _ => (h1, Ok (nth i (n_kids (nd h p)) 0%nat)))
  | Err e => (h, Err e)
  end.
(** ito.py:1495-1496  ChildItos.clear *)
Definition kids_clear (h : heap) (p : nat) : out unit := kids_del_slice h p None None None.

(** ito.py:1508-1510 and 1521-1524  check, set the parent, insert at [i].  An
    [i] beyond the end (possible with a negative slice step) makes
    self.__store[i-1] or self.__store[i] raise IndexError. *)
Definition kids_put (h : heap) (p : nat) (i : nat) (c : nat) : out unit :=
  let ks := n_kids (nd h p) in
  if (length ks <? i)%nat then (h, Err IndexError)
  else if negb (between_ok (starts_of h ks) (stops_of h ks) i (h_start h c) (h_stop h c)) then (h, Err ValueError)
  else if negb (set_parent_ok h c p) then (h, Err ValueError)
  else let h1 := set_par h c (Some p) in
       (set_kids h1 p (insert_at i c (n_kids (nd h1 p))), Ok tt).
(** ito.py:1503-1510  ChildItos.__setitem__(int, Ito) *)
Definition kids_set_int (h : heap) (p : nat) (k : Z) (c : nat) : out unit :=
  let start := fst (from_indices (Z.of_nat (length (n_kids (nd h p)))) (Some k) None) in
  obind (kids_del_int h p start) (fun h1 _ => kids_put h1 p (Z.to_nat start) c).
Fixpoint kids_put_all (h : heap) (p : nat) (i : nat) (cs : list nat) : out unit :=
  match cs with
  | [] => (h, Ok tt)
  | c :: cs' => obind (kids_put h p i c) (fun h1 _ => kids_put_all h1 p (S i) cs')
  end.
(** ito.py:1513-1525  ChildItos.__setitem__(slice, itos) *)
Definition kids_set_slice (h : heap) (p : nat) (a b step : option Z) (cs : list nat) : out unit :=
  let start := fst (from_indices (Z.of_nat (length (n_kids (nd h p)))) a b) in
  obind (kids_del_slice h p a b step) (fun h1 _ => kids_put_all h1 p (Z.to_nat start) cs).

(** -- objects -------------------------------------------------------------- *)

(** ito.py:71-96  a new object without parent and children *)
Definition new_node (h : heap) (f : fito) : out nat := (h ++ [Nd f None []], Ok (length h)).
(** ito.py:71-96  Ito(src: str, start, stop, desc) *)
Definition new_str h s a b d : out nat := new_node h (ito_of_str s a b d).
(** ito.py:71-96  Ito(src: Ito, start, stop, desc) *)
Definition new_sub h (i : nat) a b d : out nat :=
  match ito_of_ito (n_f (nd h i)) a b d with
  | Ok f => new_node h f
  | Err e => (h, Err e)
  end.

(** ito.py:317-337  Ito.clone(start, stop, desc, clone_children).  The argument
    generator of add( *(...) ) is run to its end before add starts.  [fuel] bounds the
    recursion depth; Python recursion on a cyclic graph ends in RecursionError.
    [map_clone] is (c.clone() for c in self._children). *)
Definition map_clone (cl : heap -> nat -> out nat) : heap -> list nat -> out (list nat) :=
  fix go (h : heap) (l : list nat) : out (list nat) :=
    match l with
    | [] => (h, Ok [])
    | c :: l' => obind (cl h c) (fun h1 c' => obind (go h1 l') (fun h2 cs' => (h2, Ok (c' :: cs'))))
    end.
Fixpoint clone_h (fuel : nat) (h : heap) (i : nat) (start stop : option Z)
         (desc : option (option pystr)) (kids : bool) : out nat :=
  match fuel with
  | O => (h, Err RecursionError)
  | S n =>
    obind (new_node h (clone_f (n_f (nd h i)) start stop desc)) (fun h1 rv =>
      if kids
      then obind (map_clone (fun h c => clone_h n h c None None None true) h1 (n_kids (nd h i)))
             (fun h2 cs => obind (kids_add h2 rv cs) (fun h3 _ => (h3, Ok rv)))
      else (h1, Ok rv))
  end.

(** ito.py:1321-1325  Ito.get_root; the while loop runs on fuel *)
Fixpoint get_root (fuel : nat) (h : heap) (i : nat) : res nat :=
  match fuel with
  | O => Err OutOfFuel
  | S n => match n_par (nd h i) with Some p => get_root n h p | None => Ok i end
  end.
(** ito.py:1342-1347  Ito.descends_from (ancestor is an Ito) *)
Fixpoint descends_from (fuel : nat) (h : heap) (i a : nat) : res bool :=
  match fuel with
  | O => Err OutOfFuel
  | S n => match n_par (nd h i) with
           | Some p => if (p =? a)%nat then Ok true else descends_from n h p a
           | None => Ok false
           end
  end.
(** ito.py:1349-1350  Ito.has_descendant *)
Definition has_descendant fuel h (i d : nat) : res bool := descends_from fuel h d i.

(** ito.py:1327-1333  Ito.walk_descendants_levels *)
Fixpoint walk_levels (fuel : nat) (h : heap) (i : nat) (level : Z) (reverse : bool) : res (list (Z * nat)) :=
  match fuel with
  | O => Err RecursionError
  | S n =>
    (fix go (l : list nat) : res (list (Z * nat)) :=
       match l with
       | [] => Ok []
       | c :: l' => do w <- walk_levels n h c (level + 1) reverse;
                    do r <- go l';
                    Ok ((if reverse then w ++ [(level, c)] else (level, c) :: w) ++ r)
       end) (if reverse then rev (n_kids (nd h i)) else n_kids (nd h i))
  end.

(** -- histories ------------------------------------------------------------ *)

(** the calls a program can make on a forest of Itos (ids name objects) *)
Inductive op :=
| ONew (s : pystr) (a b : option Z) (d : option pystr)
| OSub (i : nat) (a b : option Z) (d : option pystr)
| OClone (i : nat) (a b : option Z) (d : option (option pystr)) (kids : bool)
| ODesc (i : nat) (d : option pystr)
| OValueFunc (i : nat) (f : option Z)
| OAdd (p : nat) (cs : list nat)
| ORemove (p c : nat)
| OPop (p : nat) (k : Z)
| ODelInt (p : nat) (k : Z)
| ODelSlice (p : nat) (a b step : option Z)
| OClear (p : nat).

(** fuel for the recursion of clone: deeper than any acyclic tree of the heap *)
Definition depth_fuel (h : heap) : nat := S (length h).

Definition upd_f (h : heap) (i : nat) (g : fito -> fito) : heap :=
  upd h i (fun n => Nd (g (n_f n)) (n_par n) (n_kids n)).

(** one call; an id that names no object cannot occur in a Python program and
    is ignored *)
Definition ids_of (o : op) : list nat :=
  match o with
  | ONew _ _ _ _ => []
  | OSub i _ _ _ | OClone i _ _ _ _ | ODesc i _ | OValueFunc i _ => [i]
  | OAdd p cs => p :: cs
  | ORemove p c => [p; c]
  | OPop p _ | ODelInt p _ | ODelSlice p _ _ _ | OClear p => [p]
  end.
Definition exec (h : heap) (o : op) : heap :=
  match o with
  | ONew s a b d => fst (new_str h s a b d)
  | OSub i a b d => fst (new_sub h i a b d)
  | OClone i a b d k => fst (clone_h (depth_fuel h) h i a b d k)
  | ODesc i d => upd_f h i (fun f => FI (f_str f) (f_start f) (f_stop f) d (f_vf f))
  | OValueFunc i v => upd_f h i (fun f => FI (f_str f) (f_start f) (f_stop f) (f_desc f) v)
  | OAdd p cs => fst (kids_add h p cs)
  | ORemove p c => fst (kids_remove h p c)
  | OPop p k => fst (kids_pop h p k)
  | ODelInt p k => fst (kids_del_int h p k)
  | ODelSlice p a b st => fst (kids_del_slice h p a b st)
  | OClear p => fst (kids_clear h p)
  end.
Definition step (h : heap) (o : op) : heap :=
  if forallb (fun i => (i <? length h)%nat) (ids_of o) then exec h o else h.
Definition run (h : heap) (os : list op) : heap := fold_left step os h.
