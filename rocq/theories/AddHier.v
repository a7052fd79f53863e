(** Model of ChildItos.add_hierarchical, on the heap (what a failing call leaves
    behind is visible) and on trees as values. *)
From Verif Require Export Tree.

(** what ito.py:1567-1615 decides to do with ito, given the .start and .stop of
    the store and ito's span (a, b): recurse into store[i], raise, or take
    store[i:j] as children and sit at position i (i = j: plain insert) *)
Inductive action := ARec (i : nat) | AErr | AWrap (i j : nat).

(** ito.py:1584-1609  from the search for the stop on.  [deeper i] is
    "key is None or key(ito) >= key(store[i])" (line 1607).  bfind_stop never
    finds (proved in HierFacts), line 1585-1586 is kept nevertheless. *)
Definition hier_rest (starts stops : list Z) (a b : Z) (deeper : nat -> bool) (i : nat) : action :=
  let (fj, j) := bfind_stop stops b in
  if negb fj && (0 <? j)%nat && ((key_at starts (j - 1) <? a) && (a <? key_at stops (j - 1))) then AErr
  else if negb fj && (j <? length starts)%nat && ((a <? key_at starts j) && (key_at starts j <? b)) then AErr
  else if (i =? j)%nat then AWrap i j
  else if (j =? S i)%nat && ((a =? key_at starts i) && (b =? key_at stops i)) && deeper i then ARec i
  else AWrap i j.
(** ito.py:1567-1582  the search for the start *)
Definition hier_action (starts stops : list Z) (a b : Z) (deeper : nat -> bool) : action :=
  let (found, i) := bfind_start starts a in
  if found then
    if b <? key_at stops i then ARec i else hier_rest starts stops a b deeper i
  else if (0 <? i)%nat then
    if b <=? key_at stops (i - 1) then ARec (i - 1)
    else if a <? key_at stops (i - 1) then AErr
    else hier_rest starts stops a b deeper i
  else hier_rest starts stops a b deeper i.

(** the key argument: an Ito to something ordered; here a function of the
    object's data to Z (simplification: keys that look at children or identity
    are not modelled) *)
Definition hkey := option (fito -> Z).
Definition key_deeper (key : hkey) (c k : fito) : bool :=
  match key with None => true | Some f => f k <=? f c end.

(** ito.py:1546-1615  one iteration of add_hierarchical: p.children takes c *)
Fixpoint add_hier1 (fuel : nat) (key : hkey) (h : heap) (p c : nat) : out unit :=
  match fuel with
  | O => (h, Err RecursionError)
  | S n =>
    match n_par (nd h c) with
    | Some _ => (h, Err ValueError)                                             (* 1555-1556 *)
    | None =>
      match n_kids (nd h p) with
      | [] => if set_parent_ok h c p                                            (* 1558-1561 *)
              then (set_kids (set_par h c (Some p)) p (n_kids (nd h p) ++ [c]), Ok tt)
              else (h, Err ValueError)
      | _ =>
        obind
          ((fix flat (m : nat) (h : heap) : out unit :=                         (* 1563-1565 *)
              match n_kids (nd h c), m with
              | [], _ => (h, Ok tt)
              | _, O => (h, Err OutOfFuel)
              | _, S m' => obind (kids_pop h c (-1)) (fun h1 d =>
                             obind (add_hier1 n key h1 p d) (fun h2 _ => flat m' h2))
              end) (length (n_kids (nd h c))) h)
          (fun h _ =>
             let ks := n_kids (nd h p) in
             match hier_action (starts_of h ks) (stops_of h ks) (h_start h c) (h_stop h c)
                     (fun i => key_deeper key (n_f (nd h c)) (n_f (nd h (nth i ks 0%nat)))) with
             | AErr => (h, Err ValueError)
             | ARec i => add_hier1 n key h (nth i ks 0%nat) c                    (* 1571, 1578, 1608 *)
             | AWrap i j =>
               obind (if (i =? j)%nat then (h, Ok tt)
                      else obind (kids_del_slice h p (Some (Z.of_nat i)) (Some (Z.of_nat j)) None) (fun h1 _ =>
                             kids_add h1 c (firstn (j - i) (skipn i ks))))       (* 1611-1613 *)
                 (fun h1 _ =>
                    let h2 := set_kids h1 p (insert_at i c (n_kids (nd h1 p))) in (* 1599, 1614 *)
                    if set_parent_ok h2 c p then (set_par h2 c (Some p), Ok tt)  (* 1600, 1615 *)
                    else (h2, Err ValueError))
             end)
      end
    end
  end.
(** ito.py:1546-1615  add_hierarchical( *itos, key=key ) *)
Fixpoint add_hier (fuel : nat) (key : hkey) (h : heap) (p : nat) (cs : list nat) : out unit :=
  match cs with
  | [] => (h, Ok tt)
  | c :: cs' => obind (add_hier1 fuel key h p c) (fun h1 _ => add_hier fuel key h1 p cs')
  end.

(** ** the same algorithm on trees as values: [hadd key pf ks c] is the new list
    of children of a node with data [pf] and children [ks] after adding [c] *)
Definition f_fits_b (c p : fito) : bool :=
  eqb_str (f_str c) (f_str p) && negb ((f_start c <? f_start p) || (f_stop p <? f_stop c)).
Definition dtree : tree := T (FI [] 0 0 None None) [].
(** ito.py:1567-1615 for an ito without children *)
Definition hplace (rec : fito -> list tree -> fito -> res (list tree)) (key : hkey) (pf : fito) (ks : list tree) (f : fito) : res (list tree) :=
  match hier_action (map t_start ks) (map t_stop ks) (f_start f) (f_stop f)
          (fun i => key_deeper key f (t_f (nth i ks dtree))) with
  | AErr => Err ValueError
  | ARec i => let k := nth i ks dtree in
              do ks' <- rec (t_f k) (t_kids k) f;
              Ok (firstn i ks ++ T (t_f k) ks' :: skipn (S i) ks)
  | AWrap i j => if forallb (fun k => f_fits_b (t_f k) f) (firstn (j - i) (skipn i ks)) && f_fits_b f pf
                 then Ok (firstn i ks ++ T f (firstn (j - i) (skipn i ks)) :: skipn j ks)
                 else Err ValueError
  end.
(** add each of [ds] in turn *)
Definition hfold (add : list tree -> tree -> res (list tree)) : list tree -> list tree -> res (list tree) :=
  fix go (ds : list tree) (ks : list tree) : res (list tree) :=
    match ds with
    | [] => Ok ks
    | d :: ds' => do ks' <- add ks d; go ds' ks'
    end.
(** ito.py:1546-1615 *)
Fixpoint hadd (fuel : nat) (key : hkey) (pf : fito) (ks : list tree) (c : tree) : res (list tree) :=
  match fuel with
  | O => Err RecursionError
  | S n =>
    match ks with
    | [] => if f_fits_b (t_f c) pf then Ok [c] else Err ValueError
    | _ => do ks1 <- hfold (fun ks d => hadd n key pf ks d) (rev (t_kids c)) ks;
           hplace (fun kf kk f => hadd n key kf kk (T f [])) key pf ks1 (t_f c)
    end
  end.
(** fuel that is always enough (proved in HierFacts) *)
Definition sizes (ts : list tree) : nat := list_sum (map t_size ts).
Definition hfuel (ks : list tree) (c : tree) : nat := S (t_size c + sizes ks).
Definition add_hierarchical (key : hkey) (pf : fito) (ks : list tree) (c : tree) : res (list tree) :=
  hadd (hfuel ks c) key pf ks c.
(** several arguments *)
Definition add_hierarchical_all (key : hkey) (pf : fito) (ks : list tree) (cs : list tree) : res (list tree) :=
  hfold (add_hierarchical key pf) cs ks.
