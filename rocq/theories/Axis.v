(** Model of pawpaw/query/_query.py class Axis: navigation from nodes to nodes.
    Nothing here changes the heap. *)
From Verif Require Export Combin.

(** query/_query.py:85  the axis keys, in the order of the pattern *)
Inductive axkey :=
| AxRoot      (* ....  *)
| AxAncs      (* ...   *)
| AxParent    (* ..    *)
| AxSelf      (* .     *)
| AxDedup     (* ><    *)
| AxKids      (* *     *)
| AxDescs     (* * *   *)
| AxLeaves    (* * * * *)
| AxPrec      (* <<<   *)
| AxPrevs     (* <<    *)
| AxPrev      (* <     *)
| AxNext      (* >     *)
| AxNexts     (* >>    *)
| AxFoll.     (* >>>   *)
(** query/_query.py:85, 100  or_self: nothing, ! or !! *)
Inductive orself := OsNo | OsEmpty | OsAlways.
(** query/_query.py:87-104  an Axis after parsing; ax_rev is order == '-' *)
Record axis := AX { ax_key : axkey; ax_rev : bool; ax_self : orself }.

(** enumerate *)
Definition number {A} (l : list A) : list (nat * A) := combine (seq 0 (length l)) l.
(** for x in g: yield from f(x) *)
Fixpoint gflat {A B} (l : list A) (f : A -> gen B) (err : option exn) : gen B :=
  match l with
  | [] => ([], err)
  | x :: r => match f x with
              | (ys, None) => let (zs, e) := gflat r f err in (ys ++ zs, e)
              | (ys, Some e) => (ys, Some e)
              end
  end.
Definition gbind {A B} (g : gen A) (f : A -> gen B) : gen B := gflat (fst g) f (snd g).
Definition gen_of_res {A} (r : res (list A)) : gen A :=
  match r with Ok l => (l, None) | Err e => graise e end.

(** query/_query.py:106-141  to_ecs; [o] is or_self_ito *)
Definition to_ecs (a : axis) (g : gen nat) (o : option nat) : gen (nat * nat) :=
  let (itos, err) := g in
  let ys := match ax_self a, ax_rev a, o with
            | OsAlways, false, Some s =>                                       (* 115-126 *)
              match itos with
              | [] => []
              | first :: rest => s :: (if (first =? s)%nat then rest else first :: rest)
              end
            | _, _, _ => itos
            end in
  match err with
  | Some e => (number ys, Some e)
  | None => let ys' := match ys with
                       | [] => match ax_self a, o with                         (* 134-136 *)
                               | OsNo, _ | _, None => []
                               | _, Some s => [s]
                               end
                       | _ => match ax_self a, ax_rev a, o with                (* 138-139 *)
                              | OsAlways, true, Some s => ys ++ [s]
                              | _, _, _ => ys
                              end
                       end in
            (number ys', None)
  end.

(** query/_query.py:156-158  while (cur := cur.parent) is not None (also 146-150);
    the loop runs on fuel *)
Fixpoint anc_list (fuel : nat) (h : heap) (i : nat) : res (list nat) :=
  match fuel with
  | O => Err OutOfFuel
  | S n => match n_par (nd h i) with
           | None => Ok []
           | Some p => do l <- anc_list n h p; Ok (p :: l)
           end
  end.
(** ito.py:1335-1336  walk_descendants.  Simplification: where Python's recursion
    limit is hit (only on a cyclic graph or an extremely deep tree) the model
    raises before the first node instead of after some. *)
Definition walk (h : heap) (i : nat) (reverse : bool) : gen nat :=
  gen_of_res (do l <- walk_levels (depth_fuel h) h i 0 reverse; Ok (map snd l)).
(** ito.py:531-553  == between nodes of one class (identity or equal keys) *)
Definition node_eqb (h : heap) (a b : nat) : bool := (a =? b)%nat || key_eqb (n_f (nd h a)) (n_f (nd h b)).
(** collections.abc.Sequence.index on ChildItos: the first element that is or equals i *)
Fixpoint seq_index (h : heap) (i : nat) (k : nat) (ks : list nat) : res nat :=
  match ks with
  | [] => Err ValueError
  | c :: r => if node_eqb h c i then Ok k else seq_index h i (S k) r
  end.
Fixpoint take_while_l {A} (f : A -> bool) (l : list A) : list A :=
  match l with [] => [] | x :: r => if f x then x :: take_while_l f r else [] end.
Fixpoint drop_while_l {A} (f : A -> bool) (l : list A) : list A :=
  match l with [] => [] | x :: r => if f x then drop_while_l f r else l end.
(** list(dict.fromkeys(itos)): the first of each class of equal nodes *)
Fixpoint dedup (h : heap) (seen l : list nat) : list nat :=
  match l with
  | [] => []
  | x :: r => if existsb (fun y => node_eqb h y x) seen then dedup h seen r else x :: dedup h (x :: seen) r
  end.
(** itertools on a generator that may raise *)
Definition gmap {A} (f : list A -> list A) (g : gen A) : gen A := (f (fst g), snd g).

(** one iteration of the loops of find_all (query/_query.py:143-266): what the
    axis finds from the single node i, before to_ecs *)
Definition axis_of (h : heap) (k : axkey) (reverse : bool) (i : nat) : gen nat :=
  let sib (f : list nat -> nat -> list nat) :=
    match n_par (nd h i) with
    | None => ([], None)
    | Some p => let ks := n_kids (nd h p) in
                match seq_index h i 0 ks with Ok idx => (f ks idx, None) | Err e => graise e end
    end in
  match k with
  | AxRoot => gen_of_res (do l <- anc_list (depth_fuel h) h i; Ok (match rev l with [] => [] | r :: _ => [r] end))  (* 145-152 *)
  | AxAncs => gen_of_res (do l <- anc_list (depth_fuel h) h i; Ok (if reverse then rev l else l))                (* 154-163 *)
  | AxParent => (match n_par (nd h i) with None => [] | Some p => [p] end, None)                          (* 165-168 *)
  | AxKids => (if reverse then rev (n_kids (nd h i)) else n_kids (nd h i), None)                          (* 179-181 *)
  | AxDescs => walk h i reverse                                                                           (* 183-185 *)
  | AxLeaves => gmap (filter (fun j => match n_kids (nd h j) with [] => true | _ => false end)) (walk h i reverse) (* 187-190 *)
  | AxPrevs => sib (fun ks idx => if reverse then firstn idx ks else rev (firstn idx ks))                 (* 210-220 *)
  | AxPrev => sib (fun ks idx => if (0 <? idx)%nat then [nth (idx - 1) ks 0%nat] else [])                 (* 222-230 *)
  | AxNext => sib (fun ks idx => if (idx <? length ks - 1)%nat then [nth (idx + 1) ks 0%nat] else [])     (* 232-240 *)
  | AxNexts => sib (fun ks idx => if reverse then rev (skipn (idx + 1) ks) else skipn (idx + 1) ks)       (* 242-252 *)
  | AxPrec =>                                                                                             (* 198-206 *)
    match anc_list (depth_fuel h) h i with
    | Err e => graise e
    | Ok ancs =>
      let root := last ancs i in
      gmap (fun l => filter (fun j => negb (existsb (fun a => node_eqb h a j) ancs))
                            (if reverse then take_while_l (fun j => negb (j =? i)%nat) l
                             else tl (drop_while_l (fun j => negb (j =? i)%nat) l)))
           (walk h root (negb reverse))
    end
  | AxFoll =>                                                                                             (* 260-264 *)
    match anc_list (depth_fuel h) h i with
    | Err e => graise e
    | Ok ancs =>
      let root := last ancs i in
      gmap (fun l => if reverse then take_while_l (fun j => h_stop h i <=? h_start h j) l
                     else drop_while_l (fun j => h_start h j <? h_stop h i) l)
           (walk h root reverse)
    end
  | AxSelf | AxDedup => ([i], None)
  end.

(** query/_query.py:143-269  find_all.  <<< and >>> look for a parentless node
    first and then use only the last node (i after the loop). *)
Definition axis_find (h : heap) (a : axis) (g : gen nat) : gen (nat * nat) :=
  match ax_key a with
  | AxSelf => to_ecs a g None                                                                             (* 170-171 *)
  | AxDedup => match g with                                                                               (* 173-177 *)
               | (_, Some e) => graise e
               | (l, None) => let rv := dedup h [] l in to_ecs a (if ax_rev a then rev rv else rv, None) None
               end
  | AxPrec | AxFoll =>                                                                                    (* 192-206, 254-266 *)
    match find (fun i => match n_par (nd h i) with None => true | Some _ => false end) (fst g) with
    | Some i => to_ecs a ([], None) (Some i)
    | None => match snd g with
              | Some e => graise e
              | None => match rev (fst g) with
                        | [] => graise UnboundLocalError
                        | i :: _ => to_ecs a (axis_of h (ax_key a) (ax_rev a) i) (Some i)
                        end
              end
    end
  | k => gbind g (fun i => to_ecs a (axis_of h k (ax_rev a) i) (Some i))
  end.
