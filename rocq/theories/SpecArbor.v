(** Specification vocabulary for arborform. *)
From Verif Require Export Arbor SpecHeap SpecCombin.

(** ** running a generator *)
(** list(s) in the heap h: the heap afterwards, what was yielded, the exception *)
Fixpoint drain (s : strm) (h : heap) : heap * (list nat * option exn) :=
  match s with
  | Stop => (h, ([], None))
  | Raise e => (h, ([], Some e))
  | Yield i k => let '(h', (l, e)) := drain k h in (h', (i :: l, e))
  | Act f k => drain (k h) (f h)
  end.
(** a consumer that, after each result, changes the heap depending on all it has seen;
    gives the heap afterwards, what was seen, the exception *)
Fixpoint drive (c : list nat -> heap -> heap) (seen : list nat) (s : strm) (h : heap) : heap * (list nat * option exn) :=
  match s with
  | Stop => (h, (seen, None))
  | Raise e => (h, (seen, Some e))
  | Yield i k => drive c (seen ++ [i]) k (c (seen ++ [i]) h)
  | Act f k => drive c seen (k h) (f h)
  end.
(** for x in s: rv.extend(f(x)) *)
Fixpoint for_each (f : nat -> heap -> heap * (list nat * option exn)) (s : strm) (h : heap) : heap * (list nat * option exn) :=
  match s with
  | Stop => (h, ([], None))
  | Raise e => (h, ([], Some e))
  | Yield i k => match f i h with
                 | (h1, (l, Some e)) => (h1, (l, Some e))
                 | (h1, (l, None)) => let '(h2, (l', e)) := for_each f k h1 in (h2, (l ++ l', e))
                 end
  | Act g k => for_each f (k h) (g h)
  end.

(** ** staying among the objects from n on *)
(** the objects from n on point to such objects only *)
Definition sealed (n : nat) (h : heap) : Prop :=
  (n <= length h)%nat /\ forall j, (n <= j)%nat -> (forall c, In c (n_kids (nd h j)) -> (n <= c)%nat) /\ (forall p, n_par (nd h j) = Some p -> (n <= p)%nat).
(** a change of the heap that leaves the first n objects alone and keeps the rest sealed *)
Definition harmless (n : nat) (h h' : heap) : Prop :=
  sealed n h -> sealed n h' /\ (length h <= length h')%nat /\ forall j, (j < n)%nat -> nd h' j = nd h j.
(** a generator that makes such changes only and yields only objects from n on *)
Fixpoint stays (n : nat) (s : strm) : Prop :=
  match s with
  | Stop => True
  | Raise _ => True
  | Yield i k => (n <= i)%nat /\ stays n k
  | Act f k => forall h, harmless n h (f h) /\ (sealed n h -> stays n (k h))
  end.
(** user functions in a pipeline that, given objects from n on, stay there *)
Definition transform_stays (n : nat) (t : transform) : Prop :=
  match t with TWrap f => forall i, (n <= i)%nat -> stays n (f i) | _ => True end.
Definition post_stays (n : nat) (p : postor) : Prop :=
  match p with
  | PostStack reduce _ _ => forall l h, Forall (fun i => (n <= i)%nat) l -> harmless n h (fst (reduce l h)) /\ (sealed n h -> forall j, snd (reduce l h) = Ok j -> (n <= j)%nat)
  | PostWrap f => forall s, stays n s -> stays n (f s)
  | _ => True
  end.
Definition prog_stays (n : nat) (P : prog) : Prop := forall t, transform_stays n (it_tr (P t)) /\ post_stays n (it_post (P t)).

(** ** postorators *)
(** blocks of the input, marked true when they are turned into one Ito; emit runs
    them in order *)
Fixpoint emit (f : list nat -> heap -> out nat) (bs : list (bool * list nat)) (h : heap) : heap * (list nat * option exn) :=
  match bs with
  | [] => (h, ([], None))
  | (false, b) :: r => let '(h', (l, e)) := emit f r h in (h', (b ++ l, e))
  | (true, b) :: r => match f b h with
                      | (h1, Err e) => (h1, ([], Some e))
                      | (h1, Ok j) => let '(h', (l, e)) := emit f r h1 in (h', (j :: l, e))
                      end
  end.
Definition blocks (bs : list (bool * list nat)) : list nat := concat (map snd bs).
(** WindowedJoin: every window of size items in turn; accepted ones are joined,
    of a rejected one the first item is passed on; what is left is passed on *)
Inductive windows (size : nat) (p : list nat -> bool) : list nat -> list (bool * list nat) -> Prop :=
| win_rest l : (length l < size)%nat -> windows size p l (map (fun x => (false, [x])) l)
| win_take w r bs : length w = size -> p w = true -> windows size p r bs -> windows size p (w ++ r) ((true, w) :: bs)
| win_skip x w r bs : length (x :: w) = size -> p (x :: w) = false -> windows size p (w ++ r) bs -> windows size p (x :: w ++ r) ((false, [x]) :: bs).
(** StackedReduce: an item starts a stack when push says so, else it is passed on; a
    stack grows until pop says so *)
Inductive stacks (push : nat -> bool) (pop : list nat -> nat -> bool) : list nat -> list (bool * list nat) -> Prop :=
| st_nil : stacks push pop [] []
| st_pass x r bs : push x = false -> stacks push pop r bs -> stacks push pop (x :: r) ((false, [x]) :: bs)
| st_stack x w r bs : push x = true -> (forall u y v, w = u ++ y :: v -> pop (x :: u) y = false) -> (forall y r', r = y :: r' -> pop (x :: w) y = true) ->
    stacks push pop r bs -> stacks push pop (x :: w ++ r) ((true, x :: w) :: bs).
(** the objects of l have the same data in g as in h *)
Definition same_items (l : list nat) (h g : heap) : Prop := forall i, In i l -> n_f (nd g i) = n_f (nd h i).
(** the output for a block: the item itself, or a new parentless childless Ito on the
    string s, with desc d, that spans exactly the items *)
Definition joined (h h' : heap) (s : pystr) (d : option pystr) (b : bool * list nat) (o : nat) : Prop :=
  match b with
  | (false, w) => w = [o]
  | (true, w) => (length h <= o)%nat /\ f_str (n_f (nd h' o)) = s /\ f_desc (n_f (nd h' o)) = d /\ f_vf (n_f (nd h' o)) = None /\
      spans_inputs (map (fun i => n_f (nd h i)) w) (n_f (nd h' o)) /\ n_par (nd h' o) = None /\ n_kids (nd h' o) = []
  end.
(** the itorators of the list, called one after the other, all yield nothing *)
Inductive silent (call : nat -> strm) : list nat -> heap -> heap -> Prop :=
| silent_nil h : silent call [] h h
| silent_cons t r h h1 h2 : drain (call t) h = (h1, ([], None)) -> silent call r h1 h2 -> silent call (t :: r) h h2.

(** ** splitting *)
(** whatever the consumer allocates in between, the generator s, started in h, yields
    Itos with the spans sp and stops; it changes no object with [alien], nor one its
    consumer has made, and no string or span *)
Fixpoint bounds (alien : nat -> Prop) (s : strm) (h : heap) (sp : list (Z * Z)) : Prop :=
  match s with
  | Stop => sp = []
  | Raise _ => False
  | Yield i k => match sp with
                 | [] => False
                 | x :: r => (i < length h)%nat /\ (h_start h i, h_stop h i) = x /\
                     forall h', extends h h' -> bounds (fun j => alien j \/ (length h <= j < length h')%nat) k h' r
                 end
  | Act f k => (length h <= length (f h))%nat /\ (forall j, alien j -> nd (f h) j = nd h j) /\
               (forall j, (j < length h)%nat -> h_string (f h) j = h_string h j /\ h_start (f h) j = h_start h j /\ h_stop (f h) j = h_stop h j) /\
               bounds alien (k h) (f h) sp
  end.
(** ordered disjoint spans between A and B *)
Fixpoint ordered (A : Z) (sp : list (Z * Z)) (B : Z) : Prop :=
  match sp with [] => A <= B | (a, b) :: r => A <= a /\ a <= b /\ ordered b r B end.
Definition wide (x : Z * Z) : bool := fst x <? snd x.
(** what lies between the boundaries, with the boundaries (true) or without *)
Fixpoint cut_all (A : Z) (sp : list (Z * Z)) (B : Z) : list (bool * (Z * Z)) :=
  match sp with [] => [(false, (A, B))] | (a, b) :: r => (false, (A, a)) :: (true, (a, b)) :: cut_all b r B end.
Fixpoint gaps (A : Z) (sp : list (Z * Z)) (B : Z) : list (Z * Z) :=
  match sp with [] => [(A, B)] | (a, b) :: r => (A, a) :: gaps b r B end.
(** from cut to cut *)
Fixpoint from_to (cuts : list Z) : list (Z * Z) :=
  match cuts with x :: ((y :: _) as r) => (x, y) :: from_to r | _ => [] end.
(** the boundaries a limit lets through *)
Definition used (limit : option Z) (sp : list (Z * Z)) : list (Z * Z) :=
  match limit with None => sp | Some n => firstn (Z.to_nat n) sp end.
Definition piece (x : Z * Z) : bool * (Z * Z) := (false, x).
(** the documented result of Split: pieces, and boundaries marked true *)
Definition split_result (br : retention) (zero : bool) (A B : Z) (sp : list (Z * Z)) : list (bool * (Z * Z)) :=
  match sp with
  | [] => if zero then [(false, (A, B))] else []
  | _ => match br with
         | RNone => map piece (filter wide (gaps A sp B))
         | RAll => filter (fun x => wide (snd x)) (cut_all A sp B)
         | RLeading => map piece (filter wide (from_to (map fst sp ++ [B])))
         | RTrailing => map piece (filter wide (from_to (A :: map snd sp)))
         end
  end.
(** j is, in h', the item x of the result for the Ito i of h: a new leaf, or a boundary *)
Definition is_piece (h : heap) (i : nat) (d : option pystr) (h' : heap) (x : bool * (Z * Z)) (j : nat) : Prop :=
  if fst x then (h_start h' j, h_stop h' j) = snd x
  else (length h <= j)%nat /\ nd h' j = Nd (FI (h_string h i) (fst (snd x)) (snd (snd x)) d (f_vf (n_f (nd h i)))) None [].
(** spans that follow each other without gap from A to B *)
Fixpoint tiles_from (A : Z) (l : list (Z * Z)) (B : Z) : Prop :=
  match l with [] => A = B | (a, b) :: r => a = A /\ a < b /\ tiles_from b r B end.

(** ** regex boundaries *)
(** the group filter Split uses for a regex: the whole match *)
Definition whole_only : gfilter := GFPred (fun _ k => match k with KInt 0 => true | _ => false end).
(** ms are matches in the string s with the spans sp *)
Definition matches_at (s : pystr) (ms : list rmatch) (sp : list (Z * Z)) : Prop :=
  Forall2 (fun m x => rm_string m = s /\ rm_spans m (KInt 0) = [x]) ms sp.
(** Extract as Split makes it from a regex *)
Definition regex_itor (re : pattern) (finditer : pystr -> Z -> Z -> list rmatch) : itorator :=
  Itor (TExtract re finditer None (Some (fun _ _ => None)) whole_only) [] PostNone.
