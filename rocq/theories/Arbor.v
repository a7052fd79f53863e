(** Model of arborform: itorators, connectors, postorators.
    Generators interleave: a pipeline does the work of one item, hands it to its
    consumer, and goes on when asked for the next.  A generator is a value of
    [strm]: it stops, raises, yields an object and goes on, or does something to
    the heap and goes on.  The consumer may change the heap between two steps. *)
From Verif Require Export Json Combin.

Inductive strm :=
| Stop
| Raise (e : exn)
| Yield (i : nat) (k : strm)
| Act (f : heap -> heap) (k : heap -> strm).   (* k is given the heap before f *)

(** call a method and go on with its result *)
Definition act {A} (m : heap -> out A) (k : A -> strm) : strm :=
  Act (fun h => fst (m h)) (fun h => match snd (m h) with Ok a => k a | Err e => Raise e end).
Definition ask {A} (m : heap -> res A) (k : A -> strm) : strm := act (fun h => (h, m h)) k.
(** for x in l: yield x *)
Fixpoint of_list (l : list nat) : strm := match l with [] => Stop | x :: r => Yield x (of_list r) end.
(** yield from a; then b *)
Fixpoint sapp (a b : strm) : strm :=
  match a with
  | Stop => b
  | Raise e => Raise e
  | Yield i k => Yield i (sapp k b)
  | Act f k => Act f (fun h => sapp (k h) b)
  end.
(** for x in s: yield from f(x) *)
Fixpoint sfor (s : strm) (f : nat -> strm) : strm :=
  match s with
  | Stop => Stop
  | Raise e => Raise e
  | Yield i k => sapp (f i) (sfor k f)
  | Act g k => Act g (fun h => sfor (k h) f)
  end.
(** l = [*s]; go on with l *)
Fixpoint scollect (s : strm) (acc : list nat) (k : list nat -> strm) : strm :=
  match s with
  | Stop => k acc
  | Raise e => Raise e
  | Yield i s' => scollect s' (acc ++ [i]) k
  | Act g k' => Act g (fun h => scollect (k' h) acc k)
  end.
(** itorator.py:73-83  __exhaust_iterator, then go on *)
Fixpoint sdrop (s : strm) (k : strm) : strm :=
  match s with
  | Stop => k
  | Raise e => Raise e
  | Yield _ s' => sdrop s' k
  | Act g k' => Act g (fun h => sdrop (k' h) k)
  end.
(** try: yield next(s); yield from s; break  except StopIteration: pass -- go on with
    [other] when s yields nothing *)
Fixpoint sfirst (s : strm) (other : strm) : strm :=
  match s with
  | Stop => other
  | Raise e => Raise e
  | Yield i k => Yield i k
  | Act g k => Act g (fun h => sfirst (k h) other)
  end.

(** -- pipelines -------------------------------------------------------------- *)

(** itorator.py:12-24  the predicate of a connector: a function, a desc, None *)
Inductive cpred := PFun (p : heap -> nat -> res bool) | PDesc (d : pystr) | PNoDesc.
Definition eval_pred (p : cpred) (h : heap) (i : nat) : res bool :=
  match p with
  | PFun f => f h i
  | PDesc d => Ok (match f_desc (n_f (nd h i)) with Some x => eqb_str x d | None => false end)
  | PNoDesc => Ok (match f_desc (n_f (nd h i)) with None => true | Some _ => false end)
  end.
(** itorator.py:32-69  the kinds of connectors *)
Inductive ckind := Delegate | Recurse | Subroutine | CAdd | CAddHier | CReplace | CDelete.
(** a connector; itorators are named by numbers, so that a pipeline may contain itself *)
Record conn := Con { c_kind : ckind; c_pred : cpred; c_itor : nat }.
(** split.py:13-17 *)
Inductive retention := RNone | RLeading | RTrailing | RAll.
(** the itorators of arborform.  TWrap is Itorator.wrap of any generator function.
    TExtract: finditer gives the matches in a string between two positions;
    the desc is None when a str was passed as desc (extract.py:25-26 then sets
    self._desc, not self.desc). *)
Inductive transform :=
| TWrap (f : nat -> strm)
| TReflect
| TDesc (f : heap -> nat -> res (option pystr))
| TValueFunc (v : option Z)
| TFilter (p : heap -> nat -> res bool)
| TExtract (re : pattern) (finditer : pystr -> Z -> Z -> list rmatch) (limit : option Z) (desc : option (rmatch -> gkey -> option pystr)) (gf : gfilter)
| TSplit (splitter : nat) (limit : option Z) (br : retention) (zero_split : bool) (desc : option pystr)
| TInvert (itor : nat) (desc : option pystr)
| TNuco (itors : list nat).
(** postorators: none, WindowedJoin, StackedReduce, any wrapped function *)
Inductive postor :=
| PostNone
| PostWindow (size : nat) (pred : heap -> list nat -> res bool) (desc : option pystr)
| PostStack (reduce : list nat -> heap -> out nat) (push : heap -> list nat -> nat -> res bool) (pop : option (heap -> list nat -> nat -> res bool))
| PostWrap (f : strm -> strm).
Record itorator := Itor { it_tr : transform; it_cons : list conn; it_post : postor }.
Definition prog := nat -> itorator.

(** -- postorators ------------------------------------------------------------ *)

(** ito.py:766-801  Ito.join as a call *)
Definition join_h (h : heap) (l : list nat) (desc : option pystr) : out nat :=
  match ito_join (map (fun i => n_f (nd h i)) l) desc with Ok f => new_node h f | Err e => (h, Err e) end.
(** windowed_join.py:36-47 *)
Fixpoint windowed (size : nat) (pred : heap -> list nat -> res bool) (desc : option pystr) (window : list nat) (s : strm) : strm :=
  match s with
  | Stop => of_list window
  | Raise e => Raise e
  | Act g k => Act g (fun h => windowed size pred desc window (k h))
  | Yield i k =>
    if (length (window ++ [i]) =? size)%nat
    then ask (fun h => pred h (window ++ [i])) (fun b =>
           if b then act (fun h => join_h h (window ++ [i]) desc) (fun j => Yield j (windowed size pred desc [] k))
           else match window ++ [i] with
                | x :: w => Yield x (windowed size pred desc w k)
                | [] => Raise IndexError
                end)
    else windowed size pred desc (window ++ [i]) k
  end.
(** stacked_reduce.py:32-49 *)
Fixpoint stacked (reduce : list nat -> heap -> out nat) (push : heap -> list nat -> nat -> res bool) (pop : option (heap -> list nat -> nat -> res bool))
         (stack : list nat) (s : strm) : strm :=
  match s with
  | Stop => match stack with [] => Stop | _ => act (reduce stack) (fun j => Yield j Stop) end
  | Raise e => Raise e
  | Act g k => Act g (fun h => stacked reduce push pop stack (k h))
  | Yield i k =>
    let start := ask (fun h => push h [] i) (fun b => if b then stacked reduce push pop [i] k else Yield i (stacked reduce push pop [] k)) in
    match stack with
    | [] => start
    | _ => match pop with
           | None => stacked reduce push pop (stack ++ [i]) k
           | Some p => ask (fun h => p h stack i) (fun b =>
                         if b then act (reduce stack) (fun j => Yield j start)
                         else stacked reduce push pop (stack ++ [i]) k)
           end
    end
  end.
(** itorator.py:121-125  _post *)
Definition run_post (p : postor) (s : strm) : strm :=
  match p with
  | PostNone => s
  | PostWindow n pr d => windowed n pr d [] s
  | PostStack r pu po => stacked r pu po [] s
  | PostWrap f => f s
  end.

(** -- split, invert, nuco ------------------------------------------------------ *)

(** clone_h with enough fuel *)
Definition clone_of (i : nat) (a b : option Z) (d : option (option pystr)) (kids : bool) (h : heap) : out nat :=
  clone_h (depth_fuel h) h i a b d kids.
Definition under_limit (limit : option Z) (count : Z) : bool :=
  match limit with None => true | Some n => count <? n end.
(** split.py:120-139  the span of the piece before the boundary cur *)
Definition split_piece (br : retention) (h : heap) (i : nat) (prior : option nat) (cur : nat) : Z * Z :=
  match prior with
  | None => match br with
            | RLeading => (0, 0)
            | RNone | RAll => (h_start h i, h_start h cur)
            | RTrailing => (h_start h i, h_stop h cur)
            end
  | Some p => match br with
              | RNone | RAll => (h_stop h p, h_start h cur)
              | RLeading => (h_start h p, h_start h cur)
              | RTrailing => (h_stop h p, h_stop h cur)
              end
  end.
Definition split_clone (i : nat) (desc : option pystr) (ab : Z * Z) (h : heap) : out (list nat) :=
  if fst ab =? snd ab then (h, Ok [])
  else obind (clone_of i (Some (fst ab)) (Some (snd ab)) (Some desc) false h) (fun h1 j => (h1, Ok [j])).
(** split.py:117-156  the loop and what follows; the list rv is returned as a whole *)
Definition split_end (br : retention) (zero : bool) (desc : option pystr) (i : nat) (prior : option nat) (rv : list nat) : strm :=
  match prior with
  | None => if zero && (length rv =? 0)%nat
            then act (clone_of i None None (Some desc) false) (fun j => of_list (rv ++ [j]))
            else of_list rv
  | Some p => match br with
              | RTrailing => of_list rv
              | RNone | RAll => act (fun h => split_clone i desc (h_stop h p, h_stop h i) h) (fun l => of_list (rv ++ l))
              | RLeading => act (fun h => split_clone i desc (h_start h p, h_stop h i) h) (fun l => of_list (rv ++ l))
              end
  end.
Fixpoint itor_split_loop (limit : option Z) (br : retention) (zero : bool) (desc : option pystr) (i : nat) (count : Z) (prior : option nat) (rv : list nat) (s : strm) : strm :=
  match s with
  | Stop => split_end br zero desc i prior rv
  | Raise e => Raise e
  | Act g k => Act g (fun h => itor_split_loop limit br zero desc i count prior rv (k h))
  | Yield cur k =>
    if under_limit limit count then
      act (fun h => obind (split_clone i desc (split_piece br h i prior cur) h) (fun h1 l =>
                      (h1, Ok (l ++ match br with RAll => if h_start h1 cur <? h_stop h1 cur then [cur] else [] | _ => [] end))))
          (fun l => itor_split_loop limit br zero desc i (count + 1) (Some cur) (rv ++ l) k)
    else split_end br zero desc i prior rv      (* takewhile ends; the generator is abandoned *)
  end.
(** split.py:113-156  Split._transform; [s] is self.splitter(ito) *)
Definition split_transform (limit : option Z) (br : retention) (zero : bool) (desc : option pystr) (s : strm) (i : nat) : strm :=
  if (match limit with Some n => n =? 0 | None => false end) && zero
  then act (clone_of i None None (Some desc) false) (fun j => Yield j Stop)
  else itor_split_loop limit br zero desc i 0 None [] s.

(** invert.py:20-30  Invert._transform; [s] is self.itorator(ito), last the boundary
    before (its stop is [start]; none yet: [start] is the start of ito) *)
Fixpoint invert_loop (desc : option pystr) (i : nat) (start : Z) (last : option nat) (s : strm) : strm :=
  match s with
  | Stop => ask (fun h => Ok (start =? h_start h i)) (fun same : bool =>
              if same then act (clone_of i None None (Some desc) true) (fun j => Yield j Stop)
              else match last with
                   | None => Raise UnboundLocalError
                   | Some b => ask (fun h => Ok (h_stop h b, h_stop h i)) (fun ab : Z * Z =>
                                 if fst ab <? snd ab
                                 then act (clone_of i (Some (fst ab)) (Some (snd ab)) (Some desc) true) (fun j => Yield j Stop)
                                 else Stop)
                   end)
  | Raise e => Raise e
  | Act g k => Act g (fun h => invert_loop desc i start last (k h))
  | Yield b k =>
    ask (fun h => Ok (h_start h b)) (fun a =>
      if start <? a
      then act (clone_of i (Some start) (Some a) (Some desc) true) (fun j =>
             Yield j (ask (fun h => Ok (h_stop h b)) (fun z => invert_loop desc i z (Some b) k)))
      else ask (fun h => Ok (h_stop h b)) (fun z => invert_loop desc i z (Some b) k))
  end.
(** nuco.py:15-22  Nuco._transform; [call] is itor(ito) *)
Fixpoint nuco (call : nat -> strm) (itors : list nat) : strm :=
  match itors with [] => Stop | t :: r => sfirst (call t) (nuco call r) end.

(** -- transforms and flow ------------------------------------------------------- *)

(** desc.py:20-22, value_func.py:17-19 *)
Definition set_desc (i : nat) (d : option pystr) (h : heap) : out unit :=
  (upd_f h i (fun f => FI (f_str f) (f_start f) (f_stop f) d (f_vf f)), Ok tt).
Definition set_vf (i : nat) (v : option Z) (h : heap) : out unit :=
  (upd_f h i (fun f => FI (f_str f) (f_start f) (f_stop f) (f_desc f) v), Ok tt).
(** the _transform methods; [call] is the call of another itorator *)
Definition transform_of (call : nat -> nat -> strm) (t : transform) (i : nat) : strm :=
  match t with
  | TWrap f => f i                                                               (* itorator.py:184-185 *)
  | TReflect => Yield i Stop                                                     (* reflect.py:14-15 *)
  | TDesc f => ask (fun h => f h i) (fun d => act (set_desc i d) (fun _ => Yield i Stop))
  | TValueFunc v => act (set_vf i v) (fun _ => Yield i Stop)
  | TFilter p => ask (fun h => p h i) (fun b : bool => if b then Yield i Stop else Stop)  (* filter.py:17-19 *)
  | TExtract re fi limit desc gf =>                                               (* extract.py:34-35 *)
    match desc with
    | None => Raise AttributeError
    | Some df => act (fun h => obind (from_re h re gf df limit (fi (h_string h i) (h_start h i) (h_stop h i))) (fun h1 r => (h1, Ok (fst r)))) of_list
    end
  | TSplit sp limit br zero desc => split_transform limit br zero desc (call sp i) i
  | TInvert it desc => ask (fun h => Ok (h_start h i)) (fun a => invert_loop desc i a None (call it i))
  | TNuco its => nuco (fun t => call t i) its
  end.
(** itorator.py:149-151  for c in children: ito.children.remove(c) *)
Fixpoint remove_all (h : heap) (i : nat) (cs : list nat) : out unit :=
  match cs with [] => (h, Ok tt) | c :: r => obind (kids_remove h i c) (fun h1 _ => remove_all h1 i r) end.
(** itorator.py:136-151  what a Children connector does with the collected results *)
Definition attach (k : ckind) (i : nat) (cs : list nat) (h : heap) : out unit :=
  match k with
  | CReplace => obind (kids_clear h i) (fun h1 _ => kids_add h1 i cs)
  | CAddHier => add_hier (hier_fuel h) None h i cs
  | CDelete => remove_all h i cs
  | _ => kids_add h i cs
  end.
(** itorator.py:128-168  _flow from a connector on; [trav] is the _traverse of another itorator *)
Fixpoint flow (trav : nat -> nat -> strm) (cons : list conn) (i : nat) : strm :=
  match cons with
  | [] => Yield i Stop
  | c :: r =>
    ask (fun h => eval_pred (c_pred c) h i) (fun b : bool =>
      if b then
        match c_kind c with
        | Delegate => trav (c_itor c) i
        | Recurse => sfor (trav (c_itor c) i) (flow trav r)
        | Subroutine => sdrop (trav (c_itor c) i) (flow trav r i)
        | k => scollect (trav (c_itor c) i) [] (fun cs => act (attach k i cs) (fun _ => flow trav r i))
        end
      else flow trav r i)
  end.
(** itorator.py:171-172  _traverse; fuel is the depth to which itorators may call
    each other before Python raises RecursionError *)
Fixpoint traverse (fuel : nat) (P : prog) (t : nat) (i : nat) : strm :=
  match fuel with
  | O => Raise RecursionError
  | S n =>
    let it := P t in
    let call t i := act (clone_of i None None None true) (fun j => traverse n P t j) in
    run_post (it_post it) (sfor (transform_of call (it_tr it) i) (flow (traverse n P) (it_cons it)))
  end.
(** itorator.py:174-177  __call__ *)
Definition call (fuel : nat) (P : prog) (t : nat) (i : nat) : strm :=
  act (clone_of i None None None true) (fun j => traverse fuel P t j).
