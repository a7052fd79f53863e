(** Model of the serialisation of Itos: JSON encoder and decoder hook, pickle.
    The json library's text form is not modelled: encoder and decoder meet in a
    JSON value (json.loads . json.dumps is taken to be the identity on values made
    of objects with distinct string keys, lists, strings, ints and null; tuples
    come back as lists). *)
From Verif Require Export Query.

Inductive json := JNull | JInt (z : Z) | JStr (s : pystr) | JArr (l : list json) | JObj (l : list (pystr * json)).

(** dict.get(key): None (here JNull) when absent *)
Fixpoint jassoc (l : list (pystr * json)) (k : pystr) : json :=
  match l with [] => JNull | (k', v) :: r => if eqb_str k' k then v else jassoc r k end.
Definition jget (j : json) (k : pystr) : json := match j with JObj l => jassoc l k | _ => JNull end.

(** ito.py:452-453  f'{Ito.__module__}.{Ito.__qualname__}' *)
Definition js_type : pystr := lit "pawpaw.ito.Ito".
(** _version.py:6 *)
Definition js_version : pystr := lit "1.0.2".

Definition jdesc (d : option pystr) : json := match d with None => JNull | Some s => JStr s end.
Definition map_res {A B} (f : A -> res B) : list A -> res (list B) :=
  fix go (l : list A) : res (list B) :=
    match l with [] => Ok [] | x :: r => do y <- f x; do ys <- go r; Ok (y :: ys) end.

(** ito.py:423-436  _ItoEncoder.default; fuel bounds the recursion depth *)
Fixpoint ito_encoder (fuel : nat) (full_tree : bool) (h : heap) (i : nat) : res json :=
  match fuel with
  | O => Err RecursionError
  | S n =>
    let f := n_f (nd h i) in
    let rv := [(lit "span", JArr [JInt (f_start f); JInt (f_stop f)]); (lit "desc", jdesc (f_desc f))] in
    if full_tree
    then do cs <- map_res (ito_encoder n full_tree h) (n_kids (nd h i));
         Ok (JObj (rv ++ [(lit "children", JArr cs)]))
    else Ok (JObj rv)
  end.
(** the dictionaries of find(path) without arguments: none *)
Definition no_env : renv := {| rv_values := None; rv_preds := None; rv_value := fun _ => Err TypeError; rv_eq := Z.eqb |}.
(** ito.py:449-478  JsonEncoder.default.  The accesses o.string, o.find on None raise
    AttributeError; here only  basis = None  can occur (line 470, used in line 476) *)
Definition json_encode (E : pyenv) (stringless full_tree : bool) (h : heap) (i : nat) : res json :=
  let rv := [(lit "__type__", JStr js_type); (lit "__version__", JStr js_version)] in
  let rv := if stringless then rv else rv ++ [(lit "string", JStr (h_string h i))] in
  do bp <- (if full_tree
            then do b <- ito_find E h no_env i (lit "....");
                 do p <- ito_path h i;
                 Ok (b, p)
            else Ok (Some i, lit "."));
  match fst bp with
  | None => Err AttributeError
  | Some b => do j <- ito_encoder (depth_fuel h) full_tree h b;
              Ok (JObj (rv ++ [(lit "path", JStr (snd bp)); (lit "ito", j)]))
  end.

(** *obj['span'] and desc=obj['desc'] as arguments of Ito(...).  Simplification:
    only a list of two ints and null / a string are understood *)
Definition j_span (j : json) : res (Z * Z) :=
  match j with JArr [JInt a; JInt b] => Ok (a, b) | _ => Err TypeError end.
Definition j_desc (j : json) : res (option pystr) :=
  match j with JNull => Ok None | JStr s => Ok (Some s) | _ => Err TypeError end.
Definition lift {A} (h : heap) (x : res A) : out A := (h, x).
Definition map_out {A} (f : heap -> A -> out nat) : heap -> list A -> out (list nat) :=
  fix go (h : heap) (l : list A) : out (list nat) :=
    match l with
    | [] => (h, Ok [])
    | x :: r => obind (f h x) (fun h1 c => obind (go h1 r) (fun h2 cs => (h2, Ok (c :: cs))))
    end.
(** fuel for add_hierarchical, enough by C23 *)
Definition hier_fuel (h : heap) : nat := (2 * length h)%nat.
(** ito.py:480-488  _ItoDecoderHook.__call__ (and the same code in 506-510).  The
    generator of children is run to its end before add_hierarchical starts. *)
Fixpoint ito_hook (fuel : nat) (s : pystr) (h : heap) (obj : json) : out nat :=
  match fuel with
  | O => (h, Err OutOfFuel)
  | S n =>
    obind (lift h (j_span (jget obj (lit "span")))) (fun h ab =>
    obind (lift h (j_desc (jget obj (lit "desc")))) (fun h d =>
    obind (new_str h s (Some (fst ab)) (Some (snd ab)) d) (fun h1 rv =>
      match jget obj (lit "children") with
      | JNull => (h1, Ok rv)
      | JArr l => obind (map_out (ito_hook n s) h1 l) (fun h2 cs =>
                    obind (add_hier (hier_fuel h2) None h2 rv cs) (fun h3 _ => (h3, Ok rv)))
      | _ => (h1, Err TypeError)
      end)))
  end.
Fixpoint jsize (j : json) : nat :=
  match j with
  | JArr l => S (list_sum (map jsize l))
  | JObj l => S (list_sum (map (fun kv => jsize (snd kv)) l))
  | _ => 1%nat
  end.
(** the value the hook puts in the place of an object: the result of find, or the object itself *)
Inductive hooked := HIto (i : option nat) | HObj (j : json).
(** ito.py:490-512  JsonDecoderHook.__call__; [str] is the constructor argument *)
Definition json_hook (E : pyenv) (str : option pystr) (h : heap) (obj : json) : out hooked :=
  match jget obj (lit "__type__"), jget obj (lit "__version__") with
  | JStr t, JStr v =>
    if eqb_str t js_type && eqb_str v js_version then
      match (match jget obj (lit "string") with JStr s => Some s | _ => str end) with
      | None => (h, Err ValueError)
      | Some s =>
        obind (ito_hook (jsize (jget obj (lit "ito"))) s h (jget obj (lit "ito"))) (fun h1 rv =>
          match jget obj (lit "path") with
          | JStr p => obind (lift h1 (ito_find E h1 no_env rv p)) (fun h2 r => (h2, Ok (HIto r)))
          | _ => (h1, Err TypeError)
          end)
      end
    else (h, Ok (HObj obj))
  | _, _ => (h, Ok (HObj obj))
  end.

(** -- pickle --------------------------------------------------------------- *)

(** what __getstate__ of an Ito and of everything below it puts in the pickle
    (ito.py:415-421): string, span, desc, children.  The ChildItos object in
    between refers back to its own Ito only; an Ito reached twice would be shared,
    which does not happen in a forest. *)
Inductive pstate := PS (s : pystr) (a b : Z) (d : option pystr) (kids : list pstate).
(** ito.py:415-421  pickle.dumps; fuel bounds the recursion depth *)
Fixpoint pickle_dump (fuel : nat) (h : heap) (i : nat) : res pstate :=
  match fuel with
  | O => Err RecursionError
  | S n => let f := n_f (nd h i) in
           do ks <- map_res (pickle_dump n h) (n_kids (nd h i));
           Ok (PS (f_str f) (f_start f) (f_stop f) (f_desc f) ks)
  end.
(** ito.py:442-447  __setstate__ on the object i: the fields of the state, no value
    function, no parent; every child gets i as parent *)
Definition set_state (h : heap) (i : nat) (f : fito) (ks : list nat) : heap :=
  fold_left (fun h c => set_par h c (Some i)) ks (upd h i (fun _ => Nd f None ks)).
(** pickle.loads: the empty object is made first, then its state, then __setstate__ *)
Fixpoint pickle_load (h : heap) (p : pstate) : heap * nat :=
  match p with
  | PS s a b d kids =>
    let i := length h in
    let '(h1, ks) :=
      (fix go (h : heap) (l : list pstate) : heap * list nat :=
         match l with
         | [] => (h, [])
         | x :: r => let '(h1, c) := pickle_load h x in let '(h2, cs) := go h1 r in (h2, c :: cs)
         end) (h ++ [dnode]) kids in
    (set_state h1 i (FI s a b d None) ks, i)
  end.
