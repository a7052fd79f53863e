(** Model of json.loads(text, object_hook=Ito.JsonDecoderHook(string)) for any JSON
    document, well-formed as an Ito or not.  Json.v models the same hook on what the
    encoder writes only.  The text form is not modelled: a document is what the
    scanner of the json library has recognised. *)
From Verif Require Export Json.

(** a JSON document; an object is the list of its members as they are written (a key
    may occur twice); the value of a float does not matter, it is a number of its own *)
Inductive doc := DNull | DBool (b : bool) | DInt (z : Z) | DFloat (x : Z) | DStr (s : pystr) | DArr (l : list doc) | DObj (l : list (pystr * doc)).
(** the Python value it becomes: None, bool, int, float, str, list, dict; and Itos,
    which the hook may put in the place of a dict *)
Inductive jv := VNull | VBool (b : bool) | VInt (z : Z) | VFloat (x : Z) | VStr (s : pystr) | VArr (l : list jv) | VObj (l : list (pystr * jv)) | VIto (i : nat).

(** d[k] = v *)
Fixpoint dict_set (d : list (pystr * jv)) (k : pystr) (v : jv) : list (pystr * jv) :=
  match d with
  | [] => [(k, v)]
  | (k', v') :: r => if eqb_str k' k then (k', v) :: r else (k', v') :: dict_set r k v
  end.
Fixpoint dict_get (d : list (pystr * jv)) (k : pystr) : option jv :=
  match d with [] => None | (k', v) :: r => if eqb_str k' k then Some v else dict_get r k end.
(** d[k] *)
Definition dict_item (d : list (pystr * jv)) (k : pystr) : res jv :=
  match dict_get d k with Some v => Ok v | None => Err KeyError end.
(** o[k] for a str k: only a dict has such an item; an Ito refuses the key with
    TypeError, too (ito.py:592) *)
Definition sub_item (o : jv) (k : pystr) : res jv :=
  match o with VObj d => dict_item d k | _ => Err TypeError end.
(** iter(o).  The Itos an Ito gives are stood for by the Ito itself (ito.py:555-561;
    they are new objects nobody keeps): all that matters is that they are Itos *)
Definition jv_iter (h : heap) (o : jv) : res (list jv) :=
  match o with
  | VArr l => Ok l
  | VStr s => Ok (map (fun c => VStr [c]) s)
  | VObj d => Ok (map (fun kv => VStr (fst kv)) d)
  | VIto i => Ok (repeat (VIto i) (Z.to_nat (h_stop h i - h_start h i)))
  | _ => Err TypeError
  end.
(** span.py:25-39  int | None; bool is a subclass of int *)
Definition jv_index (v : jv) : res (option Z) :=
  match v with
  | VNull => Ok None
  | VInt z => Ok (Some z)
  | VBool b => Ok (Some (if b then 1 else 0))
  | _ => Err TypeError
  end.
(** ito.py:71-96  Ito(src, *args, desc=desc): at most two further positional arguments
    (a third would be desc, given twice); src a str or an Ito *)
Definition jv_new (h : heap) (src : jv) (args : list jv) (desc : jv) : out nat :=
  match (match args with
         | [] => Ok (None, None)
         | [a] => do x <- jv_index a; Ok (x, None)
         | [a; b] => do x <- jv_index a; do y <- jv_index b; Ok (x, y)
         | _ => Err TypeError
         end),
        (match desc with VNull => Ok None | VStr s => Ok (Some s) | _ => Err TypeError end) with
  | Ok (a, b), Ok d =>
    match src with
    | VStr s => new_str h s a b d
    | VIto i => new_sub h i a b d
    | _ => (h, Err TypeError)
    end
  | _, _ => (h, Err TypeError)
  end.
(** ito.py:480-488  _ItoDecoderHook.__call__, and the same code in 504-508.  fuel bounds
    the depth of the document (shown to be enough; the interpreter's own limit on the
    depth of recursion is not modelled) *)
Fixpoint decode_ito (fuel : nat) (src : jv) (h : heap) (o : jv) : out nat :=
  match fuel with
  | O => (h, Err OutOfFuel)
  | S n =>
    obind (lift h (sub_item o (lit "span"))) (fun h span =>
    obind (lift h (jv_iter h span)) (fun h args =>
    obind (lift h (sub_item o (lit "desc"))) (fun h d =>
    obind (jv_new h src args d) (fun h1 rv =>
      match (match o with VObj ob => dict_get ob (lit "children") | _ => None end) with
      | None | Some VNull => (h1, Ok rv)
      | Some ch =>
        obind (lift h1 (jv_iter h1 ch)) (fun h1 l =>
        obind (map_out (decode_ito n src) h1 l) (fun h2 cs =>
        obind (add_hier (hier_fuel h2) None h2 rv cs) (fun h3 _ => (h3, Ok rv))))
      end))))
  end.
Fixpoint jv_size (v : jv) : nat :=
  match v with
  | VArr l => S (list_sum (map jv_size l))
  | VObj l => S (list_sum (map (fun kv => jv_size (snd kv)) l))
  | _ => 1%nat
  end.
(** the text of a path: a str or an Ito (query/_query.py:667-671) *)
Definition jv_path (h : heap) (v : jv) : res pystr :=
  match v with VStr p => Ok p | VIto i => Ok (ito_str (n_f (nd h i))) | _ => Err TypeError end.
(** ito.py:495-497  the object is for this hook *)
Definition is_ito_dict (d : list (pystr * jv)) : bool :=
  match dict_get d (lit "__type__"), dict_get d (lit "__version__") with
  | Some (VStr t), Some (VStr v) => eqb_str t js_type && eqb_str v js_version
  | _, _ => false
  end.
(** ito.py:490-512  JsonDecoderHook.__call__; [str] is the constructor argument *)
Definition decoder_hook (E : pyenv) (str : option pystr) (h : heap) (d : list (pystr * jv)) : out jv :=
  if is_ito_dict d then
    obind (lift h (match dict_get d (lit "string") with
                   | None | Some VNull => match str with Some s => Ok (VStr s) | None => Err ValueError end
                   | Some v => Ok v
                   end)) (fun h src =>
    obind (lift h (dict_item d (lit "ito"))) (fun h o =>
    obind (decode_ito (jv_size o) src h o) (fun h1 rv =>
    obind (lift h1 (dict_item d (lit "path"))) (fun h1 p =>
    obind (lift h1 (jv_path h1 p)) (fun h1 p =>
    obind (lift h1 (ito_find E h1 no_env rv p)) (fun h2 r =>
      (h2, Ok (match r with Some i => VIto i | None => VNull end))))))))
  else (h, Ok (VObj d)).
(** json.loads(text, object_hook=hook): the members of an array and of an object in the order of the document;
    an object becomes a dict (the last of two equal keys counts), then the hook sees it *)
Fixpoint loads (hook : heap -> list (pystr * jv) -> out jv) (h : heap) (d : doc) : out jv :=
  match d with
  | DNull => (h, Ok VNull)
  | DBool b => (h, Ok (VBool b))
  | DInt z => (h, Ok (VInt z))
  | DFloat x => (h, Ok (VFloat x))
  | DStr s => (h, Ok (VStr s))
  | DArr l =>
    obind ((fix go (h : heap) (l : list doc) : out (list jv) :=
              match l with
              | [] => (h, Ok [])
              | x :: r => obind (loads hook h x) (fun h1 v => obind (go h1 r) (fun h2 vs => (h2, Ok (v :: vs))))
              end) h l) (fun h1 vs => (h1, Ok (VArr vs)))
  | DObj l =>
    obind ((fix go (h : heap) (acc : list (pystr * jv)) (l : list (pystr * doc)) : out (list (pystr * jv)) :=
              match l with
              | [] => (h, Ok acc)
              | (k, x) :: r => obind (loads hook h x) (fun h1 v => go h1 (dict_set acc k v) r)
              end) h [] l) (fun h1 kv => hook h1 kv)
  end.
(** json.loads(text, object_hook=Ito.JsonDecoderHook(str)) *)
Definition json_loads (E : pyenv) (str : option pystr) : heap -> doc -> out jv := loads (decoder_hook E str).
