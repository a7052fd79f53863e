(** What decoding a JSON document may do (C126). *)
From Verif Require Export JsonDoc SpecHeap.

(** the errors json.loads may raise because of what the document says *)
Definition doc_errors : list exn := [KeyError; TypeError; ValueError; UnboundLocalError].
(** the Itos in a decoded value *)
Fixpoint itos_in (v : jv) : list nat :=
  match v with
  | VIto i => [i]
  | VArr l => flat_map itos_in l
  | VObj l => flat_map (fun kv => itos_in (snd kv)) l
  | _ => []
  end.
(** the objects that exist in h are in h' as they were *)
Definition untouched (h h' : heap) : Prop := forall j, (j < length h)%nat -> nd h' j = nd h j.
(** what json.loads gives without a hook *)
Fixpoint plain_value (d : doc) : jv :=
  match d with
  | DNull => VNull
  | DBool b => VBool b
  | DInt z => VInt z
  | DFloat x => VFloat x
  | DStr s => VStr s
  | DArr l => VArr (map plain_value l)
  | DObj l => VObj (fold_left (fun acc kx => dict_set acc (fst kx) (snd kx)) (map (fun kx => (fst kx, plain_value (snd kx))) l) [])
  end.
(** x stands somewhere in the document d *)
Inductive in_doc (x : doc) : doc -> Prop :=
| in_here : in_doc x x
| in_arr l y : In y l -> in_doc x y -> in_doc x (DArr l)
| in_obj l k y : In (k, y) l -> in_doc x y -> in_doc x (DObj l).
(** the last member with the key k *)
Inductive member_is (k : pystr) (y : doc) : list (pystr * doc) -> Prop :=
| member_last l r : ~ In k (map fst r) -> member_is k y (l ++ (k, y) :: r).
(** no object of the document says that it is an Ito of this version *)
Definition no_itos (d : doc) : Prop :=
  forall l, in_doc (DObj l) d -> ~ (member_is (lit "__type__") (DStr js_type) l /\ member_is (lit "__version__") (DStr js_version) l).
(** a value the encoder writes (Json.v), as a document *)
Fixpoint doc_of (j : json) : doc :=
  match j with
  | JNull => DNull
  | JInt z => DInt z
  | JStr s => DStr s
  | JArr l => DArr (map doc_of l)
  | JObj l => DObj (map (fun kv => (fst kv, doc_of (snd kv))) l)
  end.
(** an Ito, or None, as a value *)
Definition found_value (r : option nat) : jv := match r with Some i => VIto i | None => VNull end.
