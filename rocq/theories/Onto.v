(** Model of pawpaw/ontology: Ontology, Discoveries, escape and descape.
    A dict is the list of its items in insertion order. *)
From Verif Require Export Arbor.

(** d[k] = v on a dict *)
Fixpoint dict_set {K V} (eqb : K -> K -> bool) (l : list (K * V)) (k : K) (v : V) : list (K * V) :=
  match l with
  | [] => [(k, v)]
  | (k', v') :: r => if eqb k' k then (k', v) :: r else (k', v') :: dict_set eqb r k v
  end.
(** d |= e *)
Definition dict_update {K V} (eqb : K -> K -> bool) (d e : list (K * V)) : list (K * V) :=
  fold_left (fun d kv => dict_set eqb d (fst kv) (snd kv)) e d.
(** d.get(k) *)
Fixpoint dict_get {K V} (eqb : K -> K -> bool) (l : list (K * V)) (k : K) : option V :=
  match l with [] => None | (k', v) :: r => if eqb k' k then Some v else dict_get eqb r k end.
Fixpoint eqb_path (p q : list pystr) : bool :=
  match p, q with [], [] => true | x :: p', y :: q' => eqb_str x y && eqb_path p' q' | _, _ => false end.

(** a rule: any function of an Ito; it may allocate, change Itos and raise *)
Definition rule := nat -> heap -> out (list nat).
(** ontology.py:37-54  Ontology: rules and a dict from str to Ontology *)
Inductive onto := Onto (rules : list rule) (items : list (pystr * onto)).
(** ontology.py:10-17  Discoveries: itos and a dict from str to Discoveries *)
Inductive disc := Disc (itos : list nat) (items : list (pystr * disc)).
Definition o_rules (o : onto) := let 'Onto r _ := o in r.
Definition o_items (o : onto) := let 'Onto _ l := o in l.
Definition d_itos (d : disc) := let 'Disc r _ := d in r.
Definition d_items (d : disc) := let 'Disc _ l := d in l.

(** ontology.py:63-65  for i in itos: rv.itos.extend(rule(i)), for one rule *)
Fixpoint apply_rule (r : rule) (itos rv : list nat) (h : heap) : out (list nat) :=
  match itos with [] => (h, Ok rv) | i :: t => obind (r i h) (fun h1 l => apply_rule r t (rv ++ l) h1) end.
(** ontology.py:62-65  for rule in self._rules *)
Fixpoint apply_rules (rs : list rule) (itos rv : list nat) (h : heap) : out (list nat) :=
  match rs with [] => (h, Ok rv) | r :: t => obind (apply_rule r itos rv h) (fun h1 rv1 => apply_rules t itos rv1 h1) end.
(** ontology.py:67-68  for k, v in self.items(): rv[k] = f(v) *)
Definition each_item (f : onto -> heap -> out disc) : list (pystr * onto) -> list (pystr * disc) -> heap -> out (list (pystr * disc)) :=
  fix each l rv h :=
    match l with
    | [] => (h, Ok rv)
    | (k, v) :: r => obind (f v h) (fun h2 d => each r (dict_set eqb_str rv k d) h2)
    end.
(** ontology.py:59-70  discover *)
Fixpoint discover (o : onto) (itos : list nat) (h : heap) : out disc :=
  let 'Onto rs items := o in
  obind (apply_rules rs itos [] h) (fun h1 found =>
    obind (each_item (fun v => discover v itos) items [] h1) (fun h2 l => (h2, Ok (Disc found l)))).
(** ontology.py:25-26  for key in self.keys(): rv |= f(key, self[key]) *)
Definition each_key (f : pystr -> disc -> list (list pystr * list nat)) : list (pystr * disc) -> list (list pystr * list nat) -> list (list pystr * list nat) :=
  fix each l rv :=
    match l with
    | [] => rv
    | (k, v) :: r => each r (dict_update eqb_path rv (f k v))
    end.
(** ontology.py:23-27  _flatten *)
Fixpoint flatten_at (d : disc) (filter_empties : bool) (path : list pystr) : list (list pystr * list nat) :=
  let 'Disc itos items := d in
  each_key (fun k v => flatten_at v filter_empties (path ++ [k])) items
           (match itos with [] => if filter_empties then [] else [(path, itos)] | _ => [(path, itos)] end).
(** ontology.py:29-30 *)
Definition flatten (d : disc) (filter_empties : bool) : list (list pystr * list nat) := flatten_at d filter_empties [].
(** ontology.py:32-35  walk *)
Fixpoint d_walk (d : disc) : list nat :=
  let 'Disc itos items := d in itos ++ flat_map (fun kv => d_walk (snd kv)) items.
(** ontology.py:38-46  self[key] for a str and, through __missing__, for a sequence of str *)
Definition o_key (o : onto) (k : pystr) : res onto :=
  match dict_get eqb_str (o_items o) k with Some v => Ok v | None => Err KeyError end.
Fixpoint o_path (o : onto) (p : list pystr) : res onto :=
  match p with
  | [] => Err KeyError
  | k :: r => do v <- o_key o k; match r with [] => Ok v | _ => o_path v r end
  end.

(** ontology/_query.py:20  MUST_ESCAPE_CHARS *)
Definition onto_special : list Z := lit "\].".
(** ontology/_query.py:22-26  escape *)
Definition onto_escape (v : pystr) : pystr :=
  fold_left (fun rv c => py_replace_char c [92; c] rv) (filter (fun c => negb (c =? 92)) onto_special)
            (py_replace_char 92 [92; 92] v).
(** ontology/_query.py:28-41  descape *)
Fixpoint onto_descape_loop (v : pystr) (rv : pystr) (esc : bool) : res pystr :=
  match v with
  | [] => if esc then Err ValueError else Ok rv
  | c :: v' => if esc || negb (c =? 92) then onto_descape_loop v' (rv ++ [c]) false
               else onto_descape_loop v' rv true
  end.
Definition onto_descape (v : pystr) : res pystr := onto_descape_loop v [] false.
