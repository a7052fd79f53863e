(** Specification vocabulary for ontologies. *)
From Verif Require Export Onto SpecUtil SpecHeap.

(** the keys of a dict are distinct, at every level *)
Fixpoint onto_ok (o : onto) : Prop :=
  let 'Onto _ l := o in NoDup (map fst l) /\ (fix all l := match l with [] => True | (_, v) :: r => onto_ok v /\ all r end) l.
Fixpoint disc_ok (d : disc) : Prop :=
  let 'Disc _ l := d in NoDup (map fst l) /\ (fix all l := match l with [] => True | (_, v) :: r => disc_ok v /\ all r end) l.
(** every node with its path, parents before children, in the order of the keys *)
Fixpoint onto_nodes (path : list pystr) (o : onto) : list (list pystr * list rule) :=
  let 'Onto rs l := o in (path, rs) :: flat_map (fun kv => onto_nodes (path ++ [fst kv]) (snd kv)) l.
Fixpoint disc_nodes (path : list pystr) (d : disc) : list (list pystr * list nat) :=
  let 'Disc is l := d in (path, is) :: flat_map (fun kv => disc_nodes (path ++ [fst kv]) (snd kv)) l.
(** call one function after the other, collecting the results *)
Fixpoint run_calls (cs : list (rule * nat)) (h : heap) : out (list nat) :=
  match cs with
  | [] => (h, Ok [])
  | (r, i) :: t => obind (r i h) (fun h1 l => obind (run_calls t h1) (fun h2 l' => (h2, Ok (l ++ l'))))
  end.
(** for each node, for each rule, for each Ito: rule(ito) *)
Fixpoint run_nodes (ns : list (list rule)) (itos : list nat) (h : heap) : out (list (list nat)) :=
  match ns with
  | [] => (h, Ok [])
  | rs :: t => obind (run_calls (list_prod rs itos) h) (fun h1 l => obind (run_nodes t itos h1) (fun h2 ls => (h2, Ok (l :: ls))))
  end.
(** the node below o at the end of a path *)
Inductive below_at : onto -> list pystr -> onto -> Prop :=
| ba_one rs l k v : In (k, v) l -> below_at (Onto rs l) [k] v
| ba_step rs l k v p w : In (k, v) l -> below_at v p w -> below_at (Onto rs l) (k :: p) w.
