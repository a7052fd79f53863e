(** Property theorems C59 and C66: ontologies. *)
From Verif Require Import OntoFacts2.

(** ** C59 discovery *)
(** [onto_ok], [disc_ok]: keys distinct at each level, as in any dict.  [onto_nodes [] o] lists every node of the ontology with
    its path and its rules; [disc_nodes [] d] every node of the result with its path and its Itos.  [run_nodes] calls, node by
    node, rule by rule, Ito by Ito; rules may raise, allocate and change Itos. *)
Theorem C59_discover : forall o itos h, onto_ok o ->
  match run_nodes (map snd (onto_nodes [] o)) itos h with
  | (h', Ok ls) => exists d, discover o itos h = (h', Ok d) /\ disc_ok d /\
      disc_nodes [] d = combine (map fst (onto_nodes [] o)) ls /\ length ls = length (onto_nodes [] o)
  | (h', Err e) => discover o itos h = (h', Err e)
  end.
Proof. exact discover_full. Qed.
Print Assumptions C59_discover.
(** rules that only read: the value at each path is rule(i) for each rule, for each Ito *)
Theorem C59_values : forall o itos h (f : rule -> nat -> list nat), onto_ok o ->
  (forall p rs r i, In (p, rs) (onto_nodes [] o) -> In r rs -> r i h = (h, Ok (f r i))) ->
  exists d, discover o itos h = (h, Ok d) /\ disc_ok d /\
    flatten d false = map (fun n => (fst n, flat_map (fun r => flat_map (f r) itos) (snd n))) (onto_nodes [] o).
Proof. exact discover_pure. Qed.
Print Assumptions C59_values.
Theorem C59_flatten : forall d, disc_ok d ->
  flatten d false = disc_nodes [] d /\
  flatten d true = filter (fun x => negb (Nat.eqb (length (snd x)) 0)) (disc_nodes [] d) /\
  NoDup (map fst (flatten d false)).
Proof. exact flatten_full. Qed.
Print Assumptions C59_flatten.
Theorem C59_walk : forall d fe, disc_ok d -> d_walk d = concat (map snd (flatten d fe)).
Proof. exact walk_flatten. Qed.
Print Assumptions C59_walk.
(** o[(k1, ..., kn)] is the node at the end of the path; KeyError exactly if there is none *)
Theorem C59_lookup : forall o p, onto_ok o ->
  (forall w, o_path o p = Ok w <-> below_at o p w) /\
  ((forall w, ~ below_at o p w) <-> o_path o p = Err KeyError).
Proof. exact lookup_full. Qed.
Print Assumptions C59_lookup.
Definition twice : rule := fun i h => (h, Ok [i; i]).
Definition none : rule := fun i h => (h, Ok []).
Definition odemo : onto := Onto [twice] [(lit "a", Onto [none] [(lit "x", Onto [twice; twice] [])]); (lit "b", Onto [] [])].
Example odemo_ok : onto_ok odemo.
Proof. vm_compute. repeat split; repeat constructor; cbn; intuition discriminate. Qed.
Example C59_case : exists d, discover odemo [3; 4]%nat [] = ([], Ok d) /\
  flatten d true = [([], [3; 3; 4; 4]); ([lit "a"; lit "x"], [3; 3; 4; 4; 3; 3; 4; 4])]%nat /\
  map fst (flatten d false) = [[]; [lit "a"]; [lit "a"; lit "x"]; [lit "b"]].
Proof. eexists. split; [vm_compute; reflexivity|]. split; vm_compute; reflexivity. Qed.
Example C59_lookup_case : o_path odemo [lit "a"; lit "x"] = Ok (Onto [twice; twice] []) /\ o_path odemo [lit "a"; lit "b"] = Err KeyError.
Proof. split; reflexivity. Qed.

(** ** C66 escaping of ontology query steps *)
Theorem C66_round_trip : forall v, onto_descape (onto_escape v) = Ok v.
Proof. exact onto_descape_escape. Qed.
Theorem C66_descape : forall v, (forall w, onto_descape v = Ok w <-> unescapes 92 v w) /\
  (onto_descape v = Err ValueError <-> forall w, ~ unescapes 92 v w).
Proof. exact onto_descape_exact. Qed.
Print Assumptions C66_descape.
Theorem C66_no_unescaped : forall v,
  (forall k, ~ unescaped_at 92 (lit "\].") (onto_escape v) 0 k) /\ literal_after 92 (onto_escape v).
Proof. exact onto_escape_clean. Qed.
Theorem C66_list : forall vs, vs <> [] ->
  exists ps, split_unescaped (UStr (py_join [46] (map onto_escape vs))) [46] [92] None None = (ps, None) /\
             map (fun p => onto_descape (u_text p)) ps = map Ok vs.
Proof. exact onto_escape_list_round. Qed.
Print Assumptions C66_list.
Example C66_case : onto_escape (lit "a.b]\c") = lit "a\.b\]\\c" /\ onto_descape (lit "a\") = Err ValueError.
Proof. split; reflexivity. Qed.
