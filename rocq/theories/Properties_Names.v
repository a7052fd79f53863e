(** Property theorem C129: filters with names from the dictionaries of the call, and negated filters, as results of queries.  Only statements, with examples. *)
From Verif Require Import Query SpecQuery QueryFacts13 QueryFacts14 QueryFacts20 QueryFacts21 QueryDemo Properties_Heap.
From Verif Require Import SpecNames QueryDemo.

(** the bare axis gives the nodes of [ys], each with its number; [p:n1,..] keeps those for which every
    predicate that the dictionary holds under one of the names is true, [~p:n1,..] those for which every one is false *)
Theorem C129_predicates : forall E h r i a w ys, plain_delims E -> axis_text a w -> printable E w -> axis_find h a ([i], None) = (ys, None) ->
  forall n name vs d, key_name KPred name -> vs <> [] -> writable E (value_list vs) -> rv_preds r = Some d ->
  (forall p ec, listed d vs p -> In ec ys -> exists b, p ec = Ok b) ->
  exists keep, ito_find_all E h r i (w ++ bracket n name (value_list vs)) = (map snd (filter keep ys), None) /\
    forall ec, In ec ys -> keep ec = true <-> forall p, listed d vs p -> p ec = Ok (negb n).
Proof. exact finds_pred. Qed.
(** a predicate that raises at a node, after those before it in the dictionary let the node pass, ends the search there with its exception *)
Theorem C129_predicate_raises : forall E h r i a w ys, plain_delims E -> axis_text a w -> printable E w -> axis_find h a ([i], None) = (ys, None) ->
  forall n name vs d ys1 ec ys2 d1 nm p d2 er, key_name KPred name -> vs <> [] -> writable E (value_list vs) -> rv_preds r = Some d ->
  ys = ys1 ++ ec :: ys2 -> (forall q ec', listed d vs q -> In ec' ys1 -> exists b, q ec' = Ok b) ->
  d = d1 ++ (nm, p) :: d2 -> In nm vs -> (forall q, listed d1 vs q -> q ec = Ok (negb n)) -> p ec = Err er ->
  exists keep, ito_find_all E h r i (w ++ bracket n name (value_list vs)) = (map snd (filter keep ys1), Some er) /\
    forall ec', In ec' ys1 -> keep ec' = true <-> forall q, listed d vs q -> q ec' = Ok (negb n).
Proof. exact finds_pred_raises. Qed.
(** [v:n1,..] keeps the nodes whose value equals one the dictionary holds under one of the names, [~v:n1,..] the others *)
Theorem C129_values : forall E h r i a w ys, plain_delims E -> axis_text a w -> printable E w -> axis_find h a ([i], None) = (ys, None) ->
  forall n name vs d v, key_name KValue name -> vs <> [] -> writable E (value_list vs) -> rv_values r = Some d -> (forall ec, In ec ys -> rv_value r (snd ec) = Ok (v (snd ec))) ->
  exists keep, ito_find_all E h r i (w ++ bracket n name (value_list vs)) = (map snd (filter keep ys), None) /\
    forall ec, In ec ys -> keep ec = negb n <-> exists u, listed d vs u /\ rv_eq r (v (snd ec)) u = true.
Proof. exact finds_value. Qed.
(** a dictionary that was not given: ValueError as soon as there is a node to test *)
Theorem C129_no_dictionary : forall E h r i a w ys, plain_delims E -> axis_text a w -> printable E w -> axis_find h a ([i], None) = (ys, None) ->
  forall n name vs v, vs <> [] -> writable E (value_list vs) ->
  (key_name KPred name /\ rv_preds r = None) \/ (key_name KValue name /\ rv_values r = None /\ forall ec, In ec ys -> rv_value r (snd ec) = Ok (v (snd ec))) ->
  ito_find_all E h r i (w ++ bracket n name (value_list vs)) = ([], match ys with [] => None | _ => Some ValueError end).
Proof.
  intros E h r i a w ys HE HA PR AX n name vs v NE W [(K & R)|(K & R & G)].
  - exact (finds_no_preds E h r i a w ys HE HA PR AX n name vs K NE W R).
  - exact (finds_no_values E h r i a w ys HE HA PR AX n name vs v K NE W R G).
Qed.
(** the other keys with and without ~: by text or descriptor ... *)
Theorem C129_texts : forall E h r i a w ys, plain_delims E -> axis_text a w -> printable E w -> axis_find h a ([i], None) = (ys, None) ->
  forall n k name vs, hwf h -> key_name k name -> text_key k -> (match k with KCf | KCfSw | KCfEw => casefold_ok E | _ => True end) -> vs <> [] -> writable E (value_list vs) ->
  exists keep, ito_find_all E h r i (w ++ bracket n name (value_list vs)) = (map snd (filter keep ys), None) /\
    forall ec, keep ec = negb n <-> exists v, In v vs /\ meaning E h k (snd ec) v.
Proof. exact finds_text. Qed.
(** ... and by number *)
Theorem C129_numbers : forall E h r i a w ys, plain_delims E -> axis_text a w -> printable E w -> axis_find h a ([i], None) = (ys, None) ->
  forall n name cs, ints_ok E -> key_name KIndex name -> cs <> [] ->
  exists keep, ito_find_all E h r i (w ++ bracket n name (index_list cs)) = (map snd (filter keep ys), None) /\
    forall ec, keep ec = negb n <-> exists c, In c cs /\ covers c (fst ec).
Proof. exact finds_index. Qed.
Print Assumptions C129_predicates.
Print Assumptions C129_predicate_raises.
Print Assumptions C129_values.
Print Assumptions C129_no_dictionary.
Print Assumptions C129_texts.
Print Assumptions C129_numbers.
(** three predicates, one of which raises at node 3; values: the number of the node *)
Definition house : renv := {| rv_values := Some [(lit "one", 1); (lit "two", 2); (lit "deux", 2)];
  rv_preds := Some [(lit "odd", fun ec => Ok (Nat.odd (snd ec))); (lit "small", fun ec => Ok (snd ec <? 3)%nat); (lit "no3", fun ec => if (snd ec =? 3)%nat then Err KeyError else Ok true)];
  rv_value := fun j => Ok (Z.of_nat j); rv_eq := Z.eqb |}.
Example C129_case : plain_delims ascii /\ map snd (fst (axis_find demo (AX AxDescs false OsNo) ([0%nat], None))) = [1; 3; 2]%nat /\ writable ascii (value_list [lit "odd"; lit "small"]) /\
  lit "**" ++ bracket true (lit "p") (value_list [lit "odd"; lit "small"]) = lit "**[~p:odd,small]" /\
  ito_find_all ascii demo house 0 (lit "**[p:odd,small]") = ([1%nat], None) /\ ito_find_all ascii demo house 0 (lit "**[~p:odd,small]") = ([], None) /\
  ito_find_all ascii demo house 0 (lit "**[p:odd,nobody]") = ([1; 3]%nat, None) /\ ito_find_all ascii demo house 0 (lit "**[predicate:no3]") = ([1%nat], Some KeyError) /\
  ito_find_all ascii demo house 0 (lit "**[v:two,one]") = ([1; 2]%nat, None) /\ ito_find_all ascii demo house 0 (lit "**[~value:deux]") = ([1; 3]%nat, None) /\
  ito_find_all ascii demo no_dicts 0 (lit "**[v:one]") = ([], Some ValueError) /\ ito_find_all ascii demo no_dicts 2 (lit "**[p:odd]") = ([], None) /\
  ito_find_all ascii demo no_dicts 0 (lit "**[~s:b]") = ([1; 2]%nat, None) /\ ito_find_all ascii demo no_dicts 0 (lit "**[~i:0-2]") = ([2%nat], None).
Proof.
  split; [exact ascii_delims|]. split; [vm_compute; reflexivity|]. split; [split; [do 2 eexists; split; vm_compute; reflexivity|vm_compute; discriminate]|].
  repeat split; vm_compute; reflexivity.
Qed.
