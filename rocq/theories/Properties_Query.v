(** Properties of queries: C46 - C49, C63, C64.
    E stands for what a query needs from CPython and regex (pyenv), r for the
    dictionaries passed to find_all (renv); both are arbitrary. *)
From Verif Require Import Query SpecQuery QueryFacts12 QueryFacts14 QueryFacts15 QueryFacts16 QueryDemo Properties_Heap.

(** ** C41 from the query text: find_all with an axis as it is written *)
Theorem C41_written : forall E h r i k, plain_delims E -> hwf h -> acyclic h -> (i < length h)%nat -> k <> AxPrec -> k <> AxFoll ->
  exists l, (forall j, In j l <-> ax_set h k i j) /\ StronglySorted (ax_order h k) l /\ NoDup l /\
    (forall w, axis_text (AX k false OsNo) w -> printable E w -> ito_find_all E h r i w = (l, None)) /\
    (forall w, axis_text (AX k true OsNo) w -> printable E w -> ito_find_all E h r i w = (rev l, None)).
Proof.
  exact (fun E h r i k HE H Ha Hi K1 K2 => axis_written E h r i k HE H Ha Hi (match k as k0 return k0 <> AxPrec -> k0 <> AxFoll -> ax_domain h k0 i with
    | AxPrec => fun K _ => match K eq_refl with end | AxFoll => fun _ K => match K eq_refl with end | _ => fun _ _ => Logic.I end K1 K2)).
Qed.
Print Assumptions C41_written.
Example C41_written_case : axis_text (AX AxParent false OsNo) (lit "..") /\ axis_text (AX AxAncs true OsNo) (lit "-...") /\ printable ascii (lit "..") /\
  ito_find_all ascii demo no_dicts 3 (lit "..") = ([1%nat], None) /\ ito_find_all ascii demo no_dicts 3 (lit "-...") = ([0; 1]%nat, None).
Proof.
  split; [exists []; split; [left; reflexivity|reflexivity]|]. split; [exists (lit "-"); split; reflexivity|]. split; [exists 46; split; [left; reflexivity|reflexivity]|]. split; vm_compute; reflexivity.
Qed.

(** ** C46 *)
(** combining any filters: [combined] is EcfCombined, l a text of operators,
    parentheses and filters that writes e; the result has the value of e *)
Theorem C46_combined_partial : forall (e : expr ecf) l, writes e l ->
  exists c, combined (atoms l) (operands l) = Ok c /\
    (forall h r ec, c h r ec = outcome (fun f => f h r ec) e) /\
    (forall h r ec b, (forall f, f h r ec = Ok (b f)) -> c h r ec = Ok (truth b e)).
Proof.
  exact (fun e l W => match combined_spec e l W with ex_intro _ c (conj C1 C2) =>
    ex_intro _ c (conj C1 (conj C2 (fun h r ec b V => eq_trans (C2 h r ec) (outcome_truth _ b e V)))) end).
Qed.
(** the query  axis expression  of filters *)
Theorem C46_filters_partial : forall E h r i a w e1 L1 ys b1, plain_delims E -> axis_text a w -> axis_ends (text_of L1) -> part e1 L1 ->
  (forall g, In g (atoms L1) -> filter_group E g) -> no_brace (text_of L1) -> single_phrase (w ++ text_of L1) -> fst (after false 0 (text_of L1)) = false ->
  printable E (w ++ text_of L1) -> axis_find h a ([i], None) = (ys, None) -> (forall g ec, In g (atoms L1) -> In ec ys -> filter_value E h r ec g = Ok (b1 ec g)) ->
  ito_find_all E h r i (w ++ text_of L1) = (map snd (filter (fun ec => part_truth (b1 ec) e1) ys), None).
Proof. exact find_filters. Qed.
(** the query  axis expression expression  of filters and of sub-queries *)
Theorem C46_subqueries_partial : forall E h r i a w e1 L1 e2 L2 ys b1 b2, plain_delims E -> axis_text a w -> axis_ends (text_of L1 ++ text_of L2) ->
  part e1 L1 -> (forall g, In g (atoms L1) -> filter_group E g) -> no_brace (text_of L1) -> fst (after false 0 (text_of L1)) = false -> ends_with_group L1 ->
  writes e2 L2 -> (forall g, In g (atoms L2) -> sub_group (parse_query E) g) ->
  single_phrase (w ++ text_of L1 ++ text_of L2) -> printable E (w ++ text_of L1 ++ text_of L2) -> axis_find h a ([i], None) = (ys, None) ->
  (forall g ec, In g (atoms L1) -> In ec ys -> filter_value E h r ec g = Ok (b1 ec g)) ->
  (forall g ec, In g (atoms L2) -> In ec ys -> sub_value E h r ec g = Ok (b2 ec g)) ->
  ito_find_all E h r i (w ++ text_of L1 ++ text_of L2) = (map snd (filter (fun ec => part_truth (b1 ec) e1 && truth (b2 ec) e2) ys), None).
Proof. exact find_filters_subs. Qed.
(** parentheses around a single filter: ~ is lost, a binary operator raises *)
Theorem C46_parens_refuted :
  ito_find_all ascii demo no_dicts 0 (lit "**~([i:0])") = ito_find_all ascii demo no_dicts 0 (lit "**[i:0]") /\
  ito_find_all ascii demo no_dicts 0 (lit "**[i:0]") <> ito_find_all ascii demo no_dicts 0 (lit "**~[i:0]") /\
  ito_find_all ascii demo no_dicts 0 (lit "**[i:0] & ([i:0])") = ([], Some TypeError).
Proof. split; [|split]; vm_compute; [reflexivity|discriminate|reflexivity]. Qed.
(** a parenthesis before a sub-query is taken from the filter; an operator there is ignored *)
Theorem C46_before_brace_refuted :
  ito_find_all ascii demo no_dicts 0 (lit "**([i:0] | [i:1]){..}") = ([], Some ValueError) /\
  ito_find_all ascii demo no_dicts 0 (lit "**[i:2] | {*}") = ([], None) /\ ito_find_all ascii demo no_dicts 0 (lit "**{*}") = ([1%nat], None).
Proof. split; [|split]; vm_compute; reflexivity. Qed.
Print Assumptions C46_combined_partial.
Print Assumptions C46_subqueries_partial.
Example C46_case : writes demo_expr demo_items /\ (forall g, In g (atoms demo_items) -> filter_group ascii g) /\ no_brace (text_of demo_items) /\
  text_of demo_items = lit "([i:0] | [s:b]) & ~[i:2]" /\ single_phrase (lit "**([i:0] | [s:b]) & ~[i:2]") /\
  ito_find_all ascii demo no_dicts 0 (lit "**([i:0] | [s:b]) & ~[i:2]") = ([1; 3]%nat, None).
Proof.
  destruct (safe_single (lit "**([i:0] | [s:b]) & ~[i:2]")) as (S1 & _ & _); [apply safe_plain; intros c Hc; cbn in *; lia|].
  destruct (safe_single (text_of demo_items)) as (_ & S2 & _); [apply safe_plain; intros c Hc; cbn in *; lia|].
  split; [exact demo_writes|]. split; [exact demo_groups|]. split; [exact S2|]. split; [reflexivity|]. split; [exact S1|]. vm_compute. reflexivity.
Qed.
Example C46_sub_case : sub_group (parse_query ascii) (lit "{*}") /\ writes (ENot (EAtom (lit "{*}"))) [IC 126; IF (lit "{*}")] /\
  ito_find_all ascii demo no_dicts 0 (lit "**[i:0,2] ~{*}") = ([2%nat], None).
Proof. split; [exact demo_sub|]. split; [exists false; do 3 apply r_up; apply (r_not false), r_atom|vm_compute; reflexivity]. Qed.

(** ** C47 *)
(** the filter  [t  and the filter  [~t , unless the key is p or predicate *)
Theorem C47_negation_partial : forall E t, hd 0 t <> 126 -> (forall k, written_key E t = Some k -> is_pred k = false) ->
  match one_filter E (91 :: t), one_filter E (91 :: 126 :: t) with
  | Ok f, Ok f' => forall h r ec, f' h r ec = do b <- f h r ec; Ok (negb b)
  | Err x, Err y => x = y
  | _, _ => False
  end.
Proof. exact one_filter_not. Qed.
(** predicates: when exactly one of the written keys is in the dictionary *)
Theorem C47_predicate_partial : forall E key v keys f f', is_pred key = true -> filter_key key = Some KPred -> descaped v = Ok keys ->
  filter_func E false key v = Ok f -> filter_func E true key v = Ok f' ->
  forall h r ec d p, rv_preds r = Some d -> selected d keys = [p] -> f' h r ec = do b <- f h r ec; Ok (negb b).
Proof. exact pred_not. Qed.
(** any number of predicates: [p:..] accepts what all of those named accept, [~p:..] what all of them reject *)
Theorem C47_predicates_partial : forall E n key v keys f h r ec d b, filter_key key = Some KPred -> descaped v = Ok keys -> filter_func E n key v = Ok f -> rv_preds r = Some d ->
  (forall name p, In (name, p) d -> In name keys -> p ec = Ok (b name p)) ->
  exists x, f h r ec = Ok x /\ (x = true <-> forall name p, In (name, p) d -> In name keys -> b name p = negb n).
Proof.
  intros E n key v keys f h r ec d b K D F P Hb. unfold filter_func in F. rewrite K, D in F. cbn [bind] in F. injection F as <-. rewrite P. cbn [validate bind]. clear P.
  unfold g_all, selected. cbn [fst snd]. induction d as [|[name p] d IH]; [exists true; split; [reflexivity|]; split; [intros _ ? ? []|reflexivity]|].
  destruct IH as (x & Ex & Hx); [intros name' p' I; apply Hb; right; exact I|]. cbn [filter fst map]. destruct (mem_str name keys) eqn:M.
  - assert (I : In name keys) by (unfold mem_str in M; apply existsb_exists in M; destruct M as (y & Iy & Ey); apply eqb_str_eq in Ey; subst; exact Iy).
    cbn [map snd all_list]. rewrite (Hb name p (or_introl eq_refl) I). cbn [not_if bind]. rewrite Ex. destruct (if n then negb (b name p) else b name p) eqn:B.
    + exists x. split; [reflexivity|]. rewrite Hx. split; [|intros G name' p' I1; apply G; right; exact I1]. intros G name' p' [[= <- <-]|I1] I2; [|exact (G name' p' I1 I2)]. destruct n, (b name p); cbn in *; congruence.
    + exists false. split; [reflexivity|]. split; [discriminate|]. intros G. specialize (G name p (or_introl eq_refl) I). destruct n, (b name p); cbn in *; congruence.
  - exists x. split; [exact Ex|]. rewrite Hx. split; [|intros G name' p' I1; apply G; right; exact I1]. intros G name' p' [[= <- <-]|I1] I2; [|exact (G name' p' I1 I2)].
    exfalso. assert (X : mem_str name keys = true) by (apply existsb_exists; exists name; split; [exact I2|apply eqb_str_eq; reflexivity]). congruence.
Qed.
(** with two predicates, or none, both [p:v] and [~p:v] can reject or accept a node *)
Definition two_preds : renv := {| rv_values := None; rv_preds := Some [(lit "a", fun _ => Ok true); (lit "b", fun _ => Ok false)]; rv_value := fun _ => Ok 0; rv_eq := Z.eqb |}.
Theorem C47_refuted :
  ito_find_all ascii demo two_preds 0 (lit ".[p:a,b]") = ([], None) /\ ito_find_all ascii demo two_preds 0 (lit ".[~p:a,b]") = ([], None) /\
  ito_find_all ascii demo two_preds 0 (lit ".[p:z]") = ([0%nat], None) /\ ito_find_all ascii demo two_preds 0 (lit ".[~p:z]") = ([0%nat], None).
Proof. repeat split; vm_compute; reflexivity. Qed.
Print Assumptions C47_negation_partial.
Print Assumptions C47_predicates_partial.
Example C47_case : hd 0 (lit "d:x]") <> 126 /\ (forall k, written_key ascii (lit "d:x]") = Some k -> is_pred k = false) /\
  (exists f f', one_filter ascii (91 :: lit "d:x]") = Ok f /\ one_filter ascii (91 :: 126 :: lit "d:x]") = Ok f' /\ f demo no_dicts (1, 2)%nat = Ok true /\ f' demo no_dicts (1, 2)%nat = Ok false) /\
  ito_find_all ascii demo two_preds 0 (lit "*[p:a]") = ([1; 2]%nat, None) /\ ito_find_all ascii demo two_preds 0 (lit "*[~p:a]") = ([], None).
Proof.
  split; [cbn; lia|]. split; [intros k H; vm_compute in H; injection H as <-; reflexivity|]. split; [|split; vm_compute; reflexivity].
  eexists. eexists. split; [vm_compute; reflexivity|]. split; [vm_compute; reflexivity|]. split; vm_compute; reflexivity.
Qed.

(** ** C48 *)
(** the phrases of p/q are those of p and those of q *)
Theorem C48_parse : forall E p q c, complete p -> printable E p -> printable E q ->
  parse_query E (p ++ 47 :: q) = Ok c <-> exists a b, parse_query E p = Ok a /\ parse_query E q = Ok b /\ c = a ++ b.
Proof. exact parse_compose. Qed.
(** q runs over the sequence of results of p *)
Theorem C48_run : forall a b h r i, query_find_all (a ++ b) h r i = run_from b h r (query_find_all a h r i).
Proof. exact (fun a b h r i => run_app a b h r ([i], None)). Qed.
(** node by node, when every axis of q is defined node by node (see C43) *)
Theorem C48_compose_partial : forall E p q h r i a b, complete p -> printable E p -> printable E q -> parse_query E p = Ok a -> parse_query E q = Ok b -> local_query b ->
  ito_find_all E h r i (p ++ 47 :: q) = gbind (ito_find_all E h r i p) (fun j => ito_find_all E h r j q).
Proof. exact compose_local. Qed.
(** find is the first result of find_all, or None *)
Theorem C48_find : forall E h r i p, ito_find E h r i p = match ito_find_all E h r i p with (j :: _, _) => Ok (Some j) | ([], None) => Ok None | ([], Some e) => Err e end.
Proof. exact find_first. Qed.
(** the axis  >>>  looks only at the last node: the composition is not node by node *)
Theorem C48_nonlocal_refuted : ito_find_all ascii demo no_dicts 0 (lit "*/>>>") = ([], None) /\
  gbind (ito_find_all ascii demo no_dicts 0 (lit "*")) (fun j => ito_find_all ascii demo no_dicts j (lit ">>>")) = ([2%nat], None).
Proof. split; vm_compute; reflexivity. Qed.
Print Assumptions C48_compose_partial.
Example C48_case : complete (lit "*[i:0]{*/..}") /\ printable ascii (lit "*[i:0]{*/..}") /\ ito_find_all ascii demo no_dicts 0 (lit "*[i:0]{*/..}/*") = ([3%nat], None) /\
  ito_find ascii demo no_dicts 0 (lit "**") = Ok (Some 1%nat) /\ (exists b, parse_query ascii (lit "*") = Ok b /\ local_query b).
Proof.
  split; [vm_compute; reflexivity|]. split; [exists 42; split; [left; reflexivity|reflexivity]|]. split; [vm_compute; reflexivity|]. split; [vm_compute; reflexivity|].
  eexists. split; [vm_compute; reflexivity|]. repeat constructor.
Qed.

(** ** C49 *)
Theorem C49_path : forall E h r i, plain_delims E -> ints_ok E -> py_isprintable E 46 = true -> py_isprintable E 42 = true -> hwf h -> acyclic h -> (i < length h)%nat ->
  exists root s, root_of h root i /\ ito_path h i = Ok s /\ ito_find_all E h r root s = ([i], None) /\ ito_find E h r root s = Ok (Some i).
Proof. exact path_find. Qed.
Theorem C49_unique : forall h root, hwf h -> acyclic h -> forall i j s, (i < length h)%nat -> (j < length h)%nat -> root_of h root i -> root_of h root j ->
  ito_path h i = Ok s -> ito_path h j = Ok s -> i = j.
Proof. exact path_inj. Qed.
Print Assumptions C49_path.
Print Assumptions C49_unique.
Example C49_case : plain_delims ascii /\ ints_ok ascii /\ hwf demo /\ acyclic demo /\ ito_path demo 3 = Ok (lit "./*[i:0]/*[i:0]") /\ ito_find ascii demo no_dicts 0 (lit "./*[i:0]/*[i:0]") = Ok (Some 3%nat).
Proof. split; [exact ascii_delims|]. split; [exact ascii_ints|]. split; [exact demo_wf|]. split; [exact demo_acyclic|]. split; vm_compute; reflexivity. Qed.

(** ** C63 *)
(** axis[name:v1,v2,...] with escaped values accepts the nodes that have one of them *)
Theorem C63_values_partial : forall E h r i a w k name vs ys, plain_delims E -> hwf h -> axis_text a w -> printable E w -> key_name k name -> text_key k ->
  (match k with KCf | KCfSw | KCfEw => casefold_ok E | _ => True end) -> vs <> [] -> writable E (value_list vs) -> axis_find h a ([i], None) = (ys, None) ->
  exists b, ito_find_all E h r i (w ++ written name (value_list vs)) = (map snd (filter b ys), None) /\ forall ec, b ec = true <-> exists v, In v vs /\ meaning E h k (snd ec) v.
Proof. exact find_values. Qed.
(** values that escape does not make writable: white space in front is dropped,
    a backslash at the end is rejected, and so is the empty value *)
Theorem C63_refuted :
  ito_find_all ascii demo no_dicts 0 (lit "*" ++ written (lit "d") (value_list [lit " x"])) = ([2%nat], None) /\ f_desc (n_f (nd demo 2)) = Some (lit "x") /\
  ito_find_all ascii demo no_dicts 0 (lit "*" ++ written (lit "d") (value_list [lit "x\"])) = ([], Some ValueError) /\
  ito_find_all ascii demo no_dicts 0 (lit "*" ++ written (lit "d") (value_list [[]])) = ([], Some ValueError).
Proof. repeat split; vm_compute; reflexivity. Qed.
Print Assumptions C63_values_partial.
Example C63_case : writable ascii (value_list [lit "a/b"; lit "x"]) /\ casefold_ok ascii /\ lit "*" ++ written (lit "d") (value_list [lit "a/b"; lit "x"]) = lit "*[d:a\/b,x]" /\
  ito_find_all ascii demo no_dicts 0 (lit "*[d:a\/b,x]") = ([2%nat], None) /\ ito_find_all ascii demo no_dicts 0 (lit "**[scfsw:AB,B]") = ([1; 3]%nat, None).
Proof. split; [split; [exists 97; eexists; split; reflexivity|vm_compute; discriminate]|]. split; [exact ascii_casefold|]. repeat split; vm_compute; reflexivity. Qed.

(** ** C64 *)
Theorem C64_index : forall E h r i a w name cs ys, plain_delims E -> ints_ok E -> axis_text a w -> printable E w -> key_name KIndex name -> cs <> [] -> axis_find h a ([i], None) = (ys, None) ->
  exists b, ito_find_all E h r i (w ++ written name (index_list cs)) = (map snd (filter b ys), None) /\ forall ec, b ec = true <-> exists c, In c cs /\ covers c (fst ec).
Proof. exact find_indexes. Qed.
Print Assumptions C64_index.
Example C64_case : lit "**" ++ written (lit "i") (index_list [One 0; From 2]) = lit "**[i:0,2-]" /\ ito_find_all ascii demo no_dicts 0 (lit "**[i:0,2-]") = ([1; 2]%nat, None) /\
  ito_find_all ascii demo no_dicts 0 (lit "**[index:0-2]") = ([1; 3]%nat, None).
Proof. repeat split; vm_compute; reflexivity. Qed.
