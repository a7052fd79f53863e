(** Property theorem C127: boolean combinations of filters, seen through the results of queries. *)
From Verif Require Import Query SpecQuery QueryFacts12 QueryFacts13 QueryFacts14 QueryFacts15 QueryFacts16 QueryFacts20 QueryDemo Properties_Heap.
From Verif Require Import SpecLogic QueryDemo.

(** [w] is an axis; [L] writes the expression [e] over the filters [k:v] among its items.
    If the axis alone gives [all], and the axis with the single filter g gives [found g],
    then the axis with the whole expression gives the nodes of [all] for which [e] is true
    when each g is read as "is in [found g]" - in the order of [all] *)
Theorem C127_filters : forall E h r i a w e L all found, plain_delims E -> axis_text a w -> printable E w -> writes e L ->
  (forall g, In g (atoms L) -> filter_group E g /\ quiet g) -> ito_find_all E h r i w = (all, None) -> NoDup all ->
  (forall g, In g (atoms L) -> ito_find_all E h r i (w ++ g) = (found g, None)) ->
  ito_find_all E h r i (w ++ text_of L) = (filter (fun j => truth (fun g => member_of j (found g)) e) all, None).
Proof. exact filters_by_results. Qed.
(** the same for sub-queries {q} *)
Theorem C127_subqueries : forall E h r i a w e L all found, plain_delims E -> axis_text a w -> printable E w -> writes e L ->
  (forall g, In g (atoms L) -> sub_group (parse_query E) g /\ single_phrase (w ++ g)) -> single_phrase (w ++ text_of L) -> ito_find_all E h r i w = (all, None) -> NoDup all ->
  (forall g, In g (atoms L) -> ito_find_all E h r i (w ++ g) = (found g, None)) ->
  ito_find_all E h r i (w ++ text_of L) = (filter (fun j => truth (fun g => member_of j (found g)) e) all, None).
Proof. exact subs_by_results. Qed.
(** [~k:v] gives the nodes [k:v] leaves out *)
Theorem C127_negated : forall E h r i a w t all l, plain_delims E -> axis_text a w -> printable E w -> hd 0 t <> 126 -> (forall k, written_key E t = Some k -> is_pred k = false) ->
  filter_group E (91 :: t) -> quiet (91 :: t) -> filter_group E (91 :: 126 :: t) -> ito_find_all E h r i w = (all, None) -> NoDup all ->
  ito_find_all E h r i (w ++ 91 :: t) = (l, None) -> ito_find_all E h r i (w ++ 91 :: 126 :: t) = (filter (fun j => negb (member_of j l)) all, None).
Proof. exact negated_by_results. Qed.
(** expressions with the same truth table, over filters none of which raises, find the same nodes *)
Theorem C127_equivalent : forall E h r i a w e L e' L' all found, plain_delims E -> axis_text a w -> printable E w -> writes e L -> writes e' L' -> equivalent e e' ->
  (forall g, In g (atoms L ++ atoms L') -> filter_group E g /\ quiet g /\ ito_find_all E h r i (w ++ g) = (found g, None)) -> ito_find_all E h r i w = (all, None) -> NoDup all ->
  ito_find_all E h r i (w ++ text_of L) = ito_find_all E h r i (w ++ text_of L').
Proof.
  intros E h r i a w e L e' L' all found HE HA PR W W' Q G EA ND.
  assert (GL : forall g, In g (atoms L) -> filter_group E g /\ quiet g /\ ito_find_all E h r i (w ++ g) = (found g, None)) by (intros g I; apply G; apply in_or_app; left; exact I).
  assert (GL' : forall g, In g (atoms L') -> filter_group E g /\ quiet g /\ ito_find_all E h r i (w ++ g) = (found g, None)) by (intros g I; apply G; apply in_or_app; right; exact I).
  rewrite (filters_by_results E h r i a w e L all found HE HA PR W), (filters_by_results E h r i a w e' L' all found HE HA PR W'); try assumption.
  - f_equal. apply filter_ext. intros j. apply Q.
  - intros g I. destruct (GL' g I) as (A & B & _). split; assumption.
  - intros g I. exact (proj2 (proj2 (GL' g I))).
  - intros g I. destruct (GL g I) as (A & B & _). split; assumption.
  - intros g I. exact (proj2 (proj2 (GL g I))).
Qed.
(** the hypothesis on the axis: from a node of a well-formed tree every axis but <<< and >>> (for those see C42) gives each node once *)
Theorem C127_axes : forall E h r i k, plain_delims E -> hwf h -> acyclic h -> (i < length h)%nat -> k <> AxPrec -> k <> AxFoll ->
  forall w, axis_text (AX k false OsNo) w \/ axis_text (AX k true OsNo) w -> printable E w -> exists all, ito_find_all E h r i w = (all, None) /\ NoDup all.
Proof.
  intros E h r i k HE H Ha Hi K1 K2 w HW PR.
  destruct (axis_written E h r i k HE H Ha Hi (match k as k0 return k0 <> AxPrec -> k0 <> AxFoll -> ax_domain h k0 i with
    | AxPrec => fun K _ => match K eq_refl with end | AxFoll => fun _ K => match K eq_refl with end | _ => fun _ _ => Logic.I end K1 K2)) as (l & _ & _ & N & F1 & F2).
  destruct HW as [HW|HW]; [exists l; split; [exact (F1 w HW PR)|exact N]|exists (rev l); split; [exact (F2 w HW PR)|apply NoDup_rev; exact N]].
Qed.
Print Assumptions C127_filters.
Print Assumptions C127_subqueries.
Print Assumptions C127_negated.
Print Assumptions C127_equivalent.
Lemma safe_quiet g : safe (lit "/{}") false g -> quiet g.
Proof.
  intros H. split; [rewrite (safe_after (lit "/{}") g) by (cbn; tauto || exact H); reflexivity|]. intros u c v E I. exact (safe_at (lit "/{}") g false 0 u c v H E I ltac:(cbn; lia)).
Qed.
(** ** a case: **([i:0] | [s:b]) & ~[i:2] *)
Example C127_case : writes demo_expr demo_items /\ (forall g, In g (atoms demo_items) -> filter_group ascii g /\ quiet g) /\ NoDup [1; 3; 2]%nat /\
  ito_find_all ascii demo no_dicts 0 (lit "**") = ([1; 3; 2]%nat, None) /\
  map (fun g => ito_find_all ascii demo no_dicts 0 (lit "**" ++ g)) (atoms demo_items) = [([1%nat], None); ([3%nat], None); ([2%nat], None)] /\
  ito_find_all ascii demo no_dicts 0 (lit "**" ++ text_of demo_items) = ([1; 3]%nat, None) /\
  ito_find_all ascii demo no_dicts 0 (lit "**[~i:2]") = ([1; 3]%nat, None).
Proof.
  split; [exact demo_writes|]. split; [intros g Ig; split; [exact (demo_groups g Ig)|]|].
  - apply safe_quiet. apply safe_plain. intros c Hc. cbn in Ig. destruct Ig as [<-|[<-|[<-|[]]]]; unfold g0, g1, g2 in Hc; cbn in *; lia.
  - split; [repeat constructor; cbn; lia|]. repeat split; vm_compute; reflexivity.
Qed.
