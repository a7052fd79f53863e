(** Property theorem C134: a query of one axis gives what the members of the Ito give
    (children, parent, get_root, walk_descendants, descends_from).  Statements with
    short proofs over NavFacts. *)
From Verif Require Import SpecQuery Axis HeapFacts2 HeapFacts4 QueryFacts16 NavFacts QueryDemo Properties_Heap.

(** the environment prints the characters of axes *)
Definition axis_env (E : pyenv) : Prop := plain_delims E /\ forall c, In c (lit ".*<>") -> py_isprintable E c = true.
Local Ltac text := eexists; split; [first [reflexivity | left; reflexivity] | reflexivity].
Local Ltac shown HP := match goal with |- printable _ (lit ?s) => let v := eval vm_compute in (lit s) in change (lit s) with v end;
  match goal with |- printable _ (45 :: ?c :: _) => exists c; split; [right; left; reflexivity|apply HP; cbn; tauto]
                | |- printable _ (?c :: _) => exists c; split; [left; reflexivity|apply HP; cbn; tauto] end.

(** downwards: the child list, walk_descendants, and the descendants without children; - reverses *)
Theorem C134_children : forall E h r i, axis_env E ->
  ito_find_all E h r i (lit "*") = (n_kids (nd h i), None) /\ ito_find_all E h r i (lit "-*") = (rev (n_kids (nd h i)), None).
Proof. intros E h r i [HE HP]. split; [apply (nav_kids E h r i false)|apply (nav_kids E h r i true)]; try exact HE; try text; shown HP. Qed.
Theorem C134_descendants : forall E h r i, axis_env E -> hwf h -> acyclic h -> (i < length h)%nat ->
  exists l, walk_levels (depth_fuel h) h i 0 false = Ok l /\ walk_levels (depth_fuel h) h i 0 true = Ok (rev l) /\
    ito_find_all E h r i (lit "**") = (map snd l, None) /\ ito_find_all E h r i (lit "-**") = (rev (map snd l), None) /\
    ito_find_all E h r i (lit "***") = (filter (fun j => match n_kids (nd h j) with [] => true | _ => false end) (map snd l), None).
Proof.
  intros E h r i [HE HP] H Ha Hi. destruct (C35_walk h i 0 H Ha Hi) as (l & W1 & W2 & _). exists l. split; [exact W1|]. split; [exact W2|]. split; [|split].
  - apply (nav_walk E h r i false _ l HE); [text|shown HP|exact W1].
  - rewrite <- map_rev. apply (nav_walk E h r i true _ (rev l) HE); [text|shown HP|exact W2].
  - apply (nav_leaves E h r i false _ l HE); [text|shown HP|exact W1].
Qed.
(** upwards: parent, get_root (of a node that has a parent), and the nodes descends_from says yes to *)
Theorem C134_up : forall E h r i, axis_env E -> hwf h -> acyclic h -> (i < length h)%nat ->
  ito_find_all E h r i (lit ".") = ([i], None) /\
  ito_find_all E h r i (lit "..") = (match n_par (nd h i) with Some p => [p] | None => [] end, None) /\
  (exists root, get_root (depth_fuel h) h i = Ok root /\
     ito_find_all E h r i (lit "....") = (match n_par (nd h i) with Some _ => [root] | None => [] end, None)) /\
  (exists l, ito_find_all E h r i (lit "...") = (l, None) /\ forall j, In j l <-> descends_from (depth_fuel h) h i j = Ok true).
Proof.
  intros E h r i [HE HP] H Ha Hi. split; [|split; [|split]].
  - apply (nav_self E h r i false); [exact HE|text|shown HP].
  - apply (nav_parent E h r i false); [exact HE|text|shown HP].
  - apply (nav_root E h r i false); [exact HE|text|shown HP|exact H|exact Ha|exact Hi].
  - apply (nav_ancs E h r i false); [exact HE|text|shown HP|exact H|exact Ha|exact Hi].
Qed.
(** beside: the children of the parent before and after it, the nearest first *)
Theorem C134_beside : forall E h r p l i rt, axis_env E -> hwf h -> n_kids (nd h p) = l ++ i :: rt ->
  ito_find_all E h r i (lit "<<") = (rev l, None) /\ ito_find_all E h r i (lit "-<<") = (l, None) /\
  ito_find_all E h r i (lit ">>") = (rt, None) /\ ito_find_all E h r i (lit "->>") = (rev rt, None) /\
  ito_find_all E h r i (lit "<") = (firstn 1 (rev l), None) /\ ito_find_all E h r i (lit ">") = (firstn 1 rt, None).
Proof.
  intros E h r p l i rt [HE HP] H Ek.
  assert (S : forall k rv, k = AxPrevs \/ k = AxNexts \/ k = AxPrev \/ k = AxNext -> forall w ys, axis_text (AX k rv OsNo) w -> printable E w ->
    axis_of h k rv i = (ys, None) -> ito_find_all E h r i w = (ys, None)).
  { intros k rv K w ys T PR A. apply (nav_find E h r i k rv w ys HE T PR). apply nav_of; [destruct K as [->|[->|[->| ->]]]; discriminate..|exact A]. }
  repeat split; [apply (S AxPrevs false)|apply (S AxPrevs true)|apply (S AxNexts false)|apply (S AxNexts true)|apply (S AxPrev false)|apply (S AxNext false)]; try tauto; try text; try shown HP;
    rewrite (sib_of h p l i rt _ _ H Ek); reflexivity.
Qed.
(** a node without a parent has nothing beside it *)
Theorem C134_beside_root : forall E h r i, axis_env E -> n_par (nd h i) = None -> forall w, In w [lit "<"; lit "<<"; lit ">"; lit ">>"] -> ito_find_all E h r i w = ([], None).
Proof.
  intros E h r i [HE HP] N w Hw.
  assert (S : forall k, k = AxPrevs \/ k = AxNexts \/ k = AxPrev \/ k = AxNext -> forall w, axis_text (AX k false OsNo) w -> printable E w -> ito_find_all E h r i w = ([], None)).
  { intros k K v T PR. apply (nav_find E h r i k false v [] HE T PR). apply nav_of; [destruct K as [->|[->|[->| ->]]]; discriminate..|]. destruct K as [->|[->|[->| ->]]]; cbn [axis_of]; rewrite N; reflexivity. }
  destruct Hw as [<-|[<-|[<-|[<-|[]]]]]; [apply (S AxPrev)|apply (S AxPrevs)|apply (S AxNext)|apply (S AxNexts)]; try tauto; try text; shown HP.
Qed.
Print Assumptions C134_descendants.
Print Assumptions C134_up.
Print Assumptions C134_beside.
Example C134_case : axis_env ascii /\ hwf demo /\ acyclic demo /\ n_kids (nd demo 0) = [1; 2]%nat /\
  ito_find_all ascii demo no_dicts 0 (lit "**") = ([1; 3; 2]%nat, None) /\ ito_find_all ascii demo no_dicts 3 (lit "....") = ([0%nat], None) /\
  ito_find_all ascii demo no_dicts 2 (lit "<") = ([1%nat], None) /\ ito_find_all ascii demo no_dicts 0 (lit "....") = ([], None).
Proof.
  split; [split; [exact ascii_delims|intros c Hc; cbn in Hc; repeat (destruct Hc as [<-|Hc]; [reflexivity|]); destruct Hc]|].
  split; [exact demo_wf|]. split; [exact demo_acyclic|]. vm_compute. auto 10.
Qed.
