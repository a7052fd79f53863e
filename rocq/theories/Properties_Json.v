(** Properties of serialisation: C50, C51.
    h is the heap of the writer, g the heap of the reader (any other well-formed heap). *)
From Verif Require Import Json SpecJson JsonFacts2 JsonFacts3 QueryDemo Properties_Heap.

(** ** C50 *)
(** full_tree: the reader gets a fresh tree equal to the whole tree of the writer and
    the Ito at the same path in it.  Missing: roots (C50_root_refuted), trees in which
    add_hierarchical rearranges the children (C50_echo_refuted, C50_zero_refuted). *)
Theorem C50_full_partial : forall E g h i root t stringless hs, json_env E -> hwf h -> acyclic h -> (i < length h)%nat -> n_par (nd h i) <> None -> root_of h root i -> rep h t root -> json_safe t ->
  hwf g -> acyclic g -> (stringless = true -> hs = Some (h_string h i)) ->
  exists j g' root' i', json_encode E stringless true h i = Ok j /\ json_hook E hs g j = (g', Ok (HIto (Some i'))) /\ extends g g' /\ hwf g' /\ acyclic g' /\
    (length g <= root')%nat /\ (length g <= i' < length g')%nat /\ root_of g' root' i' /\ rep g' (forget t) root' /\ ito_path g' i' = ito_path h i /\ forall u, rep h u i -> rep g' (forget u) i'.
Proof. exact json_full. Qed.
(** without full_tree: one fresh parentless childless equal Ito, for every Ito *)
Theorem C50_single : forall E g h i stringless hs, json_env E -> hwf h -> (i < length h)%nat -> hwf g -> acyclic g -> (stringless = true -> hs = Some (h_string h i)) ->
  exists j, json_encode E stringless false h i = Ok j /\
    json_hook E hs g j = (g ++ [Nd (forget_f (n_f (nd h i))) None []], Ok (HIto (Some (length g)))).
Proof. exact json_single. Qed.
(** written without its string and read without one: ValueError, nothing made *)
Theorem C50_no_string : forall E g h i full j, json_encode E true full h i = Ok j -> json_hook E None g j = (g, Err ValueError).
Proof. exact json_no_string. Qed.
(** the decoder offers every inner object to the hook, too; those are left alone *)
Theorem C50_inner : forall E g h n full i j hs, ito_encoder n full h i = Ok j -> json_hook E hs g j = (g, Ok (HObj j)).
Proof. exact json_inner. Qed.
(** a root cannot be written with full_tree *)
Theorem C50_root_refuted : forall E h i stringless, json_env E -> hwf h -> acyclic h -> (i < length h)%nat -> n_par (nd h i) = None -> json_encode E stringless true h i = Err AttributeError.
Proof. exact json_root_error. Qed.
Print Assumptions C50_full_partial.
Print Assumptions C50_single.
Print Assumptions C50_no_string.
Print Assumptions C50_inner.
Print Assumptions C50_root_refuted.

Lemma ascii_json : json_env ascii.
Proof. split; [exact ascii_delims|]. split; [exact ascii_ints|]. split; reflexivity. Qed.
(** encode, then decode in an empty heap *)
Definition json_trip (h : heap) (i : nat) : out hooked :=
  match json_encode ascii false true h i with Ok j => json_hook ascii None [] j | Err e => ([], Err e) end.
(** 0 = [0,6] over 1 = [0,3] and 2 = [3,5] 'outer', the latter over 3 = [3,5] 'inner' *)
Definition echo_heap : heap :=
  run [] [ONew (lit "abcdef") None None None; OSub 0 (Some 0) (Some 3) None; OSub 0 (Some 3) (Some 5) (Some (lit "outer"));
          OSub 0 (Some 3) (Some 5) (Some (lit "inner")); OAdd 0 [1; 2]%nat; OAdd 2 [3]%nat].
(** the same with 3 = [3,3] *)
Definition zero_heap : heap :=
  run [] [ONew (lit "abcdef") None None None; OSub 0 (Some 0) (Some 3) None; OSub 0 (Some 3) (Some 5) (Some (lit "outer"));
          OSub 0 (Some 3) (Some 3) (Some (lit "inner")); OAdd 0 [1; 2]%nat; OAdd 2 [3]%nat].
(** parents made before their children: no cycle *)
Lemma ranked_acyclic h : (forall i p, n_par (nd h i) = Some p -> (p < i)%nat) -> acyclic h.
Proof.
  intros H i A. assert (G : forall a d, anc h a d -> (a < d)%nat) by (intros a d X; induction X as [d X|d q X Y IH]; [exact (H d a X)|pose proof (H d q X); lia]).
  pose proof (G i i A). lia.
Qed.
Ltac by_rank := apply ranked_acyclic; intros [|[|[|[|[|i]]]]] p; vm_compute; try discriminate; try (intros [= <-]; lia); destruct i; discriminate.
Definition desc_at (h : heap) (i : nat) : option pystr := f_desc (n_f (nd h i)).
(** the Ito 'inner' is read back as 'outer', and is now the parent *)
Theorem C50_echo_refuted : hwf echo_heap /\ acyclic echo_heap /\ desc_at echo_heap 3 = Some (lit "inner") /\ n_par (nd echo_heap 3) = Some 2%nat /\
  exists g i, json_trip echo_heap 3 = (g, Ok (HIto (Some i))) /\ desc_at g i = Some (lit "outer").
Proof.
  split; [exact (run_inv _ [] hwf_nil)|]. split; [by_rank|]. split; [reflexivity|]. split; [reflexivity|].
  eexists. eexists. split; vm_compute; reflexivity.
Qed.
(** the zero-width Ito moves to the neighbour of its parent: nothing is at the path *)
Theorem C50_zero_refuted : hwf zero_heap /\ acyclic zero_heap /\ n_par (nd zero_heap 3) = Some 2%nat /\
  exists g, json_trip zero_heap 3 = (g, Ok (HIto None)).
Proof.
  split; [exact (run_inv _ [] hwf_nil)|]. split; [by_rank|]. split; [reflexivity|].
  eexists. vm_compute. reflexivity.
Qed.
Print Assumptions C50_echo_refuted.
Print Assumptions C50_zero_refuted.
Example C50_case : json_env ascii /\ hwf demo /\ acyclic demo /\ root_of demo 0 3 /\ (exists t, rep demo t 0 /\ json_safe t) /\
  exists g, json_trip demo 3 = (g, Ok (HIto (Some 2%nat))) /\ map n_kids g = [[1; 3]; [2]; []; []]%nat.
Proof.
  split; [exact ascii_json|]. split; [exact demo_wf|]. split; [exact demo_acyclic|]. split.
  { split; [reflexivity|right]. apply (anc_up _ _ _ 1%nat); [reflexivity|]. apply anc_parent. reflexivity. }
  split.
  { exists (T (n_f (nd demo 0)) [T (n_f (nd demo 1)) [T (n_f (nd demo 3)) []]; T (n_f (nd demo 2)) []]). split.
    - vm_compute. repeat split.
    - vm_compute. repeat (constructor; cbn [tl]); try discriminate; try (intros k; discriminate). }
  eexists. split; vm_compute; reflexivity.
Qed.

(** ** C51 *)
Theorem C51_pickle : forall h g i, hwf h -> acyclic h -> (i < length h)%nat -> hwf g -> acyclic g ->
  exists p g' i', pickle_dump (depth_fuel h) h i = Ok p /\ pickle_load g p = (g', i') /\ extends g g' /\ hwf g' /\ acyclic g' /\ (length g <= i' < length g')%nat /\ n_par (nd g' i') = None /\
    (forall j, anc g' i' j -> (length g <= j)%nat) /\ forall t, rep h t i -> rep g' (forget t) i'.
Proof. exact pickle_round. Qed.
Print Assumptions C51_pickle.
Example C51_case : exists p, pickle_dump (depth_fuel demo) demo 0 = Ok p /\ map n_kids (fst (pickle_load demo p)) = map n_kids demo ++ [[6; 8]; [7]; []; []]%nat.
Proof. eexists. split; vm_compute; reflexivity. Qed.
