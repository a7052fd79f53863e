(** Property theorems C41 - C45: the axes of a query.  Only statements, closed by
    [exact], with examples. *)
From Verif Require Import AxisFacts3 Properties_Heap.

(** ** C41 *)
(** from one node: exactly the nodes of the axis, once each, nearest first; - reverses *)
Theorem C41_axes : forall h k i, hwf h -> acyclic h -> (i < length h)%nat -> k <> AxPrec -> k <> AxFoll ->
  exists l, (forall j, In j l <-> ax_set h k i j) /\ StronglySorted (ax_order h k) l /\ NoDup l /\
    axis_find h (AX k false OsNo) ([i], None) = (number l, None) /\ axis_find h (AX k true OsNo) ([i], None) = (number (rev l), None).
Proof.
  exact (fun h k i H Ha Hi K1 K2 => match axis_full h k i H Ha Hi (match k as k0 return k0 <> AxPrec -> k0 <> AxFoll -> ax_domain h k0 i with
    | AxPrec => fun K _ => match K eq_refl with end | AxFoll => fun _ K => match K eq_refl with end | _ => fun _ _ => Logic.I end K1 K2) with
    ex_intro _ l (conj a (conj b (conj c (conj d (conj e _))))) => ex_intro _ l (conj a (conj b (conj c (conj d e)))) end).
Qed.
(** the order determines the list *)
Theorem C41_order_irreflexive : forall h k, hwf h -> acyclic h -> forall a, ~ ax_order h k a a.
Proof. exact ax_order_irrefl. Qed.
Theorem C41_order_asymmetric : forall h, hwf h -> acyclic h -> forall a b, doc_before h a b -> doc_before h b a -> False.
Proof. exact doc_asym. Qed.
Print Assumptions C41_axes.
Definition ax0 k := AX k false OsNo.
Example C41_case : map (fun k => map snd (fst (axis_find demo (ax0 k) ([3%nat], None)))) [AxRoot; AxAncs; AxParent; AxSelf; AxDescs] = [[0]; [1; 0]; [1]; [3]; []]%nat /\
  map (fun k => map snd (fst (axis_find demo (ax0 k) ([0%nat], None)))) [AxKids; AxDescs; AxLeaves] = [[1; 2]; [1; 3; 2]; [3; 2]]%nat /\
  map (fun k => map snd (fst (axis_find demo (ax0 k) ([2%nat], None)))) [AxPrev; AxPrevs; AxNext; AxNexts] = [[1]; [1]; []; []]%nat.
Proof. by_vm. Qed.

(** ** C42 *)
(** <<< and >>> from one node: the preceding and following nodes, nearest first *)
Theorem C42_preceding_following : forall h k i, hwf h -> acyclic h -> (i < length h)%nat -> k = AxPrec \/ k = AxFoll -> ax_domain h k i ->
  exists l, (forall j, In j l <-> ax_set h k i j) /\ StronglySorted (ax_order h k) l /\ NoDup l /\
    axis_find h (AX k false OsNo) ([i], None) = (number l, None) /\ axis_find h (AX k true OsNo) ([i], None) = (number (rev l), None).
Proof.
  exact (fun h k i H Ha Hi _ D => match axis_full h k i H Ha Hi D with
    ex_intro _ l (conj a (conj b (conj c (conj d (conj e _))))) => ex_intro _ l (conj a (conj b (conj c (conj d e)))) end).
Qed.
(** self, ancestors, descendants, preceding, following: each node of the tree exactly once *)
Theorem C42_partition : forall h i, hwf h -> acyclic h -> (i < length h)%nat -> (forall j, nonempty h j \/ n_par (nd h j) = None) ->
  exists an de pr fo all r,
    axis_find h (AX AxAncs false OsNo) ([i], None) = (number an, None) /\ axis_find h (AX AxDescs false OsNo) ([i], None) = (number de, None) /\
    axis_find h (AX AxPrec false OsNo) ([i], None) = (number pr, None) /\ axis_find h (AX AxFoll false OsNo) ([i], None) = (number fo, None) /\
    root_of h r i /\ walk h r false = (all, None) /\ NoDup (r :: all) /\ Permutation (i :: an ++ de ++ pr ++ fo) (r :: all).
Proof. exact partition_tree. Qed.
Print Assumptions C42_partition.
(** with zero-width nodes it fails: 1 = [0:2] with the child 2 = [2:2]; >>> from 1 finds its own child *)
Definition zdemo : heap :=
  run [] [ONew (lit "abcd") None None None; OSub 0 (Some 0) (Some 2) None; OSub 0 (Some 2) (Some 2) None; OAdd 1 [2]%nat; OAdd 0 [1]%nat].
Lemma zdemo_ok : hwf zdemo /\ acyclic zdemo.
Proof. split; [exact (run_inv _ [] hwf_nil)|]. apply run_acyclic; [exact hwf_nil|exact acyclic_nil|]. cbn -[same_span]. repeat split; repeat constructor; vm_compute; intros [? ?]; discriminate. Qed.
Example C42_zero_width : axis_find zdemo (ax0 AxFoll) ([1%nat], None) = (number [2%nat], None) /\ anc zdemo 1 2.
Proof. split; [vm_compute; reflexivity|apply anc_parent; reflexivity]. Qed.
Example C42_case : (forall j, nonempty demo j \/ n_par (nd demo j) = None) /\
  map (fun k => map snd (fst (axis_find demo (ax0 k) ([2%nat], None)))) [AxPrec; AxFoll; AxAncs] = [[3; 1]; []; [0]]%nat.
Proof. split; [|by_vm]. intros [|[|[|[|[|j]]]]]; try (left; vm_compute; reflexivity). right. destruct j; reflexivity. Qed.

(** ** C43 *)
Theorem C43_concat_partial : forall h a l e, ax_local (ax_key a) = true -> axis_find h a (l, e) = gbind (l, e) (fun i => axis_find h a ([i], None)).
Proof. exact axis_local_concat. Qed.
(** node by node, in words: what the step finds at the nodes one after another; if it raises at one of them, what was found up to there and the exception *)
Theorem C43_node_by_node : forall (B : Type) (l : list nat) (e : option exn) (f : nat -> gen B),
  ((forall i, In i l -> snd (f i) = None) -> gbind (l, e) f = (concat (map (fun i => fst (f i)) l), e)) /\
  (forall l1 i l2 x, l = l1 ++ i :: l2 -> (forall j, In j l1 -> snd (f j) = None) -> snd (f i) = Some x ->
     gbind (l, e) f = (concat (map (fun j => fst (f j)) l1) ++ fst (f i), Some x)).
Proof.
  intros B l e f. unfold gbind. cbn [fst snd]. split.
  - induction l as [|x l IH]; intros H; [reflexivity|]. cbn [gflat map concat]. pose proof (H x (or_introl eq_refl)) as X. destruct (f x) as [ys o]. cbn [snd] in X. subst o.
    rewrite IH by (intros i I; apply H; right; exact I). reflexivity.
  - intros l1 i l2 x ->. induction l1 as [|y l1 IH]; intros H X.
    + cbn [app gflat map concat]. destruct (f i) as [ys o]. cbn [snd] in X. subst o. reflexivity.
    + cbn [app gflat map concat]. pose proof (H y (or_introl eq_refl)) as Y. destruct (f y) as [ys o]. cbn [snd] in Y. subst o.
      rewrite IH by (try exact X; intros j I; apply H; right; exact I). cbn [fst]. rewrite <- app_assoc. reflexivity.
Qed.
Print Assumptions C43_node_by_node.
(** '.' passes its input on (numbered through) *)
Theorem C43_self_partial : forall h r o l e, let g := axis_find h (AX AxSelf r o) (l, e) in (map snd (fst g), snd g) = (l, e).
Proof. exact axis_self_concat. Qed.
(** <<< and >>> look at the last node only ... *)
Theorem C43_last_only : forall h k r o l i, k = AxPrec \/ k = AxFoll -> Forall (fun j => n_par (nd h j) <> None) (l ++ [i]) ->
  axis_find h (AX k r o) (l ++ [i], None) = axis_find h (AX k r o) ([i], None).
Proof. exact last_only. Qed.
(** ... so they are not unions: from 3 and 2 of demo, >>> gives nothing although 2 follows 3 *)
Theorem C43_union_refuted : exists h l, hwf h /\ acyclic h /\ axis_find h (ax0 AxFoll) (l, None) <> gbind (l, None) (fun i => axis_find h (ax0 AxFoll) ([i], None)).
Proof. exists demo, [3; 2]%nat. split; [exact demo_wf|split; [exact demo_acyclic|vm_compute; discriminate]]. Qed.
(** ... and they raise on an empty input *)
Theorem C43_empty_refuted : forall h r o, axis_find h (AX AxPrec r o) ([], None) = ([], Some UnboundLocalError) /\ axis_find h (AX AxFoll r o) ([], None) = ([], Some UnboundLocalError).
Proof. exact (fun h r o => conj eq_refl eq_refl). Qed.
Print Assumptions C43_concat_partial.
Example C43_case : map snd (fst (axis_find demo (ax0 AxAncs) ([3; 2]%nat, None))) = [1; 0; 0]%nat.
Proof. by_vm. Qed.

(** ** C44 *)
Theorem C44_options : forall h k r o i l, k <> AxSelf -> k <> AxDedup -> axis_find h (AX k r OsNo) ([i], None) = (number l, None) -> ~ In i l ->
  axis_find h (AX k r o) ([i], None) = (number (with_self o r i l), None).
Proof. exact self_option. Qed.
(** the axis itself never contains the node it starts from (only >>> on zero-width nodes does) *)
Theorem C44_self_absent : forall h k r i l, hwf h -> acyclic h -> (i < length h)%nat -> k <> AxSelf -> k <> AxDedup -> ax_domain h k i \/ k <> AxFoll ->
  axis_find h (AX k r OsNo) ([i], None) = (number l, None) -> ~ In i l.
Proof. exact self_not_found. Qed.
Theorem C44_numbering : forall (l : list nat), map fst (number l) = seq 0 (length l) /\ map snd (number l) = l.
Proof. exact number_spec. Qed.
Print Assumptions C44_options.
Example C44_case : axis_find demo (AX AxAncs false OsAlways) ([3%nat], None) = ([(0, 3); (1, 1); (2, 0)]%nat, None) /\
  axis_find demo (AX AxAncs true OsAlways) ([3%nat], None) = ([(0, 0); (1, 1); (2, 3)]%nat, None) /\
  axis_find demo (AX AxAncs false OsEmpty) ([3; 0]%nat, None) = ([(0, 1); (1, 0); (0, 0)]%nat, None).
Proof. by_vm. Qed.

(** ** C45 *)
(** what >< returns, up to == *)
Theorem C45_dedup : forall h l, exists l',
  (forall r o, axis_find h (AX AxDedup r o) (l, None) = (number (if r then rev l' else l'), None)) /\
  incl l' l /\ (forall x, In x l -> exists y, In y l' /\ node_eqb h y x = true) /\
  StronglySorted (fun x y => node_eqb h x y = false /\ (first_at x l < first_at y l)%nat) l'.
Proof. exact (fun h l => ex_intro _ (dedup h [] l) (conj (fun r o => dedup_find h r o l) (dedup_full h l))). Qed.
(** when no two different nodes are ==, each node once in order of first occurrence *)
Theorem C45_identity_partial : forall h l, (forall x y, In x l -> In y l -> node_eqb h x y = true -> x = y) ->
  exists l', axis_find h (ax0 AxDedup) (l, None) = (number l', None) /\ firsts_of l l'.
Proof. exact (fun h l U => ex_intro _ (dedup h [] l) (conj (dedup_find h false OsNo l) (dedup_identity h l U))). Qed.
(** different nodes that are == are merged: 3 and 4 of demo *)
Theorem C45_distinct_refuted : exists h l, hwf h /\ NoDup l /\ axis_find h (ax0 AxDedup) (l, None) <> (number l, None).
Proof. exists demo, [3; 4]%nat. split; [exact demo_wf|split; [exact dedup_wit|vm_compute; discriminate]]. Qed.
Print Assumptions C45_dedup.
Example C45_case : axis_find demo (ax0 AxDedup) ([2; 3; 2; 1; 3]%nat, None) = (number [2; 3; 1]%nat, None).
Proof. by_vm. Qed.
