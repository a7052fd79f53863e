(** Property theorems C119: pipelines keep every tree well-formed. *)
From Verif Require Import Properties_Heap Properties_Hier Properties_Combin Properties_Arbor.
From Verif Require Import ArborFacts4 PipeFacts2.

(** a pipeline without AddHierarchical: at every moment of its run, whatever its consumer
    does to the Itos in between, also after an exception *)
Theorem C119_pipeline_partial : forall fuel P t i h, prog_orderly true P -> no_hierarchical P -> hwf h -> (i < length h)%nat ->
  orderly true (call fuel P t i) h.
Proof. exact (fun fuel P t i h A B W Hi => call_orderly true P fuel t i h A (fun _ => B) W Hi). Qed.
(** any pipeline: at every moment, until an exception is raised *)
Theorem C119_hierarchical_partial : forall fuel P t i h, prog_orderly false P -> hwf h -> (i < length h)%nat ->
  orderly false (call fuel P t i) h.
Proof. exact (fun fuel P t i h A W Hi => call_orderly false P fuel t i h A (fun X => match Bool.diff_false_true X with end) W Hi). Qed.
(** add_hierarchical itself, on any well-formed heap (also one with a cycle): when it
    does not raise, every Ito is well-formed again and keeps its data *)
Theorem C119_add_hierarchical_partial : forall key fuel h p cs h', hwf h -> (p < length h)%nat -> Forall (fun c => (c < length h)%nat) cs ->
  add_hier fuel key h p cs = (h', Ok tt) -> hwf h' /\ length h' = length h /\ forall j, n_f (nd h' j) = n_f (nd h j).
Proof. exact (fun key n h p cs h' => accepted_all key n p cs h h'). Qed.
(** refuted: an itorator behind AddHierarchical yields [4:5] for an Ito [0:3]; the
    exception leaves [4:5] among the children of the copy *)
Definition late : nat -> strm := fun i => act (fun h => new_str h (h_string h i) (Some 4) (Some 5) None) (fun j => Yield j Stop).
Definition late_pipe : prog := fun t =>
  match t with O => Itor TReflect [Con CAddHier (PFun (fun _ _ => Ok true)) 1] PostNone | _ => Itor (TWrap late) [] PostNone end.
Lemma late_safe b n i : (i < n)%nat -> safe b n (late i).
Proof.
  intros Hi. apply safe_tidy. apply (act_tidy b n _ (fun m j => (j < m)%nat)); [|intros n' j _ Hj; apply yield_tidy; exact Hj].
  intros h W L. unfold new_str. destruct (new_ok h (ito_of_str (h_string h i) (Some 4) (Some 5) None) W) as (X1 & X2 & X3); [destruct (ito_of_str_wf (h_string h i) (Some 4) (Some 5) None); split; assumption|].
  unfold new_node in *. cbn [fst snd] in *. auto.
Qed.
Theorem C119_refuted : prog_orderly true late_pipe /\ hwf hdemo /\ exists e h', moment (call 9 late_pipe 0 1) hdemo (Raise e) h' /\ ~ hwf h'.
Proof.
  split; [intros [|t]; (split; [|exact Logic.I]); [exact Logic.I|exact (late_safe true)]|]. split; [exact hdemo_wf|].
  assert (D : forall s h h1 e, drain s h = (h1, ([], Some e)) -> moment s h (Raise e) h1).
  { induction s as [|x|j k IH|f k IH]; intros h h1 e E; cbn [drain] in E; [discriminate| | |].
    - injection E as <- <-. constructor.
    - destruct (drain k h) as [h2 [l x]]. discriminate.
    - constructor. apply IH. exact E. }
  exists ValueError, (fst (drain (call 9 late_pipe 0 1) hdemo)). split; [apply D; vm_compute; reflexivity|].
  set (g := fst _). assert (I : existsb (fun p => existsb (fun c => match n_par (nd g c) with None => true | Some _ => false end) (n_kids (nd g p))) (seq 0 20) = true) by (vm_compute; reflexivity).
  clearbody g. intros H. apply existsb_exists in I. destruct I as (p & _ & I). apply existsb_exists in I. destruct I as (c & Hc & I). apply (hwf_kid g H) in Hc. destruct Hc as [E _]. rewrite E in I. discriminate.
Qed.
Print Assumptions C119_pipeline_partial.
Print Assumptions C119_hierarchical_partial.
Print Assumptions C119_add_hierarchical_partial.
Print Assumptions C119_refuted.
(** the demo pipeline (Split, Extract, Invert, Nuco, a wrapped function, five kinds of
    connectors) meets the hypotheses and yields *)
Lemma half_safe b n i : (i < n)%nat -> safe b n (half i).
Proof.
  intros Hi. apply safe_tidy. apply (act_tidy b n _ (fun m j => (j < m)%nat)); [|intros n' j _ Hj; apply yield_tidy; exact Hj].
  intros h. exact (clone_ok b n i (Some (h_start h i)) (Some ((h_start h i + h_stop h i) / 2)) None false Hi h).
Qed.
Example C119_case : prog_orderly true pipe /\ no_hierarchical pipe /\ hwf demo /\ fst (snd (drain (call 10 pipe 5 0) demo)) <> [].
Proof.
  split; [|split; [|split; [exact demo_wf|vm_compute; discriminate]]].
  - intros t. do 6 (destruct t as [|t]; [split; exact Logic.I|]). split; [exact (half_safe true)|exact Logic.I].
  - intros t. do 6 (destruct t as [|t]; [repeat constructor; discriminate|]). constructor.
Qed.
(** a pipeline with AddHierarchical that succeeds: [0:1] goes before the child [1:2] of [0:3] *)
Definition half_pipe : prog := fun t =>
  match t with O => Itor TReflect [Con CAddHier (PFun (fun _ _ => Ok true)) 1] PostNone | _ => Itor (TWrap half) [] PostNone end.
Example C119_hier_case : prog_orderly false half_pipe /\
  let r := drain (call 9 half_pipe 0 1) hdemo in seen r = ([(0, 3)], None) /\
  map (fun c => (h_start (fst r) c, h_stop (fst r) c)) (n_kids (nd (fst r) (hd 0%nat (fst (snd r))))) = [(0, 1); (1, 2)].
Proof.
  split; [intros [|t]; (split; [|exact Logic.I]); [exact Logic.I|exact (half_safe false)]|]. cbv zeta. split; vm_compute; reflexivity.
Qed.
