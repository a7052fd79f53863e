(** C121: queries cannot tell copies apart. *)
From Verif Require Import Query SpecQuery SpecHeap HeapFacts2 HeapFacts3 HeapFacts4 HierHeap3 Json SpecJson JsonFacts2 CopyFacts3 QueryDemo Properties_Heap Properties_Json Properties_Query SpecCopies QueryDemo.

(** [root] and [root'] are the roots of trees of the same form. *)
Definition twins (h : heap) (root : nat) (h' : heap) (root' : nat) : Prop :=
  hwf h /\ acyclic h /\ (root < length h)%nat /\ n_par (nd h root) = None /\
  hwf h' /\ acyclic h' /\ (root' < length h')%nat /\ n_par (nd h' root') = None /\ exists t, rep h t root /\ rep h' t root'.
(** Both found, and at the same place; or neither; or the same exception. *)
Definition same_found (R : nat -> nat -> Prop) (x y : res (option nat)) : Prop :=
  match x, y with Ok (Some i), Ok (Some i') => R i i' | Ok None, Ok None => True | Err e, Err e' => e = e' | _, _ => False end.

Theorem C121_find_all : forall E h root h' root' e e' i i' path, twins h root h' root' -> same_place h root h' root' i i' -> alike (same_place h root h' root') e e' ->
  same_results (same_place h root h' root') (ito_find_all E h e i path) (ito_find_all E h' e' i' path).
Proof.
  intros E h root h' root' e e' i i' path (H & Ha & B & P & H' & Ha' & B' & P' & t & T1 & T2) S V.
  exact (find_all_same h h' _ H H' Ha Ha' (place_sim h h' H H' root root' P P' B B' t T1 T2) e e' V E path i i' S).
Qed.
Theorem C121_find : forall E h root h' root' e e' i i' path, twins h root h' root' -> same_place h root h' root' i i' -> alike (same_place h root h' root') e e' ->
  same_found (same_place h root h' root') (ito_find E h e i path) (ito_find E h' e' i' path).
Proof.
  intros E h root h' root' e e' i i' path (H & Ha & B & P & H' & Ha' & B' & P' & t & T1 & T2) S V.
  pose proof (find_same h h' _ H H' Ha Ha' (place_sim h h' H H' root root' P P' B B' t T1 T2) e e' V E path i i' S) as G.
  destruct (ito_find E h e i path) as [[x|]|], (ito_find E h' e' i' path) as [[y|]|]; exact G.
Qed.
(** Itos at the same place have the same data, the same path and the same number of children. *)
Theorem C121_place : forall h root h' root' i i', twins h root h' root' -> same_place h root h' root' i i' ->
  n_f (nd h i) = n_f (nd h' i') /\ ito_path h i = ito_path h' i' /\ length (n_kids (nd h i)) = length (n_kids (nd h' i')).
Proof.
  intros h root h' root' i i' (H & Ha & B & P & H' & Ha' & B' & P' & t & T1 & T2) S. pose proof (place_sim h h' H H' root root' P P' B B' t T1 T2) as M.
  split; [exact (s_f _ _ _ M i i' S)|]. split; [exact (ito_path_same h h' _ H H' Ha Ha' M i i' S)|]. exact (Forall2_len _ _ _ (s_kids _ _ _ M i i' S)).
Qed.
(** Every Ito of the one tree has exactly one counterpart in the other. *)
Theorem C121_counterpart : forall h root h' root' w i, twins h root h' root' -> leads h root w i ->
  exists i', same_place h root h' root' i i' /\ leads h' root' w i' /\ forall j', same_place h root h' root' i j' -> j' = i'.
Proof.
  intros h root h' root' w i (H & Ha & B & P & H' & Ha' & B' & P' & t & T1 & T2) L. pose proof (place_sim h h' H H' root root' P P' B B' t T1 T2) as M.
  assert (G : exists i', leads h' root' w i').
  { revert i L. induction w as [|k w IH] using rev_ind; intros i L; [exists root'; constructor|]. apply leads_last in L. destruct L as (p & Lp & Hp). destruct (IH p Lp) as (p' & Lp').
    destruct (Forall2_nth' _ _ _ (s_kids _ _ _ M p p' (ex_intro _ w (conj Lp Lp'))) k i Hp) as (i' & E & _). exists i'. exact (leads_snoc _ _ _ _ Lp' k i' E). }
  destruct G as (i' & L'). exists i'. assert (S : same_place h root h' root' i i') by (exists w; auto). split; [exact S|]. split; [exact L'|]. intros j' S'. symmetry. exact (proj1 (s_one _ _ _ M i i' i j' S S') eq_refl).
Qed.
(** Trees of the same form: the Ito and its clone; ... *)
Theorem C121_clone : forall h i, hwf h -> acyclic h -> (i < length h)%nat -> n_par (nd h i) = None ->
  exists h', clone_h (depth_fuel h) h i None None None true = (h', Ok (length h)) /\ twins h i h' (length h) /\ twins h i h' i.
Proof.
  intros h i H Ha B P. destruct (C17_clone h i H Ha B) as (t & h' & E & R1 & R2 & P' & F & _ & H' & Ha'). exists h'. split; [exact E|].
  assert (B' : (length h < length h')%nat).
  { destruct (clone_h_inv (depth_fuel h) h i None None None true H B) as (_ & _ & G). rewrite E in G. pose proof (G (length h) eq_refl) as G'. cbn in G'. lia. }
  assert (X : extends h h') by (split; [lia|exact F]).
  split; unfold twins; repeat (split; [try assumption; try lia; try (rewrite (F i B); exact P)|]); exists t; (split; [exact R1|]); [exact R2|exact (rep_extends h h' t i H X B R1)].
Qed.
(** ... the Ito and what loads from its pickle, if it has no value functions in its tree (they are not pickled); ... *)
Theorem C121_pickle : forall h g i t, hwf h -> acyclic h -> (i < length h)%nat -> n_par (nd h i) = None -> hwf g -> acyclic g -> rep h t i -> forget t = t ->
  exists p g' i', pickle_dump (depth_fuel h) h i = Ok p /\ pickle_load g p = (g', i') /\ twins h i g' i'.
Proof.
  intros h g i t H Ha B P Hg Hga R1 Ft. destruct (C51_pickle h g i H Ha B Hg Hga) as (p & g' & i' & E & L & _ & Hg' & Hga' & B' & P' & _ & R2). exists p, g', i'. split; [exact E|]. split; [exact L|].
  pose proof (R2 t R1) as R3. rewrite Ft in R3. unfold twins. repeat (split; [try assumption; lia|]). exists t. split; assumption.
Qed.
(** ... the tree of an Ito and the tree of what decodes from its JSON (written with full_tree; the trees of C50, no value functions), at the same place in it; ... *)
Theorem C121_json : forall E g h i root t stringless hs, json_env E -> hwf h -> acyclic h -> (i < length h)%nat -> n_par (nd h i) <> None -> root_of h root i -> rep h t root -> json_safe t -> forget t = t ->
  hwf g -> acyclic g -> (stringless = true -> hs = Some (h_string h i)) ->
  exists j g' root' i', json_encode E stringless true h i = Ok j /\ json_hook E hs g j = (g', Ok (HIto (Some i'))) /\ twins h root g' root' /\ same_place h root g' root' i i'.
Proof.
  intros E g h i root t stringless hs JE H Ha B P R T Sf Ft Hg Hga Hs.
  destruct (C50_full_partial E g h i root t stringless hs JE H Ha B P R T Sf Hg Hga Hs) as (j & g' & root' & i' & E1 & E2 & _ & Hg' & Hga' & _ & Bi & R' & T' & Pa & _).
  rewrite Ft in T'. exists j, g', root', i'. split; [exact E1|]. split; [exact E2|].
  assert (Br : (root < length h)%nat).
  { destruct R as [_ [->|A]]; [exact B|]. destruct (anc_bound h root i H A) as [X _]. exact X. }
  assert (Br' : (root' < length g')%nat).
  { destruct R' as [_ [->|A]]; [apply Bi|]. destruct (anc_bound g' root' i' Hg' A) as [X _]. exact X. }
  assert (W : twins h root g' root').
  { unfold twins. repeat (split; [try assumption; try apply R; try apply R'|]). exists t. split; assumption. }
  split; [exact W|]. destruct JE as (J1 & J2 & J3 & J4).
  destruct (C49_path E h (no_dicts) i J1 J2 J3 J4 H Ha B) as (r1 & s & Q1 & Q2 & _ & Q3).
  destruct (C49_path E g' (no_dicts) i' J1 J2 J3 J4 Hg' Hga' (proj2 Bi)) as (r2 & s2 & Q1' & Q2' & _ & Q3').
  rewrite Pa, Q2 in Q2'. injection Q2' as <-. rewrite (root_unique h i r1 root Q1 R) in Q3. rewrite (root_unique g' i' r2 root' Q1' R') in Q3'.
  pose proof (C121_find E h root g' root' no_dicts no_dicts root root' s W (ex_intro _ [] (conj (ld_here _ _) (ld_here _ _)))) as G.
  rewrite Q3, Q3' in G. cbn in G. apply G. repeat split.
Qed.
(** ... a tree and itself after anything that left it alone. *)
Theorem C121_left_alone : forall h h' i, hwf h -> acyclic h -> (i < length h)%nat -> n_par (nd h i) = None -> hwf h' -> acyclic h' -> (length h <= length h')%nat -> n_par (nd h' i) = None ->
  (forall j, j = i \/ anc h i j -> n_f (nd h' j) = n_f (nd h j) /\ n_kids (nd h' j) = n_kids (nd h j)) -> twins h i h' i.
Proof.
  intros h h' i H Ha B P H' Ha' L P' F. destruct (rep_ex h i H Ha B) as (t & R1 & _). unfold twins. repeat (split; [try assumption; try lia|]). exists t. split; [exact R1|exact (rep_frame h h' H t i R1 F)].
Qed.
Print Assumptions C121_find_all.
Print Assumptions C121_find.
Print Assumptions C121_place.
Print Assumptions C121_counterpart.
Print Assumptions C121_clone.
Print Assumptions C121_pickle.
Print Assumptions C121_json.
Print Assumptions C121_left_alone.

Definition demo_clone : heap := fst (clone_h (depth_fuel demo) demo 0 None None None true).
Lemma demo_twins : twins demo 0 demo_clone 5.
Proof.
  destruct (C121_clone demo 0 demo_wf demo_acyclic) as (h' & E & T & _); [vm_compute; lia|reflexivity|]. unfold demo_clone. rewrite E. exact T.
Qed.
(** a dictionary with one predicate, which looks at the Ito: does it start at 1? *)
Definition at_one (h : heap) : renv := {| rv_values := None; rv_preds := Some [(lit "p", fun ec => Ok (h_start h (snd ec) =? 1))]; rv_value := fun _ => Ok 0; rv_eq := Z.eqb |}.
Example C121_case : twins demo 0 demo_clone 5 /\ alike (same_place demo 0 demo_clone 5) (at_one demo) (at_one demo_clone) /\ same_place demo 0 demo_clone 5 3 7 /\
  ito_find_all ascii demo (at_one demo) 3 (lit ".../*{*[s:b]&[p:p]}") = ([1%nat], None) /\ ito_find_all ascii demo_clone (at_one demo_clone) 7 (lit ".../*{*[s:b]&[p:p]}") = ([6%nat], None) /\
  ito_path demo 3 = Ok (lit "./*[i:0]/*[i:0]") /\ ito_path demo_clone 7 = Ok (lit "./*[i:0]/*[i:0]").
Proof.
  split; [exact demo_twins|]. split.
  { split; [reflexivity|]. split; [reflexivity|]. split; [reflexivity|]. cbn. constructor; [|constructor]. split; [reflexivity|]. intros n i i' S. destruct (C121_place demo 0 demo_clone 5 i i' demo_twins S) as [E _]. exact (f_equal (fun f => Ok (f_start f =? 1)) E). }
  split.
  { exists [0; 0]%nat. split; (eapply ld_down; [vm_compute; reflexivity|]); (eapply ld_down; [vm_compute; reflexivity|]); constructor. }
  repeat split; vm_compute; reflexivity.
Qed.
