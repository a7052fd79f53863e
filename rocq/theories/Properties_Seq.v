(** Property theorem C128: index, count and reversed of children.  Only statements, with examples. *)
From Verif Require Import HeapFacts4 CombinFacts Properties_Heap SliceFacts ChildSlices Axis ChildSeq ChildSeqFacts Properties_Slices.
From Coq Require Import Lia.

(** the same string, span, descriptor and value function: [==] of two Itos (C37) *)
Definition equals (h : heap) (a b : nat) : Prop := n_f (nd h a) = n_f (nd h b).
(** position k is not in front of start and in front of stop, negative numbers counting from the end *)
Definition from_to (n : Z) (start : Z) (stop : option Z) (k : nat) : Prop :=
  (if start <? 0 then n + start else start) <= Z.of_nat k /\ forall s, stop = Some s -> Z.of_nat k < (if s <? 0 then n + s else s).
(** children.index(v, start, stop): the one position in the range with a child that equals v; ValueError if there is none *)
Theorem C128_index : forall h p v start stop, hwf h ->
  match kids_index h p v start stop with
  | Ok k => exists i c, k = Z.of_nat i /\ nth_error (n_kids (nd h p)) i = Some c /\ equals h c v /\ from_to (zlen (n_kids (nd h p))) start stop i /\
              forall i' c', nth_error (n_kids (nd h p)) i' = Some c' -> equals h c' v -> i' = i
  | Err e => e = ValueError /\ forall i c, nth_error (n_kids (nd h p)) i = Some c -> from_to (zlen (n_kids (nd h p))) start stop i -> ~ equals h c v
  end.
Proof.
  intros h p v start stop H. unfold kids_index, from_to, equals. set (n := zlen (n_kids (nd h p))). set (i0 := if start <? 0 then Z.max (n + start) 0 else start).
  set (st := match stop with Some s => Some (if s <? 0 then s + n else s) | None => None end).
  assert (I0 : 0 <= i0) by (unfold i0; destruct (Z.ltb_spec start 0); lia).
  pose proof (index_loop_spec h p v st (S (length (n_kids (nd h p)))) i0 I0 ltac:(lia)) as L. destruct (index_loop _ h p v i0 st) as [k|e].
  - destruct L as (L1 & L2 & c & N & Q). exists (Z.to_nat k), c. split; [lia|]. split; [exact N|]. split; [exact Q|]. split; [split|].
    + unfold i0 in L1. destruct (start <? 0); lia.
    + intros s E. specialize (L2 (if s <? 0 then s + n else s)). unfold st in L2. rewrite E in L2. specialize (L2 eq_refl). destruct (s <? 0); lia.
    + intros i' c' N' Q'. apply (kids_distinct h p i' (Z.to_nat k) c' c H N' N). congruence.
  - destruct (L ltac:(discriminate)) as (-> & A). split; [reflexivity|]. intros i c N (F1 & F2). apply (A i c); [unfold i0; destruct (start <? 0); lia| |exact N].
    intros s. unfold st. destruct stop as [s0|]; [|discriminate]. intros [= <-]. specialize (F2 s0 eq_refl). destruct (s0 <? 0); lia.
Qed.
(** a child is found at its own place, and children[children.index(c)] is c *)
Theorem C128_child : forall h p l c r, hwf h -> n_kids (nd h p) = l ++ c :: r ->
  kids_index h p c 0 None = Ok (zlen l) /\ kids_get_int h p (zlen l) = Ok c /\ kids_count h p c = 1.
Proof.
  intros h p l c r H E. assert (N : nth_error (n_kids (nd h p)) (length l) = Some c) by (rewrite E, nth_error_app2, Nat.sub_diag by lia; reflexivity).
  split; [|split].
  - pose proof (C128_index h p c 0 None H) as C. destruct (kids_index h p c 0 None) as [k|e].
    + destruct C as (i & c' & -> & N' & Q & _ & U). pose proof (U (length l) c N eq_refl) as J. subst i. reflexivity.
    + destruct C as (_ & A). destruct (A (length l) c N); [|reflexivity]. split; [cbn; lia|discriminate].
  - unfold zlen. rewrite kids_get_nth by lia. rewrite Nat2Z.id, N. reflexivity.
  - unfold kids_count, zlen. assert (L : (length (filter (fun c0 => node_eqb h c0 c) (n_kids (nd h p))) <= 1)%nat).
    { apply filter_one. intros k k' a b A B P Q. apply node_eq_spec in P, Q. apply (kids_distinct h p k k' a b H A B). congruence. }
    assert (I : In c (filter (fun c0 => node_eqb h c0 c) (n_kids (nd h p)))) by (apply filter_In; split; [apply nth_error_In in N; exact N|apply node_eq_spec; reflexivity]).
    destruct (filter _ _) as [|x [|y t]]; [destruct I|reflexivity|cbn in L; lia].
Qed.
(** children.count(v) is 1 or 0 *)
Theorem C128_count : forall h p v, hwf h ->
  (kids_count h p v = 1 /\ exists c, In c (n_kids (nd h p)) /\ equals h c v) \/ (kids_count h p v = 0 /\ forall c, In c (n_kids (nd h p)) -> ~ equals h c v).
Proof.
  intros h p v H. unfold kids_count, zlen, equals. assert (L : (length (filter (fun c0 => node_eqb h c0 v) (n_kids (nd h p))) <= 1)%nat).
  { apply filter_one. intros k k' a b A B P Q. apply node_eq_spec in P, Q. apply (kids_distinct h p k k' a b H A B). congruence. }
  destruct (filter (fun c0 => node_eqb h c0 v) (n_kids (nd h p))) as [|x [|y t]] eqn:F; [right|left|cbn in L; lia]; split; try reflexivity.
  - intros c I E. assert (J : In c (filter (fun c0 => node_eqb h c0 v) (n_kids (nd h p)))) by (apply filter_In; split; [exact I|apply node_eq_spec; exact E]). rewrite F in J. exact J.
  - exists x. assert (J : In x (filter (fun c0 => node_eqb h c0 v) (n_kids (nd h p)))) by (rewrite F; left; reflexivity). apply filter_In in J. destruct J as (J1 & J2). split; [exact J1|apply node_eq_spec; exact J2].
Qed.
(** reversed(children) *)
Theorem C128_reversed : forall h p, kids_reversed h p = Ok (rev (n_kids (nd h p))).
Proof. intros h p. unfold kids_reversed. rewrite reversed_spec by lia. rewrite firstn_all. reflexivity. Qed.
Print Assumptions C128_index.
Print Assumptions C128_child.
Print Assumptions C128_count.
Print Assumptions C128_reversed.
(** comb: 1 = [0:1], 2 = [2:3], 3 = [4:5] are the children of 0; 5 = [4:5] is equal to 3 and unattached *)
Example C128_case : hwf comb /\ n_kids (nd comb 0) = [1; 2]%nat ++ 3%nat :: [] /\ kids_index comb 0 5 0 None = Ok 2 /\ kids_index comb 0 5 0 (Some (-1)) = Err ValueError /\
  kids_index comb 0 3 (-1) None = Ok 2 /\ kids_index comb 0 1 (-9) (Some 5) = Ok 0 /\ kids_index comb 0 0 0 None = Err ValueError /\
  kids_count comb 0 5 = 1 /\ kids_count comb 0 0 = 0 /\ kids_reversed comb 0 = Ok [3; 2; 1]%nat.
Proof. split; [exact comb_wf|]. repeat split; vm_compute; reflexivity. Qed.
