(** Facts for queries: an axis alone, an axis and one descriptor, from the text. *)
From Verif Require Import SpecQuery UtilFacts AxisFacts3 QueryFacts12 QueryFacts13 QueryFacts14 QueryFacts15.

Lemma find_axis E h r i a w ys : plain_delims E -> axis_text a w -> printable E w -> axis_find h a ([i], None) = (ys, None) -> ito_find_all E h r i w = (map snd ys, None).
Proof.
  intros HE HA PR AX. pose proof (find_filters E h r i a w None [] ys (fun _ _ => true)) as T. cbn [text_of atoms part part_truth] in T. rewrite app_nil_r in T.
  destruct (safe_single w (axis_safe a w HA)) as (S1 & _ & _).
  rewrite T; try assumption; try reflexivity.
  - f_equal. f_equal. clear. induction ys as [|y ys IH]; [reflexivity|]. cbn [filter]. f_equal. exact IH.
  - intros g [].
  - intros u v Eu. destruct u; discriminate.
  - intros g ec [].
Qed.
Lemma axis_written E h r i k : plain_delims E -> hwf h -> acyclic h -> (i < length h)%nat -> ax_domain h k i ->
  exists l, (forall j, In j l <-> ax_set h k i j) /\ StronglySorted (ax_order h k) l /\ NoDup l /\
    (forall w, axis_text (AX k false OsNo) w -> printable E w -> ito_find_all E h r i w = (l, None)) /\
    (forall w, axis_text (AX k true OsNo) w -> printable E w -> ito_find_all E h r i w = (rev l, None)).
Proof.
  intros HE H Ha Hi D. destruct (axis_full h k i H Ha Hi D) as (l & L1 & L2 & L3 & L4 & L5 & _). exists l. split; [exact L1|]. split; [exact L2|]. split; [exact L3|].
  split; intros w Hw PR; [rewrite (find_axis E h r i _ w _ HE Hw PR L4)|rewrite (find_axis E h r i _ w _ HE Hw PR L5)]; rewrite map_snd_number; reflexivity.
Qed.
(** a filter that looks at the node only *)
Lemma number_filter {A} (p : A -> bool) (b : nat * A -> bool) : (forall ec, b ec = p (snd ec)) -> forall l : list A, map snd (filter b (number l)) = filter p l.
Proof.
  intros Hb l. unfold number. generalize 0%nat. induction l as [|x l IH]; intros n; [reflexivity|]. cbn [length seq combine filter]. rewrite Hb. cbn [snd]. destruct (p x); cbn [map snd]; rewrite IH; reflexivity.
Qed.
(** a value that needs no escape *)
Definition plain_value (E : pyenv) (v : pystr) : Prop := escape v = v /\ writable E v.
Definition has_desc (h : heap) (v : pystr) (j : nat) : bool := match f_desc (n_f (nd h j)) with Some d => eqb_str d v | None => false end.
Lemma has_desc_iff h v j : has_desc h v j = true <-> f_desc (n_f (nd h j)) = Some v.
Proof. unfold has_desc. destruct (f_desc (n_f (nd h j))) as [d|]; [rewrite eqb_str_eq; split; congruence|split; discriminate]. Qed.
Lemma find_desc E h r i a w v l : plain_delims E -> hwf h -> axis_text a w -> printable E w -> plain_value E v -> axis_find h a ([i], None) = (number l, None) ->
  ito_find_all E h r i (w ++ written (lit "d") v) = (filter (has_desc h v) l, None).
Proof.
  intros HE H HA PR [Ev Wv] AX. assert (VL : value_list [v] = v) by (unfold value_list; cbn [map py_join]; exact Ev).
  destruct (find_values E h r i a w KDesc (lit "d") [v] (number l) HE H HA PR) as (b & F & B).
  - cbn. tauto.
  - exact I.
  - exact I.
  - discriminate.
  - rewrite VL. exact Wv.
  - exact AX.
  - rewrite VL in F. rewrite F. f_equal. apply number_filter. intros ec. destruct (has_desc h v (snd ec)) eqn:E1.
    + apply B. exists v. split; [left; reflexivity|]. apply has_desc_iff. exact E1.
    + destruct (b ec) eqn:E2; [|reflexivity]. apply B in E2. destruct E2 as (v' & [<-|[]] & M). cbn [meaning] in M. apply has_desc_iff in M. congruence.
Qed.
