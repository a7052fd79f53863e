(** Property theorem C124: how the axes of a query are related.  Statements with short
    proofs from the description of each axis (C41, C42), and examples. *)
From Verif Require Import AxisFacts3 HeapFacts HeapFacts3 HeapFacts4 HierHeap Properties_Heap Properties_Axis.
From Verif Require Import SpecAxis.

(** the axis k, evaluated from i, finds j *)
Definition finds (h : heap) (k : axkey) (i j : nat) : Prop := exists l, axis_find h (AX k false OsNo) ([i], None) = (number l, None) /\ In j l.
(** every Ito that has a parent has a nonempty span *)
Definition solid (h : heap) : Prop := forall j, n_par (nd h j) = None \/ nonempty h j.
(** axes that look in opposite directions *)
Inductive converse : axkey -> axkey -> Prop :=
| cv_ancs : converse AxAncs AxDescs
| cv_par : converse AxParent AxKids
| cv_prec : converse AxPrec AxFoll
| cv_prevs : converse AxPrevs AxNexts
| cv_prev : converse AxPrev AxNext
| cv_self : converse AxSelf AxSelf.

Lemma number_inj (l l' : list nat) : number l = number l' -> l = l'.
Proof. intros E. rewrite <- (proj2 (number_spec l)), E. apply number_spec. Qed.
Lemma solid_domain h k i : hwf h -> solid h -> ax_domain h k i.
Proof.
  intros H S. destruct k; try exact Logic.I; cbn; [exact (S i)|]. destruct (S i) as [X|X]; [left; exact X|right; split; [exact X|]]. intros j A. destruct (S j) as [Y|Y]; [|exact Y].
  apply anc_up_inv in A. destruct A as (q & E & _). congruence.
Qed.
Lemma finds_set h k i j : hwf h -> acyclic h -> (i < length h)%nat -> ax_domain h k i -> finds h k i j <-> ax_set h k i j.
Proof.
  intros H Ha Hi D. destruct (axis_full h k i H Ha Hi D) as (l & L & _ & _ & E & _). rewrite <- L. split; [|exists l; auto]. intros (l' & E' & I'). rewrite E in E'. injection E' as E'. apply number_inj in E'. subst. exact I'.
Qed.

(** j is found from i by an axis exactly when i is found from j by its converse *)
Theorem C124_converse : forall h k k' i j, converse k k' -> hwf h -> acyclic h -> solid h -> (i < length h)%nat -> (j < length h)%nat ->
  finds h k i j <-> finds h k' j i.
Proof.
  intros h k k' i j C H Ha S Hi Hj. rewrite (finds_set h k i j H Ha Hi (solid_domain h k i H S)), (finds_set h k' j i H Ha Hj (solid_domain h k' j H S)).
  destruct C; cbn; try tauto. split; congruence.
Qed.
(** descendants: the children and the descendants of the children; likewise upwards and sideways *)
Theorem C124_steps : forall h i j, hwf h -> acyclic h -> (i < length h)%nat ->
  (finds h AxDescs i j <-> finds h AxKids i j \/ exists m, finds h AxKids i m /\ finds h AxDescs m j) /\
  (finds h AxAncs i j <-> finds h AxParent i j \/ exists m, finds h AxParent i m /\ finds h AxAncs m j) /\
  (finds h AxNexts i j <-> finds h AxNext i j \/ exists m, finds h AxNext i m /\ finds h AxNexts m j) /\
  (finds h AxLeaves i j <-> finds h AxDescs i j /\ n_kids (nd h j) = []).
Proof.
  intros h i j H Ha Hi. assert (F : forall k a b, (a < length h)%nat -> ax_domain h k a -> finds h k a b <-> ax_set h k a b) by (intros; apply finds_set; assumption). repeat split.
  - rewrite !F by (try exact Logic.I; exact Hi). cbn. intros A. induction A as [x E|x q E A IH]; [left; exact E|]. right. destruct IH as [IH|(m & M1 & M2)].
    + exists q. split; [apply F; [exact Hi|exact Logic.I|exact IH]|]. apply F; [destruct (anc_bound h q x H (anc_parent h q x E)); assumption|exact Logic.I|]. exact (anc_parent h q x E).
    + exists m. split; [exact M1|]. pose proof M1 as M1'. apply F in M1'; [|exact Hi|exact Logic.I]. cbn in M1'. assert (Hm : (m < length h)%nat) by (destruct (anc_bound h i m H (anc_parent h i m M1')); assumption).
      apply F in M2; [|exact Hm|exact Logic.I]. apply F; [exact Hm|exact Logic.I|]. exact (anc_up h m x q E M2).
  - rewrite !F by (try exact Logic.I; exact Hi). cbn. intros [E|(m & M1 & M2)]; [exact (anc_parent h i j E)|]. apply F in M1; [|exact Hi|exact Logic.I]. cbn in M1.
    assert (Hm : (m < length h)%nat) by (destruct (anc_bound h i m H (anc_parent h i m M1)); assumption). apply F in M2; [|exact Hm|exact Logic.I]. exact (anc_trans h i m j (anc_parent h i m M1) M2).
  - rewrite !F by (try exact Logic.I; exact Hi). cbn. intros A. apply anc_up_inv in A. destruct A as (q & E & [->|A]); [left; exact E|right]. exists q. split; [apply F; [exact Hi|exact Logic.I|exact E]|].
    apply F; [destruct (anc_bound h q i H (anc_parent h q i E)); assumption|exact Logic.I|exact A].
  - rewrite !F by (try exact Logic.I; exact Hi). cbn. intros [E|(m & M1 & M2)]; [exact (anc_parent h j i E)|]. apply F in M1; [|exact Hi|exact Logic.I]. cbn in M1.
    assert (Hm : (m < length h)%nat) by (destruct (anc_bound h m i H (anc_parent h m i M1)); assumption). apply F in M2; [|exact Hm|exact Logic.I]. exact (anc_up h j i m M1 M2).
  - rewrite !F by (try exact Logic.I; exact Hi). cbn. intros (p & l & m & r & E). destruct m as [|x m]; [left; exists p, l, r; exact E|right]. exists x. split; [apply F; [exact Hi|exact Logic.I|]; exists p, l, (m ++ j :: r); exact E|].
    assert (Hx : (x < length h)%nat) by (apply (hwf_kid h H p x); rewrite E; apply in_or_app; right; right; left; reflexivity). apply F; [exact Hx|exact Logic.I|]. exists p, (l ++ [i]), m, r. rewrite <- app_assoc. exact E.
  - rewrite !F by (try exact Logic.I; exact Hi). cbn. intros [(p & l & r & E)|(x & M1 & M2)]; [exists p, l, [], r; exact E|]. apply F in M1; [|exact Hi|exact Logic.I]. destruct M1 as (p & l & r & E).
    assert (Hxp : In x (n_kids (nd h p))) by (rewrite E; apply in_or_app; right; right; left; reflexivity). assert (Hx : (x < length h)%nat) by apply (hwf_kid h H p x Hxp). apply F in M2; [|exact Hx|exact Logic.I]. destruct M2 as (p' & l' & m & r' & E').
    assert (p' = p). { pose proof (kid_par h p x H Hxp) as P1. pose proof (kid_par h p' x H) as P2. rewrite P1 in P2. assert (In x (n_kids (nd h p'))) as X by (rewrite E'; apply in_or_app; right; left; reflexivity). specialize (P2 X). congruence. }
    subst p'. exists p, l, (x :: m), r'. rewrite E in E'. assert (Hl : l' = l ++ [i]).
    { pose proof (kids_nodup h _ (hwf_sorted h H p)) as Nd. rewrite E in Nd. replace (l ++ i :: x :: r) with ((l ++ [i]) ++ x :: r) in E', Nd by (rewrite <- app_assoc; reflexivity). clear - E' Nd.
      revert l' E' Nd. induction (l ++ [i]) as [|y ys IH]; intros l' E' Nd; destruct l' as [|z l']; cbn [app] in *.
      - reflexivity.
      - injection E' as -> E2. exfalso. inversion Nd as [|? ? N1 _]; subst. apply N1. apply in_or_app. right. left. reflexivity.
      - injection E' as -> E2. exfalso. inversion Nd as [|? ? N1 _]; subst. apply N1. apply in_or_app. right. left. reflexivity.
      - injection E' as -> E2. f_equal. inversion Nd; subst. apply IH; assumption. }
    subst l'. rewrite E, E'. rewrite <- app_assoc. reflexivity.
  - apply F in H0; [|exact Hi|exact Logic.I]. apply F; [exact Hi|exact Logic.I|]. apply H0.
  - apply F in H0; [|exact Hi|exact Logic.I]. apply H0.
  - intros [A B]. apply F in A; [|exact Hi|exact Logic.I]. apply F; [exact Hi|exact Logic.I|]. split; assumption.
Qed.
(** XPath's definition of following: a later sibling of the Ito or of one above it, or an Ito below such a sibling *)
Theorem C124_following : forall h i j, hwf h -> acyclic h -> solid h -> (i < length h)%nat ->
  finds h AxFoll i j <-> exists a s, (a = i \/ finds h AxAncs i a) /\ finds h AxNexts a s /\ (j = s \/ finds h AxDescs s j).
Proof.
  intros h i j H Ha S Hi. rewrite (finds_set h AxFoll i j H Ha Hi (solid_domain h AxFoll i H S)). cbn. unfold following. split.
  - intros [[A|(p & l & x & m & y & r & E & X & Y)] N]; [contradiction|]. exists x, y.
    assert (Hx : (x < length h)%nat) by (apply (hwf_kid h H p x); rewrite E; apply in_or_app; right; left; reflexivity).
    assert (Hy : (y < length h)%nat) by (apply (hwf_kid h H p y); rewrite E; apply in_or_app; right; right; apply in_or_app; right; left; reflexivity).
    split; [destruct X as [X|X]; [left; congruence|right; apply finds_set; auto; exact Logic.I]|]. split; [apply finds_set; auto; [exact Logic.I|exists p, l, m, r; exact E]|]. destruct Y as [Y|Y]; [left; congruence|right; apply finds_set; auto; exact Logic.I].
  - intros (a & s & A & B & C). assert (Xa : self_or_anc h a i) by (destruct A as [A|A]; [left; congruence|right; apply finds_set in A; auto; exact Logic.I]).
    assert (Ba : (a < length h)%nat) by (destruct Xa as [Xa|Xa]; [congruence|destruct (anc_bound h a i H Xa); assumption]). apply finds_set in B; auto; [|exact Logic.I]. destruct B as (p & l & m & r & E).
    assert (Ia : In a (n_kids (nd h p))) by (rewrite E; apply in_or_app; right; left; reflexivity). assert (Is : In s (n_kids (nd h p))) by (rewrite E; apply in_or_app; right; right; apply in_or_app; right; left; reflexivity).
    assert (Bs : (s < length h)%nat) by apply (hwf_kid h H p s Is). assert (Xs : self_or_anc h s j) by (destruct C as [C|C]; [left; congruence|right; apply finds_set in C; auto; exact Logic.I]).
    split; [right; exists p, l, a, m, s, r; auto|]. intros D. assert (Aj : anc h a j) by (destruct Xa as [Xa|Xa]; [rewrite <- Xa; exact D|exact (anc_trans h a i j Xa D)]).
    assert (Nas : a <> s). { intros ->. pose proof (kids_nodup h _ (hwf_sorted h H p)) as Nd. rewrite E in Nd. apply NoDup_remove_2 in Nd. apply Nd. apply in_or_app. right. apply in_or_app. right. left. reflexivity. }
    assert (Cyc : forall u v, In u (n_kids (nd h p)) -> In v (n_kids (nd h p)) -> anc h u v -> False).
    { intros u v Iu Iv Auv. apply anc_up_inv in Auv. destruct Auv as (q & Eq & Q). rewrite (kid_par h p v H Iv) in Eq. injection Eq as <-. pose proof (anc_parent h p u (kid_par h p u H Iu)) as Pu. destruct Q as [Q|Q]; [subst; eapply Ha; exact Pu|exact (Ha p (anc_trans h p u p Pu Q))]. }
    destruct Xs as [->|Xs]; [exact (Cyc a s Ia Is Aj)|]. destruct (anc_comparable h a s j Aj Xs) as [X|[X|X]]; [exact (Nas X)|exact (Cyc a s Ia Is X)|exact (Cyc s a Is Ia X)].
Qed.
(** one root: what .... finds from an Ito, it finds from every Ito below that root *)
Theorem C124_root : forall h i r, hwf h -> acyclic h -> (i < length h)%nat -> finds h AxRoot i r ->
  finds h AxDescs r i /\ forall j, finds h AxDescs r j -> finds h AxRoot j r.
Proof.
  intros h i r H Ha Hi F. apply finds_set in F; auto; [|exact Logic.I]. destruct F as [N A]. assert (Hr : (r < length h)%nat) by (destruct (anc_bound h r i H A); assumption). split; [apply finds_set; auto; exact Logic.I|].
  intros j D. apply finds_set in D; auto; [|exact Logic.I]. cbn in D. apply finds_set; auto; [destruct (anc_bound h r j H D); assumption|exact Logic.I|split; assumption].
Qed.
Print Assumptions C124_converse.
Print Assumptions C124_following.
Example C124_case : solid demo /\ finds demo AxFoll 3 2 /\ finds demo AxPrec 2 3 /\ finds demo AxNexts 1 2 /\ ~ finds demo AxFoll 2 3.
Proof.
  assert (S : solid demo) by (intros [|[|[|[|[|j]]]]]; try (right; vm_compute; reflexivity); left; destruct j; reflexivity).
  split; [exact S|]. split; [exists [2]%nat; split; [vm_compute; reflexivity|left; reflexivity]|]. split; [exists [3; 1]%nat; split; [vm_compute; reflexivity|left; reflexivity]|]. split; [exists [2]%nat; split; [vm_compute; reflexivity|left; reflexivity]|].
  intros (l & E & X). assert (L : axis_find demo (AX AxFoll false OsNo) ([2%nat], None) = (number [], None)) by (vm_compute; reflexivity). rewrite L in E. injection E as E. apply (number_inj [] l) in E. subst. destruct X.
Qed.
