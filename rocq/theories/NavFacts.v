(** Facts for C134: a query of one axis from one node, and the members of the node. *)
From Verif Require Import SpecQuery Axis AxisFacts2 AxisFacts3 QueryFacts16 HeapFacts2 HeapFacts4.
From Coq Require Import Lia.

Lemma nav_find E h r i k rv w ys : plain_delims E -> axis_text (AX k rv OsNo) w -> printable E w ->
  axis_find h (AX k rv OsNo) ([i], None) = (number ys, None) -> ito_find_all E h r i w = (ys, None).
Proof. intros HE HA PR F. rewrite (find_axis E h r i _ w _ HE HA PR F), map_snd_number. reflexivity. Qed.
Lemma nav_of h i k rv ys : k <> AxDedup -> k <> AxPrec -> k <> AxFoll -> axis_of h k rv i = (ys, None) -> axis_find h (AX k rv OsNo) ([i], None) = (number ys, None).
Proof.
  intros K1 K2 K3 A. unfold axis_find. cbn [ax_key ax_rev fst snd]. destruct k; try congruence; try (rewrite gbind_one, A; apply to_ecs_plain; reflexivity).
  cbn [axis_of] in A. rewrite A. apply to_ecs_plain. reflexivity.
Qed.
Lemma nav_kids E h r i rv w : plain_delims E -> axis_text (AX AxKids rv OsNo) w -> printable E w ->
  ito_find_all E h r i w = (if rv then rev (n_kids (nd h i)) else n_kids (nd h i), None).
Proof. intros HE HA PR. apply (nav_find E h r i AxKids rv w _ HE HA PR). apply nav_of; try discriminate. reflexivity. Qed.
Lemma nav_parent E h r i rv w : plain_delims E -> axis_text (AX AxParent rv OsNo) w -> printable E w ->
  ito_find_all E h r i w = (match n_par (nd h i) with Some p => [p] | None => [] end, None).
Proof. intros HE HA PR. apply (nav_find E h r i AxParent rv w _ HE HA PR). apply nav_of; try discriminate. cbn. destruct (n_par (nd h i)); reflexivity. Qed.
Lemma nav_self E h r i rv w : plain_delims E -> axis_text (AX AxSelf rv OsNo) w -> printable E w -> ito_find_all E h r i w = ([i], None).
Proof. intros HE HA PR. apply (nav_find E h r i AxSelf rv w _ HE HA PR). apply nav_of; try discriminate. reflexivity. Qed.
Lemma nav_walk E h r i rv w l : plain_delims E -> axis_text (AX AxDescs rv OsNo) w -> printable E w ->
  walk_levels (depth_fuel h) h i 0 rv = Ok l -> ito_find_all E h r i w = (map snd l, None).
Proof. intros HE HA PR W. apply (nav_find E h r i AxDescs rv w _ HE HA PR). apply nav_of; try discriminate. cbn [axis_of]. unfold walk. rewrite W. reflexivity. Qed.
Lemma nav_leaves E h r i rv w l : plain_delims E -> axis_text (AX AxLeaves rv OsNo) w -> printable E w ->
  walk_levels (depth_fuel h) h i 0 rv = Ok l ->
  ito_find_all E h r i w = (filter (fun j => match n_kids (nd h j) with [] => true | _ => false end) (map snd l), None).
Proof. intros HE HA PR W. apply (nav_find E h r i AxLeaves rv w _ HE HA PR). apply nav_of; try discriminate. cbn [axis_of]. unfold walk. rewrite W. reflexivity. Qed.
Lemma nav_root E h r i rv w : plain_delims E -> axis_text (AX AxRoot rv OsNo) w -> printable E w -> hwf h -> acyclic h -> (i < length h)%nat ->
  exists root, get_root (depth_fuel h) h i = Ok root /\
    ito_find_all E h r i w = (match n_par (nd h i) with Some _ => [root] | None => [] end, None).
Proof.
  intros HE HA PR H Ha Hi. destruct (get_root_full h i H Ha Hi) as (root & G & R & U). exists root. split; [exact G|].
  destruct (axis_full h AxRoot i H Ha Hi I) as (l & L1 & _ & L2 & L3 & L4 & _).
  assert (El : l = match n_par (nd h i) with Some _ => [root] | None => [] end).
  { cbn [ax_set] in L1. destruct (n_par (nd h i)) as [p|] eqn:Ep.
    - assert (Hr : In root l). { apply L1. destruct R as [R1 [->|R2]]; [congruence|auto]. }
      assert (A : forall x, In x l -> x = root) by (intros x Hx; apply U; apply L1 in Hx; split; [apply Hx|right; apply Hx]).
      destruct l as [|x l]; [destruct Hr|]. destruct l as [|y l]; [f_equal; apply A; left; reflexivity|].
      exfalso. inversion L2 as [|? ? N _]; subst. apply N. rewrite (A x), (A y); [left; reflexivity|right; left; reflexivity|left; reflexivity].
    - destruct l as [|x l]; [reflexivity|]. assert (Hx : n_par (nd h x) = None /\ anc h x i) by (apply L1; left; reflexivity). destruct Hx as [_ Hx]. apply anc_up_inv in Hx. destruct Hx as (q & Hx & _). congruence. }
  rewrite <- El. apply (nav_find E h r i AxRoot rv w _ HE HA PR). destruct rv; [|exact L3]. rewrite L4. rewrite El. destruct (n_par (nd h i)); reflexivity.
Qed.
Lemma nav_ancs E h r i rv w : plain_delims E -> axis_text (AX AxAncs rv OsNo) w -> printable E w -> hwf h -> acyclic h -> (i < length h)%nat ->
  exists l, ito_find_all E h r i w = (l, None) /\ forall j, (In j l <-> descends_from (depth_fuel h) h i j = Ok true).
Proof.
  intros HE HA PR H Ha Hi. destruct (axis_full h AxAncs i H Ha Hi I) as (l & L1 & _ & _ & L3 & L4 & _). cbn [ax_set] in L1.
  assert (D : forall j, anc h j i <-> descends_from (depth_fuel h) h i j = Ok true).
  { intros j. destruct (descends_spec h i j H Ha Hi) as (b & Eb & B). rewrite Eb. rewrite <- B. split; [intros ->; reflexivity|intros [= ->]; reflexivity]. }
  exists (if rv then rev l else l). split.
  - apply (nav_find E h r i AxAncs rv w _ HE HA PR). destruct rv; assumption.
  - intros j. rewrite <- D, <- L1. destruct rv; [rewrite <- in_rev|]; reflexivity.
Qed.
Lemma sib_of h p l i rt k rv : hwf h -> n_kids (nd h p) = l ++ i :: rt ->
  axis_of h k rv i = match k with
    | AxPrevs => (if rv then l else rev l, None) | AxNexts => (if rv then rev rt else rt, None)
    | AxPrev => (match rev l with x :: _ => [x] | [] => [] end, None) | AxNext => (match rt with x :: _ => [x] | [] => [] end, None)
    | _ => axis_of h k rv i end.
Proof.
  intros H Ek. assert (Ep : n_par (nd h i) = Some p) by (apply (kids_par h p i H); rewrite Ek; apply in_or_app; right; left; reflexivity).
  assert (P1 : firstn (length l) (l ++ i :: rt) = l) by (rewrite firstn_app, firstn_all, Nat.sub_diag; apply app_nil_r).
  assert (P2 : skipn (length l + 1) (l ++ i :: rt) = rt).
  { rewrite skipn_app, skipn_all2 by lia. replace (length l + 1 - length l)%nat with 1%nat by lia. reflexivity. }
  destruct k; try reflexivity; cbn [axis_of]; rewrite Ep; rewrite (seq_index_at h p l i rt H Ek 0%nat); cbn [Nat.add]; rewrite Ek.
  - rewrite P1. reflexivity.
  - destruct l as [|x l] using rev_ind; [reflexivity|]. rewrite rev_app_distr. cbn [rev app]. rewrite app_length. cbn [length].
    destruct (Nat.ltb_spec 0 (length l + 1)) as [_|X]; [|lia]. replace (length l + 1 - 1)%nat with (length l) by lia. rewrite <- app_assoc. cbn [app]. rewrite nth_middle. reflexivity.
  - rewrite app_length. cbn [length]. destruct rt as [|x rt].
    + destruct (Nat.ltb_spec (length l) (length l + S (length (@nil nat)) - 1)) as [X|_]; [cbn [length] in X; lia|]. reflexivity.
    + cbn [length]. destruct (Nat.ltb_spec (length l) (length l + S (S (length rt)) - 1)) as [_|X]; [|lia].
      change (l ++ i :: x :: rt) with (l ++ [i] ++ x :: rt). rewrite app_assoc. rewrite <- (app_length l [i] : length (l ++ [i]) = (length l + 1)%nat). rewrite nth_middle. reflexivity.
  - rewrite P2. reflexivity.
Qed.
