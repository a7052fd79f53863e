(** Queries cannot tell trees of the same form apart: every axis, filter, combination and sub-query respects a
    correspondence between the nodes of two heaps. *)
From Verif Require Export AxisFacts3 HierHeap3 JsonFacts2.
From Verif Require Import SpecCopies.

Record sim (h h' : heap) (R : nat -> nat -> Prop) : Prop := {
  s_f : forall i i', R i i' -> n_f (nd h i) = n_f (nd h' i');
  s_par : forall i i', R i i' -> match n_par (nd h i), n_par (nd h' i') with Some p, Some p' => R p p' | None, None => True | _, _ => False end;
  s_kids : forall i i', R i i' -> Forall2 R (n_kids (nd h i)) (n_kids (nd h' i'));
  s_one : forall i i' j j', R i i' -> R j j' -> (i = j <-> i' = j');
  s_in : forall i i', R i i' -> (i < length h)%nat /\ (i' < length h')%nat }.

(** lists *)
Section L.
  Context {A B : Type} (R : A -> B -> Prop).
  Lemma F2_rev l l' : Forall2 R l l' -> Forall2 R (rev l) (rev l').
  Proof. induction 1 as [|x y l l' H F IH]; [constructor|]. cbn. apply Forall2_app; [exact IH|]. constructor; [exact H|constructor]. Qed.
  Lemma F2_filter f g l l' : (forall x y, R x y -> f x = g y) -> Forall2 R l l' -> Forall2 R (filter f l) (filter g l').
  Proof. intros E. induction 1 as [|x y l l' H F IH]; [constructor|]. cbn. rewrite (E x y H). destruct (g y); [constructor|]; assumption. Qed.
  Lemma F2_tw f g l l' : (forall x y, R x y -> f x = g y) -> Forall2 R l l' -> Forall2 R (take_while_l f l) (take_while_l g l').
  Proof. intros E. induction 1 as [|x y l l' H F IH]; [constructor|]. cbn. rewrite (E x y H). destruct (g y); [constructor; assumption|constructor]. Qed.
  Lemma F2_dw f g l l' : (forall x y, R x y -> f x = g y) -> Forall2 R l l' -> Forall2 R (drop_while_l f l) (drop_while_l g l').
  Proof. intros E. induction 1 as [|x y l l' H F IH]; [constructor|]. cbn. rewrite (E x y H). destruct (g y); [assumption|constructor; assumption]. Qed.
  Lemma F2_tl l l' : Forall2 R l l' -> Forall2 R (tl l) (tl l').
  Proof. intros F. destruct F; [constructor|assumption]. Qed.
  Lemma F2_exists f g l l' : (forall x y, R x y -> f x = g y) -> Forall2 R l l' -> existsb f l = existsb g l'.
  Proof. intros E. induction 1 as [|x y l l' H F IH]; [reflexivity|]. cbn. rewrite (E x y H), IH. reflexivity. Qed.
  Lemma F2_find f g l l' : (forall x y, R x y -> f x = g y) -> Forall2 R l l' -> match find f l, find g l' with Some x, Some y => R x y | None, None => True | _, _ => False end.
  Proof. intros E. induction 1 as [|x y l l' H F IH]; [exact Logic.I|]. cbn. rewrite (E x y H). destruct (g y); assumption. Qed.
  Lemma F2_nth l l' n a b : Forall2 R l l' -> R a b -> R (nth n l a) (nth n l' b).
  Proof. intros F H. revert n. induction F as [|x y l l' Hx F IH]; intros [|n]; cbn; auto. Qed.
  Lemma F2_last l l' a b : Forall2 R l l' -> R a b -> R (last l a) (last l' b).
  Proof. intros F H. induction F as [|x y l l' Hx F IH]; [exact H|]. destruct F; [exact Hx|exact IH]. Qed.
End L.
Lemma F2_nth_in {A B} (R : A -> B -> Prop) l l' n a b : Forall2 R l l' -> (n < length l)%nat -> R (nth n l a) (nth n l' b).
Proof. intros F. revert n. induction F as [|x y l l' Hx F IH]; intros [|n] Hn; cbn in *; try lia; auto. apply IH. lia. Qed.

Definition R2 (R : nat -> nat -> Prop) (x y : nat * nat) : Prop := fst x = fst y /\ R (snd x) (snd y).
Definition ares {A B} (R : A -> B -> Prop) (x : res A) (y : res B) : Prop := match x, y with Ok a, Ok b => R a b | Err e, Err f => e = f | _, _ => False end.
Definition gsame {A B} (R : A -> B -> Prop) (g : gen A) (g' : gen B) : Prop := Forall2 R (fst g) (fst g') /\ snd g = snd g'.

Section S.
  Context (h h' : heap) (R : nat -> nat -> Prop) (H : hwf h) (H' : hwf h') (Ha : acyclic h) (Ha' : acyclic h') (M : sim h h' R).

  Lemma sg_err e : gsame R (graise e) (graise e). Proof. split; [constructor|reflexivity]. Qed.
  Lemma sg_list l l' : Forall2 R l l' -> gsame R (l, None) (l', None). Proof. intros F. split; [exact F|reflexivity]. Qed.

  Lemma eqb_same i i' j j' : R i i' -> R j j' -> (i =? j)%nat = (i' =? j')%nat.
  Proof. intros A B. pose proof (s_one _ _ _ M i i' j j' A B) as E. destruct (Nat.eqb_spec i j) as [->|N], (Nat.eqb_spec i' j') as [->|N']; try reflexivity; exfalso; tauto. Qed.
  Lemma node_eqb_same i i' j j' : R i i' -> R j j' -> node_eqb h i j = node_eqb h' i' j'.
  Proof. intros A B. unfold node_eqb. rewrite (eqb_same i i' j j' A B), (s_f _ _ _ M i i' A), (s_f _ _ _ M j j' B). reflexivity. Qed.

  Lemma anc_same : forall n n' i i' l l', R i i' -> anc_list n h i = Ok l -> anc_list n' h' i' = Ok l' -> Forall2 R l l'.
  Proof.
    induction n as [|n IH]; intros [|n'] i i' l l' A E E'; cbn in E, E'; try discriminate. pose proof (s_par _ _ _ M i i' A) as P.
    destruct (n_par (nd h i)) as [p|], (n_par (nd h' i')) as [p'|]; try contradiction.
    - destruct (anc_list n h p) as [m|] eqn:Em; [|discriminate]. destruct (anc_list n' h' p') as [m'|] eqn:Em'; [|discriminate]. cbn in E, E'. injection E as <-. injection E' as <-.
      constructor; [exact P|]. exact (IH n' p p' m m' P Em Em').
    - injection E as <-. injection E' as <-. constructor.
  Qed.
  Lemma anc_depth i i' : R i i' -> exists l l', anc_list (depth_fuel h) h i = Ok l /\ anc_list (depth_fuel h') h' i' = Ok l' /\ Forall2 R l l'.
  Proof.
    intros A. destruct (s_in _ _ _ M i i' A) as [B B']. destruct (anc_list_spec h i H Ha B) as (l & E & _). destruct (anc_list_spec h' i' H' Ha' B') as (l' & E' & _).
    exists l, l'. split; [exact E|]. split; [exact E'|]. exact (anc_same _ _ i i' l l' A E E').
  Qed.
  Lemma walk_same rv : forall n n' i i' k l l', R i i' -> walk_levels n h i k rv = Ok l -> walk_levels n' h' i' k rv = Ok l' -> Forall2 (fun x y => R (snd x) (snd y)) l l'.
  Proof.
    induction n as [|n IH]; intros [|n'] i i' k l l' A E E'; try discriminate. rewrite walk_unfold in E, E'.
    assert (K : Forall2 R (if rv then rev (n_kids (nd h i)) else n_kids (nd h i)) (if rv then rev (n_kids (nd h' i')) else n_kids (nd h' i'))).
    { pose proof (s_kids _ _ _ M i i' A) as K. destruct rv; [apply F2_rev|]; exact K. }
    revert l l' E E'. induction K as [|c c' ks ks' Hc K IK]; intros l l' E E'; cbn [walk_go] in E, E'.
    - injection E as <-. injection E' as <-. constructor.
    - destruct (walk_levels n h c (k + 1) rv) as [w|] eqn:W; [|discriminate]. destruct (walk_levels n' h' c' (k + 1) rv) as [w'|] eqn:W'; [|discriminate]. cbn [bind] in E, E'.
      fold (walk_go (fun c => walk_levels n h c (k + 1) rv) k rv) in E. fold (walk_go (fun c => walk_levels n' h' c (k + 1) rv) k rv) in E'.
      destruct (walk_go (fun c => walk_levels n h c (k + 1) rv) k rv ks) as [r|] eqn:G; [|discriminate]. destruct (walk_go (fun c => walk_levels n' h' c (k + 1) rv) k rv ks') as [r'|] eqn:G'; [|discriminate].
      cbn [bind] in E, E'. injection E as <-. injection E' as <-. apply Forall2_app; [|exact (IK r r' eq_refl eq_refl)].
      pose proof (IH n' c c' (k + 1) w w' Hc W W') as Fw. destruct rv; [apply Forall2_app; [exact Fw|]; constructor; [exact Hc|constructor]|constructor; [exact Hc|exact Fw]].
  Qed.
  Lemma walk_depth rv i i' : R i i' -> exists l l', walk h i rv = (l, None) /\ walk h' i' rv = (l', None) /\ Forall2 R l l'.
  Proof.
    intros A. destruct (s_in _ _ _ M i i' A) as [B B']. unfold walk.
    assert (W : exists l, walk_levels (depth_fuel h) h i 0 rv = Ok l) by (destruct (walk_total h i 0 H Ha B) as (l & E & E' & _); destruct rv; eauto).
    assert (W' : exists l, walk_levels (depth_fuel h') h' i' 0 rv = Ok l) by (destruct (walk_total h' i' 0 H' Ha' B') as (l & E & E' & _); destruct rv; eauto).
    destruct W as (l & E), W' as (l' & E'). rewrite E, E'. cbn. exists (map snd l), (map snd l'). split; [reflexivity|]. split; [reflexivity|].
    pose proof (walk_same rv _ _ i i' 0 l l' A E E') as F. clear E E'. induction F; constructor; assumption.
  Qed.
  Lemma index_same i i' : R i i' -> forall ks ks', Forall2 R ks ks' -> forall k, seq_index h i k ks = seq_index h' i' k ks'.
  Proof. intros A ks ks' F. induction F as [|c c' ks ks' Hc F IH]; intros k; [reflexivity|]. cbn. rewrite (node_eqb_same c c' i i' Hc A). destruct (node_eqb h' c' i'); [reflexivity|apply IH]. Qed.
  Lemma dedup_same l l' : Forall2 R l l' -> forall s s', Forall2 R s s' -> Forall2 R (dedup h s l) (dedup h' s' l').
  Proof.
    induction 1 as [|x x' l l' Hx F IH]; intros s s' Fs; [constructor|]. cbn.
    rewrite (F2_exists R (fun y => node_eqb h y x) (fun y => node_eqb h' y x') s s' (fun a b Q => node_eqb_same a b x x' Q Hx) Fs).
    destruct (existsb (fun y => node_eqb h' y x') s'); [apply IH; exact Fs|]. constructor; [exact Hx|]. apply IH. constructor; assumption.
  Qed.
  Lemma start_same i i' : R i i' -> h_start h i = h_start h' i'. Proof. intros A. unfold h_start. rewrite (s_f _ _ _ M i i' A). reflexivity. Qed.
  Lemma stop_same i i' : R i i' -> h_stop h i = h_stop h' i'. Proof. intros A. unfold h_stop. rewrite (s_f _ _ _ M i i' A). reflexivity. Qed.

  Lemma sib_same i i' (f : list nat -> nat -> list nat) : R i i' -> (forall l l' n, Forall2 R l l' -> (n < length l)%nat -> Forall2 R (f l n) (f l' n)) ->
    gsame R (match n_par (nd h i) with None => ([], None) | Some p => match seq_index h i 0 (n_kids (nd h p)) with Ok idx => (f (n_kids (nd h p)) idx, None) | Err e => graise e end end)
               (match n_par (nd h' i') with None => ([], None) | Some p => match seq_index h' i' 0 (n_kids (nd h' p)) with Ok idx => (f (n_kids (nd h' p)) idx, None) | Err e => graise e end end).
  Proof.
    intros A Hf. pose proof (s_par _ _ _ M i i' A) as P. destruct (n_par (nd h i)) as [p|], (n_par (nd h' i')) as [p'|]; try contradiction; [|apply sg_list; constructor].
    pose proof (s_kids _ _ _ M p p' P) as K. rewrite <- (index_same i i' A _ _ K 0%nat). destruct (seq_index h i 0 (n_kids (nd h p))) as [n|e] eqn:Q; [|apply sg_err].
    apply sg_list. apply Hf; [exact K|]. clear - Q. assert (G : forall ks k n, seq_index h i k ks = Ok n -> (n < k + length ks)%nat).
    { clear. induction ks as [|c ks IH]; intros k n Q; cbn in *; [discriminate|]. destruct (node_eqb h c i); [injection Q as <-; lia|]. apply IH in Q. lia. }
    exact (G _ _ _ Q).
  Qed.
  Lemma axis_of_same k rv i i' : R i i' -> gsame R (axis_of h k rv i) (axis_of h' k rv i').
  Proof.
    intros A. destruct k; cbn [axis_of].
    - destruct (anc_depth i i' A) as (l & l' & -> & -> & F). cbn. apply sg_list. apply F2_rev in F. destruct F; [constructor|]. constructor; [assumption|constructor].
    - destruct (anc_depth i i' A) as (l & l' & -> & -> & F). cbn. apply sg_list. destruct rv; [apply F2_rev|]; exact F.
    - pose proof (s_par _ _ _ M i i' A) as P. destruct (n_par (nd h i)), (n_par (nd h' i')); try contradiction; apply sg_list; repeat constructor. exact P.
    - apply sg_list. constructor; [exact A|constructor].
    - apply sg_list. constructor; [exact A|constructor].
    - apply sg_list. pose proof (s_kids _ _ _ M i i' A) as K. destruct rv; [apply F2_rev|]; exact K.
    - destruct (walk_depth rv i i' A) as (l & l' & -> & -> & F). apply sg_list. exact F.
    - destruct (walk_depth rv i i' A) as (l & l' & -> & -> & F). cbn. apply sg_list. apply F2_filter; [|exact F]. intros x y Q. pose proof (s_kids _ _ _ M x y Q) as K. destruct K; reflexivity.
    - destruct (anc_depth i i' A) as (l & l' & -> & -> & F). cbn [gmap]. pose proof (F2_last R l l' i i' F A) as L.
      destruct (walk_depth (negb rv) _ _ L) as (m & m' & -> & -> & Fm). cbn. apply sg_list. apply F2_filter.
      + intros x y Q. f_equal. apply (F2_exists R); [|exact F]. intros a b Qa. exact (node_eqb_same a b x y Qa Q).
      + assert (E : forall x y, R x y -> negb (x =? i)%nat = negb (y =? i')%nat) by (intros x y Q; f_equal; exact (eqb_same x y i i' Q A)).
        destruct rv; [apply F2_tw|apply F2_tl, F2_dw]; assumption.
    - apply (sib_same i i' (fun ks idx => if rv then firstn idx ks else rev (firstn idx ks)) A). intros l l' n F _. destruct rv; [|apply F2_rev]; apply Forall2_firstn; exact F.
    - apply (sib_same i i' (fun ks idx => if (0 <? idx)%nat then [nth (idx - 1) ks 0%nat] else []) A). intros l l' n F Ln. destruct (0 <? n)%nat; constructor; [|constructor]. apply F2_nth_in; [exact F|lia].
    - apply (sib_same i i' (fun ks idx => if (idx <? length ks - 1)%nat then [nth (idx + 1) ks 0%nat] else []) A). intros l l' n F Ln. rewrite <- (Forall2_len R l l' F).
      destruct (Nat.ltb_spec n (length l - 1)) as [Lt|_]; constructor; [|constructor]. apply F2_nth_in; [exact F|lia].
    - apply (sib_same i i' (fun ks idx => if rv then rev (skipn (idx + 1) ks) else skipn (idx + 1) ks) A). intros l l' n F _. destruct rv; [apply F2_rev|]; apply Forall2_skipn; exact F.
    - destruct (anc_depth i i' A) as (l & l' & -> & -> & F). cbn [gmap]. pose proof (F2_last R l l' i i' F A) as L.
      destruct (walk_depth rv _ _ L) as (m & m' & -> & -> & Fm). cbn. apply sg_list. rewrite (stop_same i i' A).
      destruct rv; [apply F2_tw|apply F2_dw]; try exact Fm; intros x y Q; rewrite (start_same x y Q); reflexivity.
  Qed.
  Lemma number_same {A B} (Q : A -> B -> Prop) l l' : Forall2 Q l l' -> Forall2 (fun x y => fst x = fst y /\ Q (snd x) (snd y)) (number l) (number l').
  Proof.
    unfold number. generalize 0%nat. intros k F. revert k. induction F as [|x y l l' Hx F IH]; intros k; [constructor|]. cbn. constructor; [split; [reflexivity|exact Hx]|apply IH].
  Qed.
  Lemma ecs_same a g g' o o' : gsame R g g' -> match o, o' with Some s, Some s' => R s s' | None, None => True | _, _ => False end -> gsame (R2 R) (to_ecs a g o) (to_ecs a g' o').
  Proof.
    destruct g as [l e], g' as [l' e']. intros [F E] O. cbn in F, E. subst e'. unfold to_ecs.
    pose (P := fun (itos : list nat) (o : option nat) => match ax_self a, ax_rev a, o with OsAlways, false, Some s => match itos with [] => [] | first :: rest => s :: (if (first =? s)%nat then rest else first :: rest) end | _, _, _ => itos end).
    fold (P l o). fold (P l' o'). assert (Y : Forall2 R (P l o) (P l' o')).
    { subst P. cbv beta. destruct (ax_self a), (ax_rev a), o as [s|], o' as [s'|]; try contradiction; try exact F. destruct F as [|x y l l' Hx F]; [constructor|].
      constructor; [exact O|]. rewrite (eqb_same x y s s' Hx O). destruct (y =? s')%nat; [exact F|constructor; assumption]. }
    cbv zeta. generalize dependent (P l o). generalize dependent (P l' o'). intros ys' ys Y. destruct e as [e|]; [split; [exact (number_same R _ _ Y)|reflexivity]|]. split; [|reflexivity]. cbn [fst]. apply (number_same R).
    destruct Y as [|x y m m' Hx Y].
    - destruct (ax_self a), o as [s|], o' as [s'|]; try contradiction; repeat constructor; exact O.
    - destruct (ax_self a), (ax_rev a), o as [s|], o' as [s'|]; try contradiction; try (constructor; assumption).
      apply Forall2_app; [constructor; assumption|]. constructor; [exact O|constructor].
  Qed.
  Lemma gflat_same {A B C D} (Q : A -> B -> Prop) (Q' : C -> D -> Prop) f f' e : (forall x y, Q x y -> gsame Q' (f x) (f' y)) ->
    forall l l', Forall2 Q l l' -> gsame Q' (gflat l f e) (gflat l' f' e).
  Proof.
    intros Hf l l' F. induction F as [|x y l l' Hx F IH]; [split; [constructor|reflexivity]|]. cbn. destruct (Hf x y Hx) as [G1 G2]. destruct (f x) as [ys e1], (f' y) as [ys' e2]. cbn in G1, G2. subst e2.
    destruct e1; [split; [exact G1|reflexivity]|]. destruct (gflat l f e) as [zs e3], (gflat l' f' e) as [zs' e4]. destruct IH as [I1 I2]. cbn in I1, I2. subst e4. split; [apply Forall2_app; assumption|reflexivity].
  Qed.
  Lemma root_same x y : R x y -> (match n_par (nd h x) with None => true | Some _ => false end) = (match n_par (nd h' y) with None => true | Some _ => false end).
  Proof. intros Q. pose proof (s_par _ _ _ M x y Q) as P. destruct (n_par (nd h x)), (n_par (nd h' y)); try contradiction; reflexivity. Qed.
  Lemma axis_find_same a g g' : gsame R g g' -> gsame (R2 R) (axis_find h a g) (axis_find h' a g').
  Proof.
    intros [F E]. destruct g as [l e], g' as [l' e']. cbn in F, E. subst e'.
    assert (B : gsame (R2 R) (gbind (l, e) (fun i => to_ecs a (axis_of h (ax_key a) (ax_rev a) i) (Some i))) (gbind (l', e) (fun i => to_ecs a (axis_of h' (ax_key a) (ax_rev a) i) (Some i)))).
    { unfold gbind. cbn [fst snd]. apply (gflat_same R (R2 R)); [|exact F]. intros x y Q. apply ecs_same; [apply axis_of_same; exact Q|exact Q]. }
    unfold axis_find. remember (ax_key a) as k eqn:Ek. destruct k; try exact B.
    - apply ecs_same; [split; [exact F|reflexivity]|exact Logic.I].
    - destruct e as [e|]; [split; [constructor|reflexivity]|]. apply ecs_same; [|exact Logic.I]. pose proof (dedup_same l l' F [] [] (Forall2_nil _)) as D. split; [|reflexivity]. destruct (ax_rev a); [apply F2_rev|]; exact D.
    - cbn [fst snd]. pose proof (F2_find R (fun i => match n_par (nd h i) with None => true | Some _ => false end) (fun i => match n_par (nd h' i) with None => true | Some _ => false end) l l') as Ff.
      specialize (Ff root_same F).
      destruct (find _ l) as [x|], (find _ l') as [y|]; try contradiction; [apply ecs_same; [apply sg_list; constructor|exact Ff]|].
      destruct e as [e|]; [split; [constructor|reflexivity]|]. apply F2_rev in F. destruct F as [|x y m m' Hx F]; [split; [constructor|reflexivity]|]. apply ecs_same; [apply axis_of_same; exact Hx|exact Hx].
    - cbn [fst snd]. pose proof (F2_find R (fun i => match n_par (nd h i) with None => true | Some _ => false end) (fun i => match n_par (nd h' i) with None => true | Some _ => false end) l l') as Ff.
      specialize (Ff root_same F).
      destruct (find _ l) as [x|], (find _ l') as [y|]; try contradiction; [apply ecs_same; [apply sg_list; constructor|exact Ff]|].
      destruct e as [e|]; [split; [constructor|reflexivity]|]. apply F2_rev in F. destruct F as [|x y m m' Hx F]; [split; [constructor|reflexivity]|]. apply ecs_same; [apply axis_of_same; exact Hx|exact Hx].
  Qed.
End S.
