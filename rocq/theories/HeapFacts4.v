(** Proofs: heaps as trees, clone, walk_descendants. *)
From Verif Require Export HeapFacts3 Tree.
From Coq Require Import Arith.

Lemma rep_unfold h f ts i : rep h (T f ts) i <-> n_f (nd h i) = f /\ Forall2 (rep h) ts (n_kids (nd h i)).
Proof.
  cbn [rep]. split; intros [Hf Hg]; (split; [exact Hf|]); clear Hf; revert Hg; generalize (n_kids (nd h i)).
  - induction ts as [|t ts IH]; intros [|k ks] Hg; try contradiction; [constructor|]. destruct Hg as [H1 H2]. constructor; [exact H1|apply IH; exact H2].
  - induction ts as [|t ts IH]; intros [|k ks] Hg; inversion Hg; subst; [exact I|]. split; [assumption|apply IH; assumption].
Qed.
Lemma rep_f h t i : rep h t i -> n_f (nd h i) = t_f t.
Proof. destruct t as [f ts]. rewrite rep_unfold. intros [H _]. exact H. Qed.
Lemma rep_kids h t i : rep h t i -> Forall2 (rep h) (t_kids t) (n_kids (nd h i)).
Proof. destruct t as [f ts]. rewrite rep_unfold. intros [_ H]. exact H. Qed.
Lemma list_max_In (l : list nat) x : In x l -> (x <= list_max l)%nat.
Proof. intros H. pose proof (proj1 (list_max_le l (list_max l)) (Nat.le_refl _)) as F. rewrite Forall_forall in F. apply F. exact H. Qed.
Lemma t_height_kids f ts t : In t ts -> (t_height t < t_height (T f ts))%nat.
Proof. intros H. cbn [t_height]. pose proof (list_max_In (map t_height ts) (t_height t) (in_map _ _ _ H)). lia. Qed.

(** on an acyclic heap every object is the root of a (finite) tree *)
Lemma rep_ex_aux h : hwf h -> acyclic h -> forall fuel i vs, (i < length h)%nat -> NoDup vs -> Forall (fun v => anc h v i) vs ->
  (length h <= fuel + length vs)%nat -> exists t, rep h t i /\ (t_height t <= fuel)%nat.
Proof.
  intros H Ha. induction fuel as [|fuel IH]; intros i vs Hi Hnd Hvs Hlen.
  - exfalso. assert (Hn : NoDup (i :: vs)).
    { constructor; [|exact Hnd]. intros Hin. rewrite Forall_forall in Hvs. exact (Ha i (Hvs i Hin)). }
    assert (Hincl : incl (i :: vs) (seq 0 (length h))).
    { intros x [<-|Hx]; apply in_seq; [lia|]. rewrite Forall_forall in Hvs. apply Hvs in Hx. apply anc_bound in Hx; [lia|exact H]. }
    pose proof (NoDup_incl_length Hn Hincl) as Hl. rewrite seq_length in Hl. cbn in Hl. lia.
  - assert (Hk : forall ks, (forall c, In c ks -> In c (n_kids (nd h i))) -> exists ts, Forall2 (rep h) ts ks /\ Forall (fun t => (t_height t <= fuel)%nat) ts).
    { induction ks as [|c ks IHk]; intros Hin; [exists []; split; constructor|].
      destruct IHk as (ts & F & Hh); [intros; apply Hin; right; assumption|].
      assert (Hc := Hin c (or_introl eq_refl)). apply (hwf_kid h H) in Hc. destruct Hc as (Hcp & _ & _ & Hcl).
      destruct (IH c (i :: vs)) as (t & Ht & Hth); [exact Hcl| | |cbn; lia|].
      - constructor; [|exact Hnd]. intros Hin'. rewrite Forall_forall in Hvs. exact (Ha i (Hvs i Hin')).
      - constructor; [apply anc_parent; exact Hcp|]. eapply Forall_impl; [|exact Hvs]. intros v Hv. apply (anc_up _ _ _ i); assumption.
      - exists (t :: ts). split; constructor; assumption. }
    destruct (Hk _ (fun c Hc => Hc)) as (ts & F & Hh). exists (T (n_f (nd h i)) ts). split; [apply rep_unfold; auto|].
    cbn [t_height]. assert (list_max (map t_height ts) <= fuel)%nat; [|lia]. apply list_max_le. apply Forall_map. exact Hh.
Qed.
Lemma rep_ex h i : hwf h -> acyclic h -> (i < length h)%nat -> exists t, rep h t i /\ (t_height t <= length h)%nat.
Proof. intros H Ha Hi. apply (rep_ex_aux h H Ha (length h) i []); auto; [constructor|cbn; lia]. Qed.

Lemma rep_fun h : forall t t' i, rep h t i -> rep h t' i -> t = t'.
Proof.
  induction t as [f ts IH] using tree_ind'. intros [f' ts'] i. rewrite !rep_unfold. intros [<- F] [<- F']. f_equal.
  revert ts' F'. induction F as [|t k ts ks Ht F IHF]; intros ts' F'; inversion F'; subst; [reflexivity|]. inversion IH; subst.
  f_equal; [eapply H1; eassumption|]. apply IHF; assumption.
Qed.

Lemma rep_frame h h' : hwf h -> forall t i, rep h t i ->
  (forall j, j = i \/ anc h i j -> n_f (nd h' j) = n_f (nd h j) /\ n_kids (nd h' j) = n_kids (nd h j)) -> rep h' t i.
Proof.
  intros H. induction t as [f ts IH] using tree_ind'. intros i. rewrite !rep_unfold. intros [Hf F] Hj.
  destruct (Hj i (or_introl eq_refl)) as [E1 E2]. rewrite E1, E2. split; [exact Hf|].
  assert (Hk : forall k, In k (n_kids (nd h i)) -> n_par (nd h k) = Some i) by (intros k Hk; apply (hwf_kid h H) in Hk; tauto).
  clear E2. revert F Hk. generalize (n_kids (nd h i)) as ks. intros ks F. induction F as [|t k ts ks Ht F IHF]; intros Hk; [constructor|].
  inversion IH; subst. constructor; [|apply IHF; auto; intros; apply Hk; right; assumption].
  apply H2; [exact Ht|]. intros j [->|Hkj]; apply Hj; right; [apply anc_parent; apply Hk; left; reflexivity|].
  eapply anc_trans; [apply anc_parent; apply Hk; left; reflexivity|exact Hkj].
Qed.
Lemma rep_extends h h' t i : hwf h -> extends h h' -> (i < length h)%nat -> rep h t i -> rep h' t i.
Proof.
  intros H [L E] Hi Hr. apply (rep_frame h h' H t i Hr). intros j Hj.
  assert (j < length h)%nat by (destruct Hj as [->|Hj]; [exact Hi|apply (anc_bound h i j H) in Hj; lia]). rewrite E by assumption. auto.
Qed.
Lemma Forall2_rep_extends h h' ts ks : hwf h -> extends h h' -> Forall (fun c => (c < length h)%nat) ks -> Forall2 (rep h) ts ks -> Forall2 (rep h') ts ks.
Proof. intros H X Hk F. induction F; constructor; inversion Hk; subst; auto. apply (rep_extends h); auto. Qed.
Lemma Forall2_rep_sorted h ts ks : Forall2 (rep h) ts ks -> (kids_sorted h ks <-> StronglySorted t_before ts).
Proof.
  intros F. induction F as [|t k ts ks Ht F IH]; [split; constructor|].
  assert (E : Forall (h_before h k) ks <-> Forall (t_before t) ts).
  { clear IH. induction F as [|t' k' ts ks Ht' F IHF]; [split; constructor|].
    assert (Eb : h_before h k k' <-> t_before t t').
    { unfold h_before, t_before, h_start, h_stop, t_start, t_stop. rewrite (rep_f _ _ _ Ht), (rep_f _ _ _ Ht'). reflexivity. }
    split; intros X; inversion X; subst; constructor; tauto. }
  unfold kids_sorted in *. split; intros X; inversion X; subst; constructor; tauto.
Qed.
Lemma Forall2_in_l {A B} (R : A -> B -> Prop) l l' a : Forall2 R l l' -> In a l -> exists b, In b l' /\ R a b.
Proof. induction 1; [intros []|]. intros [->|Hi]; [eexists; split; [left; reflexivity|assumption]|]. destruct (IHForall2 Hi) as (b & ? & ?). exists b. split; [right|]; assumption. Qed.
Lemma Forall2_in_r {A B} (R : A -> B -> Prop) l l' b : Forall2 R l l' -> In b l' -> exists a, In a l /\ R a b.
Proof. induction 1; [intros []|]. intros [->|Hi]; [eexists; split; [left; reflexivity|assumption]|]. destruct (IHForall2 Hi) as (a & ? & ?). exists a. split; [right|]; assumption. Qed.
Lemma rep_fits h t p tc c : rep h t p -> rep h tc c -> (fits h c p <-> t_fits tc t).
Proof. intros Hp Hc. unfold fits, t_fits, h_string, h_start, h_stop, t_string, t_start, t_stop. rewrite (rep_f _ _ _ Hp), (rep_f _ _ _ Hc). reflexivity. Qed.
Lemma twf_unfold f ts : twf (T f ts) <-> fwf f /\ StronglySorted t_before ts /\ Forall (fun c => t_fits c (T f ts)) ts /\ Forall twf ts.
Proof.
  cbn [twf]. split; intros (H1 & H2 & H3 & H4); (split; [exact H1|split; [exact H2|split; [exact H3|]]]); clear - H4.
  - induction ts as [|t ts IH]; [constructor|]. destruct H4 as [H5 H6]. constructor; auto.
  - induction ts as [|t ts IH]; [exact I|]. inversion H4; subst. split; [assumption|apply IH; assumption].
Qed.
(** the tree under an object of a well-formed heap is well-formed *)
Lemma rep_twf h : hwf h -> forall t i, rep h t i -> twf t.
Proof.
  intros H. induction t as [f ts IH] using tree_ind'. intros i Hr. pose proof Hr as Hr0. apply rep_unfold in Hr. destruct Hr as [Hf F]. apply twf_unfold.
  split; [rewrite <- Hf; apply (hwf_span h H)|]. split; [apply (Forall2_rep_sorted h ts _ F); apply (hwf_sorted h H)|].
  rewrite !Forall_forall in *. split; intros t Ht; destruct (Forall2_in_l _ _ _ _ F Ht) as (k & Hk & Hrk).
  - apply (hwf_kid h H) in Hk. apply (rep_fits h (T f ts) i t k Hr0 Hrk). tauto.
  - eapply IH; eassumption.
Qed.

(** ** adding a sorted run of children *)
Lemma kids_sorted_NoDup h ks : kids_sorted h ks -> NoDup ks.
Proof. induction 1 as [|k ks Hs IH Hf]; constructor; auto. intros Hin. rewrite Forall_forall in Hf. specialize (Hf k Hin). unfold h_before in Hf. lia. Qed.
Lemma SS_app_inv {A} (R : A -> A -> Prop) l l' : StronglySorted R (l ++ l') -> StronglySorted R l /\ StronglySorted R l' /\ forall x y, In x l -> In y l' -> R x y.
Proof.
  induction l as [|a l IH]; cbn [app]; intros H; [split; [constructor|split; [exact H|intros x y []]]|].
  inversion H as [|? ? Hs Hf]; subst. destruct (IH Hs) as (I1 & I2 & I3). apply Forall_app in Hf. destruct Hf as [F1 F2]. split; [constructor; assumption|]. split; [exact I2|].
  intros x y [<-|Hx] Hy; [rewrite Forall_forall in F2; auto|auto].
Qed.
Lemma SS_app {A} (R : A -> A -> Prop) l l' : StronglySorted R l -> StronglySorted R l' -> (forall x y, In x l -> In y l' -> R x y) -> StronglySorted R (l ++ l').
Proof.
  induction l as [|a l IH]; cbn [app]; intros H1 H2 H3; [exact H2|]. inversion H1 as [|? ? Hs Hf]; subst. constructor.
  - apply IH; auto. intros; apply H3; [right|]; assumption.
  - apply Forall_app. split; [exact Hf|]. apply Forall_forall. intros y Hy. apply H3; [left; reflexivity|exact Hy].
Qed.
Definition memb (j : nat) (l : list nat) : bool := existsb (Nat.eqb j) l.
Lemma memb_In j l : memb j l = true <-> In j l.
Proof. unfold memb. rewrite existsb_exists. split; [intros (x & Hx & E); apply Nat.eqb_eq in E; subst; exact Hx|intros H; exists j; split; [exact H|apply Nat.eqb_refl]]. Qed.

Lemma kids_add_seq p : forall cs h ks, hwf h -> (p < length h)%nat -> Forall (fun c => (c < length h)%nat) cs ->
  Forall (fun c => n_par (nd h c) = None /\ c <> p) cs -> n_kids (nd h p) = ks -> kids_sorted h (ks ++ cs) ->
  let r := kids_add h p cs in
  hwf (fst r) /\ length (fst r) = length h /\ (forall j, n_f (nd (fst r) j) = n_f (nd h j)) /\
  ((Forall (fun c => fits h c p) cs /\ snd r = Ok tt /\
    (forall j, n_kids (nd (fst r) j) = if (j =? p)%nat then ks ++ cs else n_kids (nd h j)) /\
    (forall j, n_par (nd (fst r) j) = if memb j cs then Some p else n_par (nd h j)))
   \/ (~ Forall (fun c => fits h c p) cs /\ snd r = Err ValueError)).
Proof.
  induction cs as [|c cs IH]; intros h ks H Hp Hcs Hn Ek Hs; cbv zeta; cbn [kids_add].
  - cbn [fst snd]. split; [exact H|]. split; [reflexivity|]. split; [auto|]. left. rewrite app_nil_r in *. repeat split; auto.
    intros j. destruct (Nat.eqb_spec j p) as [->|]; auto.
  - inversion Hcs as [|? ? Hc Hcs']; subst. inversion Hn as [|? ? [Hcn Hcp] Hn']; subst.
    pose proof (SS_app_inv _ _ _ Hs) as (S1 & S2 & S3). inversion S2 as [|? ? S4 S5]; subst.
    destruct (kids_add1_spec h p c H Hp Hc) as [((_ & Hf & Hne & _) & l & r & Ek & Hl & Hr & E)|(Hna & E)]; rewrite E; unfold obind; cbn [fst snd].
    + assert (Er : r = []).
      { destruct r as [|x r]; [reflexivity|]. exfalso. inversion Hr as [|? ? Hx _]; subst.
        assert (Hin : In x (n_kids (nd h p))) by (rewrite Ek; apply in_or_app; right; left; reflexivity).
        specialize (S3 x c Hin (or_introl eq_refl)). unfold h_before in *. lia. }
      subst r. rewrite app_nil_r in Ek.
      destruct (hwf_insert h p c l [] H Hp Hc Hcn Hf Hne) as (H1 & L1 & D1); [rewrite app_nil_r; exact Ek|exact Hl|constructor|].
      set (h1 := set_kids _ p _) in *.
      assert (K1 : forall j, n_kids (nd h1 j) = if (j =? p)%nat then l ++ [c] else n_kids (nd h j)).
      { intros j. unfold h1. rewrite kids_set_kids by (rewrite set_par_length; exact Hp). rewrite kids_set_par. reflexivity. }
      assert (P1 : forall j, n_par (nd h1 j) = if (j =? c)%nat then Some p else n_par (nd h j)).
      { intros j. unfold h1. rewrite par_set_kids. apply par_set_par. exact Hc. }
      clearbody h1.
      assert (Ks1 : kids_sorted h1 ((l ++ [c]) ++ cs)).
      { rewrite <- app_assoc. cbn [app]. rewrite Ek in Hs. unfold kids_sorted in *. clear - Hs D1.
        induction Hs as [|x y Hxy IHx Hf]; constructor; [exact IHx|]. eapply Forall_impl; [|exact Hf]. unfold h_before, h_start, h_stop. intros a. rewrite !D1. auto. }
      assert (Fi : forall c, fits h1 c p <-> fits h c p) by (intros c'; unfold fits, h_string, h_start, h_stop; rewrite !D1; reflexivity).
      destruct (IH h1 (l ++ [c]) H1) as (H2 & L2 & D2 & R); try (rewrite L1; assumption).
      * rewrite Forall_forall in *. intros x Hx. split; [|apply Hn'; exact Hx]. rewrite P1.
        destruct (Nat.eqb_spec x c) as [->|]; [|apply Hn'; exact Hx]. exfalso. specialize (S5 c Hx). unfold h_before in S5. lia.
      * rewrite K1, Nat.eqb_refl. reflexivity.
      * exact Ks1.
      * split; [exact H2|]. split; [lia|]. split; [intros j; rewrite D2; apply D1|].
        destruct R as [(F & Eo & K2 & P2)|(F & Eo)]; [left|right].
        -- split; [constructor; [exact Hf|]; eapply Forall_impl; [|exact F]; intros a; apply Fi|]. split; [exact Eo|]. split.
           ++ intros j. rewrite K2, K1, <- app_assoc, Ek. cbn [app]. destruct (j =? p)%nat; reflexivity.
           ++ intros j. rewrite P2, P1. unfold memb. cbn [existsb]. destruct (j =? c)%nat; cbn [orb]; [destruct (existsb _ cs); reflexivity|reflexivity].
        -- split; [|exact Eo]. intros F'. apply F. inversion F'; subst. eapply Forall_impl; [|eassumption]. intros a. apply Fi.
    + split; [exact H|]. split; [reflexivity|]. split; [auto|]. right. split; [|reflexivity]. intros F. apply Hna. inversion F; subst.
      split; [exact Hcn|]. split; [assumption|]. split; [exact Hcp|]. apply Forall_forall. intros k Hk. specialize (S3 k c Hk (or_introl eq_refl)).
      unfold clear_of, h_before in *. lia.
Qed.

(** ** clone *)
Lemma map_clone_cons cl h c l : map_clone cl h (c :: l) = obind (cl h c) (fun h1 c' => obind (map_clone cl h1 l) (fun h2 cs' => (h2, Ok (c' :: cs')))).
Proof. reflexivity. Qed.
Lemma map_clone_strong fuel : (forall t h i, hwf h -> (i < length h)%nat -> rep h t i -> (t_height t <= fuel)%nat ->
    let r := clone_h fuel h i None None None true in
    snd r = Ok (length h) /\ hwf (fst r) /\ extends h (fst r) /\ n_par (nd (fst r) (length h)) = None /\ (length h < length (fst r))%nat /\ rep (fst r) t (length h)) ->
  forall ts ks g, hwf g -> Forall (fun c => (c < length g)%nat) ks -> Forall2 (rep g) ts ks -> Forall (fun t => (t_height t <= fuel)%nat) ts ->
  exists cs, let r := map_clone (fun h c => clone_h fuel h c None None None true) g ks in
    snd r = Ok cs /\ hwf (fst r) /\ extends g (fst r) /\ Forall2 (rep (fst r)) ts cs /\
    Forall (fun c => (length g <= c < length (fst r))%nat /\ n_par (nd (fst r) c) = None) cs.
Proof.
  intros Hcl. induction ts as [|t ts IH]; intros ks g H Hks F Hh; inversion F as [|? k ? ks' Hk F']; subst.
  - exists []. cbn [map_clone fst snd]. split; [reflexivity|]. split; [exact H|]. split; [apply extends_refl|]. split; constructor.
  - inversion Hks as [|? ? Hkl Hks']; subst. inversion Hh as [|? ? Hth Hh']; subst.
    destruct (Hcl t g k H Hkl Hk Hth) as (E1 & H1 & X1 & N1 & L1 & R1). rewrite map_clone_cons. cbv zeta. unfold obind.
    destruct (clone_h fuel g k None None None true) as [g1 o1]. cbn [fst snd] in *. subst o1. cbn [fst snd].
    destruct (IH ks' g1 H1) as (cs & E2 & H2 & X2 & F2 & C2).
    + eapply Forall_impl; [|exact Hks']. destruct X1 as [? _]. cbn. intros; lia.
    + apply (Forall2_rep_extends g); auto.
    + exact Hh'.
    + destruct (map_clone _ g1 ks') as [g2 o2]. cbn [fst snd] in *. subst o2. exists (length g :: cs). cbn [fst snd].
      split; [reflexivity|]. split; [exact H2|]. split; [eapply extends_trans; eassumption|].
      destruct X1 as [X1 _]. split; [constructor; [apply (rep_extends g1); auto|exact F2]|]. pose proof X2 as [X2l X2n].
      constructor; [split; [lia|rewrite X2n by lia; exact N1]|]. eapply Forall_impl; [|exact C2]. cbn. intros a [? ?]. split; [lia|assumption].
Qed.
Lemma clone_core fuel : (forall t h i, hwf h -> (i < length h)%nat -> rep h t i -> (t_height t <= fuel)%nat ->
    let r := clone_h fuel h i None None None true in
    snd r = Ok (length h) /\ hwf (fst r) /\ extends h (fst r) /\ n_par (nd (fst r) (length h)) = None /\ (length h < length (fst r))%nat /\ rep (fst r) t (length h)) ->
  forall f ts h i a b d, hwf h -> (i < length h)%nat -> rep h (T f ts) i -> (t_height (T f ts) <= S fuel)%nat ->
    let r := clone_h (S fuel) h i a b d true in
    let f' := clone_f f a b d in
    hwf (fst r) /\ extends h (fst r) /\ (length h < length (fst r))%nat /\
    ((Forall (fun c => t_fits c (T f' [])) ts /\ snd r = Ok (length h) /\ n_par (nd (fst r) (length h)) = None /\ rep (fst r) (T f' ts) (length h))
     \/ (~ Forall (fun c => t_fits c (T f' [])) ts /\ snd r = Err ValueError)).
Proof.
  intros Hcl f ts h i a b d H Hi Hr Hh. cbv zeta. cbn [clone_h].
  apply rep_unfold in Hr. destruct Hr as [Hf F]. rewrite Hf. set (f' := clone_f f a b d).
  unfold new_node, obind. cbn [fst snd]. set (h1 := h ++ [Nd f' None []]).
  assert (H1 : hwf h1) by (apply hwf_new; [exact H|apply clone_f_wf]).
  assert (L1 : length h1 = S (length h)) by (unfold h1; rewrite app_length; cbn; lia).
  assert (E1 : extends h h1) by apply extends_new.
  assert (N1 : nd h1 (length h) = Nd f' None []) by (unfold h1; rewrite nd_app, Nat.eqb_refl; reflexivity).
  assert (Hks : Forall (fun c => (c < length h)%nat) (n_kids (nd h i))) by (apply Forall_forall; intros c Hc; apply (hwf_kid h H) in Hc; lia).
  destruct (map_clone_strong fuel Hcl ts (n_kids (nd h i)) h1 H1) as (cs & E2 & H2 & X2 & F2 & C2).
  - eapply Forall_impl; [|exact Hks]. cbn. intros; lia.
  - apply (Forall2_rep_extends h); auto.
  - apply Forall_forall. intros t Ht. pose proof (t_height_kids f ts t Ht). lia.
  - destruct (map_clone _ h1 (n_kids (nd h i))) as [h2 o2]. cbn [fst snd] in *. subst o2. cbn [fst snd].
    pose proof X2 as [X2l X2n]. assert (N2 : nd h2 (length h) = Nd f' None []) by (rewrite X2n by lia; exact N1).
    assert (Hs : kids_sorted h2 cs).
    { apply (Forall2_rep_sorted h2 ts cs F2). apply (Forall2_rep_sorted h ts _ F). apply (hwf_sorted h H). }
    destruct (kids_add_seq (length h) cs h2 [] H2) as (H3 & L3 & D3 & R).
    + lia.
    + eapply Forall_impl; [|exact C2]. cbn. intros x [? ?]; lia.
    + eapply Forall_impl; [|exact C2]. cbn. intros x [? ?]; split; [assumption|lia].
    + rewrite N2. reflexivity.
    + exact Hs.
    + assert (X3 : extends h (fst (kids_add h2 (length h) cs))).
      { apply kids_add_extends; auto; try lia; [eapply extends_trans; eassumption| |]; (eapply Forall_impl; [|exact C2]; cbn; intros x [? ?]; lia). }
      assert (Fi : Forall (fun c => fits h2 c (length h)) cs <-> Forall (fun c => t_fits c (T f' [])) ts).
      { assert (Hrv : rep h2 (T f' []) (length h)) by (apply rep_unfold; rewrite N2; split; [reflexivity|constructor]).
        clear - F2 Hrv. induction F2 as [|t k ts ks Ht F IHF]; [split; constructor|].
        pose proof (rep_fits h2 _ _ _ _ Hrv Ht). split; intros X; inversion X; subst; constructor; tauto. }
      assert (P3 : Forall (fun c => fits h2 c (length h)) cs -> (forall j, n_kids (nd (fst (kids_add h2 (length h) cs)) j) = if (j =? length h)%nat then [] ++ cs else n_kids (nd h2 j)) ->
        (forall j, n_par (nd (fst (kids_add h2 (length h) cs)) j) = if memb j cs then Some (length h) else n_par (nd h2 j)) ->
        n_par (nd (fst (kids_add h2 (length h) cs)) (length h)) = None /\ rep (fst (kids_add h2 (length h) cs)) (T f' ts) (length h)).
      { intros _ K P. split.
        - rewrite P. destruct (memb (length h) cs) eqn:Em; [|rewrite N2; reflexivity]. apply memb_In in Em. rewrite Forall_forall in C2. apply C2 in Em. lia.
        - apply rep_unfold. rewrite K, Nat.eqb_refl, D3, N2. split; [reflexivity|]. cbn [app].
          assert (Hfr : forall t c, (length h1 <= c)%nat -> rep h2 t c -> rep (fst (kids_add h2 (length h) cs)) t c).
          { intros t c Hc Ht. apply (rep_frame h2 _ H2 t c Ht). intros j Hj. split; [apply D3|]. rewrite K.
            destruct (Nat.eqb_spec j (length h)) as [->|]; [|reflexivity]. exfalso. destruct Hj as [Hj|Hj]; [lia|].
            revert Hj. apply root_not_below. rewrite N2. reflexivity. }
          clear - F2 C2 Hfr. revert Hfr. generalize (fst (kids_add h2 (length h) cs)) as g. intros g Hfr.
          induction F2; constructor; inversion C2; subst; auto. apply Hfr; [lia|assumption]. }
      destruct (kids_add h2 (length h) cs) as [h3 o3]. cbn [fst snd] in *.
      destruct R as [(Ff & -> & K & P)|(Ff & ->)]; cbn [fst snd]; (split; [exact H3|]; split; [exact X3|]; split; [lia|]).
      * left. split; [apply Fi; exact Ff|]. split; [reflexivity|]. apply P3; auto.
      * right. split; [rewrite <- Fi; exact Ff|reflexivity].
Qed.
Lemma clone_strong : forall fuel t h i, hwf h -> (i < length h)%nat -> rep h t i -> (t_height t <= fuel)%nat ->
    let r := clone_h fuel h i None None None true in
    snd r = Ok (length h) /\ hwf (fst r) /\ extends h (fst r) /\ n_par (nd (fst r) (length h)) = None /\ (length h < length (fst r))%nat /\ rep (fst r) t (length h).
Proof.
  induction fuel as [|fuel IH]; intros [f ts] h i H Hi Hr Hh; [cbn in Hh; lia|].
  destruct (clone_core fuel IH f ts h i None None None H Hi Hr Hh) as (H1 & X1 & L1 & R). cbv zeta.
  pose proof (rep_twf h H _ _ Hr) as Ht. apply twf_unfold in Ht. destruct Ht as (Hf & _ & Hfit & _).
  rewrite (clone_f_self f Hf) in R. destruct R as [(_ & E & N & R)|(C & _)].
  - exact (conj E (conj H1 (conj X1 (conj N (conj L1 R))))).
  - exfalso. apply C. exact Hfit.
Qed.
(** a clone is disjoint from everything that existed *)
Lemma fresh_below h h' r : hwf h -> hwf h' -> extends h h' -> (length h <= r)%nat -> forall j, anc h' r j -> (length h <= j)%nat.
Proof.
  intros H H' [L X] Hr j Hj. destruct (Nat.lt_ge_cases j (length h)) as [Hlt|]; [|assumption]. exfalso.
  revert Hlt. induction Hj as [j Hj|j p Hj Hp IH]; intros Hlt; rewrite X in Hj by assumption; apply (hwf_par h H) in Hj; [lia|].
  apply IH. lia.
Qed.

(** ** walk_descendants *)
Definition walk_go (f : nat -> res (list (Z * nat))) (level : Z) (reverse : bool) :=
  fix go (l : list nat) : res (list (Z * nat)) :=
       match l with
       | [] => Ok []
       | c :: l' => do w <- f c;
                    do r <- go l';
                    Ok ((if reverse then w ++ [(level, c)] else (level, c) :: w) ++ r)
       end.
Lemma walk_unfold n h i level reverse : walk_levels (S n) h i level reverse =
  walk_go (fun c => walk_levels n h c (level + 1) reverse) level reverse (if reverse then rev (n_kids (nd h i)) else n_kids (nd h i)).
Proof. reflexivity. Qed.
Lemma walk_go_app f level rv l l' : walk_go f level rv (l ++ l') = do a <- walk_go f level rv l; do b <- walk_go f level rv l'; Ok (a ++ b).
Proof.
  induction l as [|c l IH]; cbn [app walk_go].
  - cbn. destruct (walk_go f level rv l'); reflexivity.
  - rewrite IH. destruct (f c) as [w|e]; cbn; [|reflexivity]. destruct (walk_go f level rv l) as [a|e]; cbn; [|reflexivity].
    destruct (walk_go f level rv l') as [b|e]; cbn; [|reflexivity]. rewrite app_assoc. reflexivity.
Qed.
Lemma below_anc h i j n : below h i j n -> anc h i j.
Proof. induction 1; [apply anc_parent|eapply anc_up]; eassumption. Qed.
Lemma anc_below h i j : anc h i j -> exists n, below h i j n.
Proof. induction 1 as [j Hj|j p Hj Hp [n IH]]; [exists 0%nat; constructor; assumption|exists (S n); econstructor; eassumption]. Qed.
Lemma below_step h i c j n : n_par (nd h c) = Some i -> below h c j n -> below h i j (S n).
Proof. intros Hc. induction 1 as [j Hj|j p n Hj Hp IH]; (eapply below_down; [eassumption|]); [constructor; exact Hc|exact IH]. Qed.
Lemma below_split h i j n : below h i j n -> (n = 0%nat /\ n_par (nd h j) = Some i) \/ exists c m, n = S m /\ n_par (nd h c) = Some i /\ below h c j m.
Proof.
  induction 1 as [j Hj|j p n Hj Hp IH]; [left; auto|]. right. destruct IH as [[-> Hpi]|(c & m & -> & Hc & Hb)].
  - exists p, 0%nat. repeat split; auto. constructor. exact Hj.
  - exists c, (S m). repeat split; auto. econstructor; eassumption.
Qed.
Lemma walk_spec h : hwf h -> forall t fuel i level, rep h t i -> (t_height t <= fuel)%nat ->
  exists l, walk_levels fuel h i level false = Ok l /\ walk_levels fuel h i level true = Ok (rev l) /\
    (forall k j, In (k, j) l <-> exists n, below h i j n /\ k = level + Z.of_nat n) /\
    StronglySorted (doc_before h) (map snd l).
Proof.
  intros H. induction t as [f ts IH] using tree_ind'. intros [|fuel] i level Hr Hh; [cbn in Hh; lia|].
  rewrite !walk_unfold. apply rep_unfold in Hr. destruct Hr as [_ F].
  assert (G : forall ts1 ks1 ks0, Forall2 (rep h) ts1 ks1 -> n_kids (nd h i) = ks0 ++ ks1 -> (forall t, In t ts1 -> In t ts) ->
    exists l, walk_go (fun c => walk_levels fuel h c (level + 1) false) level false ks1 = Ok l /\
              walk_go (fun c => walk_levels fuel h c (level + 1) true) level true (rev ks1) = Ok (rev l) /\
      (forall k j, In (k, j) l <-> exists c, In c ks1 /\ ((j = c /\ k = level) \/ exists n, below h c j n /\ k = level + 1 + Z.of_nat n)) /\
      StronglySorted (doc_before h) (map snd l)).
  { induction ts1 as [|t ts1 IHt]; intros ks1 ks0 F1 Ek Hin; inversion F1 as [|? c ? ks2 Hc F2]; subst.
    - exists []. cbn. repeat split; try constructor; [intros []|intros (c & [] & _)].
    - rewrite Forall_forall in IH. destruct (IH t (Hin t (or_introl eq_refl)) fuel c (level + 1) Hc) as (w & W1 & W2 & W3 & W4).
      { pose proof (t_height_kids f ts t (Hin t (or_introl eq_refl))). lia. }
      destruct (IHt ks2 (ks0 ++ [c]) F2) as (l & G1 & G2 & G3 & G4); [rewrite Ek, <- app_assoc; reflexivity|intros; apply Hin; right; assumption|].
      exists ((level, c) :: w ++ l). cbn [walk_go rev]. rewrite W1. cbn [bind]. fold (walk_go (fun c => walk_levels fuel h c (level + 1) false) level false).
      rewrite G1. cbn [bind]. split; [reflexivity|]. split.
      { rewrite walk_go_app, G2. cbn [bind walk_go]. rewrite W2. cbn [bind]. rewrite app_nil_r, rev_app_distr, app_assoc. reflexivity. }
      assert (Hci : n_par (nd h c) = Some i). { assert (Hx : In c (n_kids (nd h i))) by (rewrite Ek; apply in_or_app; right; left; reflexivity). apply (hwf_kid h H) in Hx. tauto. }
      split.
      { intros k j. cbn [In]. rewrite in_app_iff, W3, G3. split.
        - intros [[= <- <-]|[(n & Hb & ->)|(c' & Hc' & Hx)]]; [exists c; auto|exists c; split; [auto|right; eauto]|exists c'; split; [right|]; auto].
        - intros (c' & [<-|Hc'] & Hx); [destruct Hx as [[-> ->]|(n & Hb & ->)]; [left; reflexivity|right; left; eauto]|right; right; eauto]. }
      cbn [map snd]. rewrite map_app. constructor.
      + apply SS_app; auto. intros a b Ha Hb. apply in_map_iff in Ha, Hb. destruct Ha as ([k a'] & Ea & Ha), Hb as ([k' b'] & Eb & Hb). cbn in Ea, Eb. subst a' b'.
        apply W3 in Ha. destruct Ha as (n & Ha & _). apply below_anc in Ha.
        apply G3 in Hb. destruct Hb as (c' & Hc' & Hb). right. apply in_split in Hc'. destruct Hc' as (m & r & E).
        exists i, ks0, c, m, c', r. rewrite Ek, E. split; [reflexivity|]. split; [right; exact Ha|].
        destruct Hb as [[-> _]|(n' & Hb & _)]; [left; reflexivity|right; eapply below_anc; exact Hb].
      + apply Forall_forall. intros b Hb. apply in_app_iff in Hb. destruct Hb as [Hb|Hb]; apply in_map_iff in Hb; destruct Hb as ([k b'] & Eb & Hb); cbn in Eb; subst b'.
        * apply W3 in Hb. destruct Hb as (n & Hb & _). left. eapply below_anc; exact Hb.
        * apply G3 in Hb. destruct Hb as (c' & Hc' & Hb). right. apply in_split in Hc'. destruct Hc' as (m & r & E).
          exists i, ks0, c, m, c', r. rewrite Ek, E. split; [reflexivity|]. split; [left; reflexivity|].
          destruct Hb as [[-> _]|(n' & Hb & _)]; [left; reflexivity|right; eapply below_anc; exact Hb]. }
  destruct (G ts (n_kids (nd h i)) [] F eq_refl (fun t Ht => Ht)) as (l & G1 & G2 & G3 & G4). exists l. cbn beta iota. rewrite G1, G2.
  split; [reflexivity|]. split; [reflexivity|]. split; [|exact G4]. intros k j. rewrite G3. split.
  - intros (c & Hc & Hx). apply (hwf_kid h H) in Hc. destruct Hc as (Hc & _). destruct Hx as [[-> ->]|(n & Hb & ->)].
    + exists 0%nat. split; [constructor; exact Hc|lia].
    + exists (S n). split; [eapply below_step; eassumption|lia].
  - intros (n & Hb & ->). apply below_split in Hb. destruct Hb as [[-> Hj]|(c & m & -> & Hc & Hb)].
    + exists j. split; [apply (hwf_par h H); exact Hj|]. left. split; [reflexivity|lia].
    + exists c. split; [apply (hwf_par h H); exact Hc|]. right. exists m. split; [exact Hb|lia].
Qed.
(** document order is irreflexive on an acyclic well-formed heap, so nothing is visited twice *)
Lemma kids_disjoint h : hwf h -> acyclic h -> forall p l x m y r a, n_kids (nd h p) = l ++ x :: m ++ y :: r ->
  self_or_anc h x a -> self_or_anc h y a -> False.
Proof.
  intros H Ha p l x m y r a Ek Hx Hy.
  assert (Hpx : n_par (nd h x) = Some p) by (assert (Hin : In x (n_kids (nd h p))) by (rewrite Ek; apply in_or_app; right; left; reflexivity); apply (hwf_kid h H) in Hin; tauto).
  assert (Hpy : n_par (nd h y) = Some p) by (assert (Hin : In y (n_kids (nd h p))) by (rewrite Ek; apply in_or_app; right; right; apply in_or_app; right; left; reflexivity); apply (hwf_kid h H) in Hin; tauto).
  assert (Hne : x <> y).
  { pose proof (kids_sorted_NoDup h _ (hwf_sorted h H p)) as Hn. rewrite Ek in Hn. apply NoDup_remove_2 in Hn. intros ->. apply Hn.
    apply in_or_app. right. apply in_or_app. right. left. reflexivity. }
  assert (Hxy : forall x y, n_par (nd h x) = Some p -> n_par (nd h y) = Some p -> ~ anc h x y).
  { intros u v Hu Hv Huv. apply anc_up_inv in Huv. destruct Huv as (q & Eq & Huq). rewrite Hv in Eq. injection Eq as <-.
    apply (Ha p). destruct Huq as [->|Huq]; [apply anc_parent; exact Hu|]. eapply anc_trans; [apply anc_parent; exact Hu|exact Huq]. }
  assert (G : forall a, anc h x a -> self_or_anc h y a -> False).
  { clear Hx Hy. intros b Hb. induction Hb as [b Hb|b q Hb Hq IH]; intros [Hy|Hy].
    - subst b. apply (Hxy x y Hpx Hpy). apply anc_parent. exact Hb.
    - apply anc_up_inv in Hy. destruct Hy as (q & Eq & Hy). rewrite Hb in Eq. injection Eq as <-. destruct Hy as [->|Hy]; [congruence|]. exact (Hxy y x Hpy Hpx Hy).
    - subst b. apply (Hxy x y Hpx Hpy). eapply anc_up; eassumption.
    - apply anc_up_inv in Hy. destruct Hy as (q' & Eq & Hy). rewrite Hb in Eq. injection Eq as <-. apply IH. destruct Hy as [->|Hy]; [left; reflexivity|right; exact Hy]. }
  destruct Hx as [->|Hx]; [|eapply G; eassumption]. destruct Hy as [->|Hy]; [congruence|]. exact (Hxy y x Hpy Hpx Hy).
Qed.
Lemma doc_before_irrefl h : hwf h -> acyclic h -> forall a, ~ doc_before h a a.
Proof.
  intros H Ha a [Hd|(p & l & x & m & y & r & Ek & Hx & Hy)]; [exact (Ha a Hd)|]. eapply kids_disjoint; eassumption.
Qed.
Lemma SS_NoDup {A} (R : A -> A -> Prop) l : (forall a, ~ R a a) -> StronglySorted R l -> NoDup l.
Proof. intros Hi. induction 1 as [|a l Hs IH Hf]; constructor; auto. intros Hin. rewrite Forall_forall in Hf. exact (Hi a (Hf a Hin)). Qed.

Lemma walk_total h i level : hwf h -> acyclic h -> (i < length h)%nat ->
  exists l, walk_levels (depth_fuel h) h i level false = Ok l /\ walk_levels (depth_fuel h) h i level true = Ok (rev l) /\
    NoDup (map snd l) /\
    (forall k j, In (k, j) l <-> exists n, below h i j n /\ k = level + Z.of_nat n) /\
    StronglySorted (doc_before h) (map snd l).
Proof.
  intros H Ha Hi. destruct (rep_ex h i H Ha Hi) as (t & Ht & Hh).
  destruct (walk_spec h H t (depth_fuel h) i level Ht) as (l & W1 & W2 & W3 & W4); [unfold depth_fuel; lia|].
  exists l. split; [exact W1|]. split; [exact W2|]. split; [|split; [exact W3|exact W4]]. exact (SS_NoDup _ _ (doc_before_irrefl h H Ha) W4).
Qed.
(** clone on acyclic heaps *)
Lemma clone_total h i a b d : hwf h -> acyclic h -> (i < length h)%nat ->
  exists t h', rep h t i /\ hwf h' /\ acyclic h' /\ extends h h' /\
  let f' := clone_f (t_f t) a b d in
  (Forall (fun c => t_fits c (T f' [])) (t_kids t) /\ clone_h (depth_fuel h) h i a b d true = (h', Ok (length h)) /\
   n_par (nd h' (length h)) = None /\ rep h' (T f' (t_kids t)) (length h) /\ (forall j, anc h' (length h) j -> (length h <= j)%nat))
  \/ (~ Forall (fun c => t_fits c (T f' [])) (t_kids t) /\ clone_h (depth_fuel h) h i a b d true = (h', Err ValueError)).
Proof.
  intros H Ha Hi. destruct (rep_ex h i H Ha Hi) as (t & Ht & Hh). exists t, (fst (clone_h (depth_fuel h) h i a b d true)).
  pose proof (clone_h_acyclic (depth_fuel h) h i a b d true H Hi Ha) as Ac.
  destruct t as [f ts]. unfold depth_fuel in *.
  destruct (clone_core (length h) (clone_strong (length h)) f ts h i a b d H Hi Ht) as (H1 & X1 & L1 & R); [lia|].
  split; [exact Ht|]. split; [exact H1|]. split; [exact Ac|]. split; [exact X1|]. cbn [t_f t_kids]. cbv zeta in *.
  destruct (clone_h (S (length h)) h i a b d true) as [h' o]. cbn [fst snd] in *.
  destruct R as [(Fi & -> & N & R)|(Fi & ->)]; [left|right; auto].
  repeat (split; [auto|]). intros j Hj. apply (fresh_below h h' (length h)); auto.
Qed.

(** ** what a successful assignment stores *)
Lemma insert_at_run {A} i (c : A) cs l : (i <= length l)%nat ->
  firstn (S i) (insert_at i c l) ++ cs ++ skipn (S i) (insert_at i c l) = firstn i l ++ (c :: cs) ++ skipn i l.
Proof.
  intros Hi. unfold insert_at. assert (L : length (firstn i l) = i) by (apply firstn_length_le; exact Hi).
  revert L. generalize (firstn i l) as a, (skipn i l) as b. intros a b L.
  assert (E : a ++ c :: b = (a ++ [c]) ++ b) by (rewrite <- app_assoc; reflexivity). rewrite !E.
  assert (L2 : length (a ++ [c]) = S i) by (rewrite app_length; cbn; lia). rewrite <- L2.
  rewrite (firstn_app _ (a ++ [c]) b), (skipn_app _ (a ++ [c]) b), firstn_all, skipn_all, Nat.sub_diag. cbn [firstn skipn app]. rewrite app_nil_r, <- app_assoc. reflexivity.
Qed.
Lemma kids_put_all_ok p : forall cs h i h', hwf h -> (p < length h)%nat -> Forall (fun c => (c < length h)%nat) cs -> NoDup cs ->
  Forall (fun c => n_par (nd h c) = None /\ nonempty h c) cs -> Forall (nonempty h) (n_kids (nd h p)) -> (i <= length (n_kids (nd h p)))%nat ->
  kids_put_all h p i cs = (h', Ok tt) ->
  n_kids (nd h' p) = firstn i (n_kids (nd h p)) ++ cs ++ skipn i (n_kids (nd h p)) /\
  (forall j, j <> p -> n_kids (nd h' j) = n_kids (nd h j)) /\
  (forall j, n_par (nd h' j) = if memb j cs then Some p else n_par (nd h j)).
Proof.
  induction cs as [|c cs IH]; intros h i h' H Hp Hcs Hnd Hn Hks Hi E; cbn [kids_put_all] in E.
  - injection E as <-. cbn [app]. rewrite firstn_skipn. auto.
  - inversion Hcs; subst. inversion Hnd; subst. inversion Hn as [|? ? [Hcn Hce] Hn']; subst.
    destruct (kids_put_spec h p i c H Hp) as (H1 & L1 & D1 & Hr); auto.
    destruct (kids_put h p i c) as [h1 r1]. cbn [fst snd] in *. unfold obind in E. cbn [fst snd] in E.
    destruct Hr as [(e & -> & ->)|(-> & _ & K & P)]; [discriminate|].
    destruct (IH h1 (S i) h') as (K2 & K3 & P2); auto; try lia.
    + rewrite L1. assumption.
    + rewrite Forall_forall in *. intros x Hx. destruct (Hn' x Hx) as [Hx1 Hx2]. split.
      * rewrite P. destruct (Nat.eqb_spec x c) as [->|]; [contradiction|exact Hx1].
      * apply (nonempty_data h); auto.
    + rewrite K, Nat.eqb_refl. apply Forall_insert_at; [apply (nonempty_data h); auto|].
      eapply Forall_impl; [|exact Hks]. intros a. apply nonempty_data. apply D1.
    + rewrite K, Nat.eqb_refl. unfold insert_at. rewrite app_length, firstn_length_le by lia. cbn [length]. lia.
    + split; [|split].
      * rewrite K2, K, Nat.eqb_refl. apply insert_at_run. lia.
      * intros j Hj. rewrite K3 by exact Hj. rewrite K. destruct (Nat.eqb_spec j p); [contradiction|reflexivity].
      * intros j. rewrite P2, P. unfold memb. cbn [existsb]. destruct (j =? c)%nat; cbn [orb]; [destruct (existsb _ cs); reflexivity|reflexivity].
Qed.

(** ** the forms used by the property theorems *)
Lemma clone_plain h i : hwf h -> acyclic h -> (i < length h)%nat ->
  exists t h', clone_h (depth_fuel h) h i None None None true = (h', Ok (length h)) /\
    rep h t i /\ rep h' t (length h) /\ n_par (nd h' (length h)) = None /\
    (forall j, (j < length h)%nat -> nd h' j = nd h j) /\
    (forall j, anc h' (length h) j -> (length h <= j)%nat) /\
    hwf h' /\ acyclic h'.
Proof.
  intros H Ha Hi. destruct (clone_total h i None None None H Ha Hi) as (t & h' & Hr & H' & A' & X & R).
  exists t, h'. pose proof (rep_twf h H t i Hr) as Ht. destruct t as [f ts]. apply twf_unfold in Ht. destruct Ht as (Hf & _ & Hfit & _).
  cbn [t_f t_kids] in R. cbv zeta in R. rewrite (clone_f_self f Hf) in R. destruct R as [(_ & E & N & R & Fr)|(C & _)].
  - exact (conj E (conj Hr (conj R (conj N (conj (proj2 X) (conj Fr (conj H' A'))))))).
  - exfalso. apply C. exact Hfit.
Qed.
Lemma kids_add_many h p c cs :
  kids_add h p (c :: cs) = match kids_add h p [c] with (h1, Ok _) => kids_add h1 p cs | (h1, Err e) => (h1, Err e) end.
Proof. cbn [kids_add]. unfold obind. destruct (kids_add1 h p c) as [h1 [[]|e]]; reflexivity. Qed.
Lemma kids_add_one h p c : hwf h -> (p < length h)%nat -> (c < length h)%nat ->
  (addable h p c /\ exists l r, n_kids (nd h p) = l ++ r /\ Forall (fun k => h_before h k c) l /\ Forall (h_before h c) r /\
     kids_add h p [c] = (set_kids (set_par h c (Some p)) p (l ++ c :: r), Ok tt))
  \/ (~ addable h p c /\ kids_add h p [c] = (h, Err ValueError)).
Proof.
  intros H Hp Hc. destruct (kids_add1_spec h p c H Hp Hc) as [(A & l & r & Ek & Hl & Hr & E)|(A & E)]; [left|right]; (split; [exact A|]).
  - exists l, r. repeat (split; [assumption|]). cbn [kids_add]. rewrite E. reflexivity.
  - cbn [kids_add]. rewrite E. reflexivity.
Qed.
Lemma add_effect h p c ks : (p < length h)%nat -> (c < length h)%nat ->
  let h' := set_kids (set_par h c (Some p)) p ks in
  length h' = length h /\
  forall j, n_f (nd h' j) = n_f (nd h j) /\
            n_par (nd h' j) = (if (j =? c)%nat then Some p else n_par (nd h j)) /\
            n_kids (nd h' j) = (if (j =? p)%nat then ks else n_kids (nd h j)).
Proof.
  intros Hp Hc. cbv zeta. split; [rewrite set_kids_length, set_par_length; reflexivity|]. intros j.
  split; [rewrite f_set_kids; apply f_set_par|]. split.
  - rewrite par_set_kids. apply par_set_par. exact Hc.
  - rewrite kids_set_kids by (rewrite set_par_length; exact Hp). rewrite kids_set_par. reflexivity.
Qed.
Lemma kids_contains_spec h p c : hwf h ->
  (kids_contains h p c = true <-> exists k, In k (n_kids (nd h p)) /\ h_start h k = h_start h c) /\
  (In c (n_kids (nd h p)) -> kids_contains h p c = true).
Proof.
  intros H. unfold kids_contains.
  pose proof (bfind_start_spec _ (h_start h c) (sorted_lt_le _ (sorted_starts _ _ (hwf_sorted h H p)))) as Hb. cbv zeta in Hb.
  destruct (bfind_start _ _) as [found i]. cbn [fst snd] in *. destruct Hb as (_ & _ & _ & Hf & _).
  assert (E : found = true <-> exists k, In k (n_kids (nd h p)) /\ h_start h k = h_start h c).
  { rewrite Hf. unfold starts_of. rewrite in_map_iff. split; intros (k & ? & ?); exists k; auto. }
  split; [exact E|]. intros Hc. apply E. exists c. auto.
Qed.
Lemma get_root_full h i : hwf h -> acyclic h -> (i < length h)%nat ->
  exists r, get_root (depth_fuel h) h i = Ok r /\ root_of h r i /\ forall r', root_of h r' i -> r' = r.
Proof.
  intros H Ha Hi. destruct (get_root_spec h i H Ha Hi) as (r & E & R). exists r. split; [exact E|]. split; [exact R|].
  intros r' R'. exact (root_unique h i r' r R' R).
Qed.
Lemma clone_f_span f a b d : let g := clone_f f a b d in
  fwf g /\ f_str g = f_str f /\ f_vf g = f_vf f /\ f_desc g = match d with Some x => x | None => f_desc f end /\
  ito_str g = py_slice (f_str f) (Some (match a with Some x => x | None => f_start f end)) (Some (match b with Some x => x | None => f_stop f end)) /\
  (fwf f -> a = None -> b = None -> f_start g = f_start f /\ f_stop g = f_stop f).
Proof.
  cbv zeta. split; [apply clone_f_wf|]. split; [reflexivity|]. split; [reflexivity|]. split; [destruct d; reflexivity|]. split.
  - rewrite <- (ito_of_str_text (f_str f) _ _ (odflt d (f_desc f))). unfold clone_f, ito_str. cbn [f_str f_start f_stop]. destruct a, b; reflexivity.
  - intros [W1 W2] -> ->. rewrite (clone_f_in f None None d (conj W1 W2) W1 W2). split; reflexivity.
Qed.
