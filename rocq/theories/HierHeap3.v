(** Proofs: the heap model of add_hierarchical refines the one on trees (main induction). *)
From Verif Require Export HierHeap2.
From Coq Require Import Arith.

Definition flat_go (add : heap -> nat -> out unit) (c : nat) : nat -> heap -> out unit :=
  fix flat (m : nat) (h : heap) : out unit :=
    match n_kids (nd h c), m with
    | [], _ => (h, Ok tt)
    | _, O => (h, Err OutOfFuel)
    | _, S m' => obind (kids_pop h c (-1)) (fun h1 d => obind (add h1 d) (fun h2 _ => flat m' h2))
    end.
Definition place_go (rec : heap -> nat -> out unit) (key : hkey) (h : heap) (p c : nat) : out unit :=
  let ks := n_kids (nd h p) in
  match hier_action (starts_of h ks) (stops_of h ks) (h_start h c) (h_stop h c)
          (fun i => key_deeper key (n_f (nd h c)) (n_f (nd h (nth i ks 0%nat)))) with
  | AErr => (h, Err ValueError)
  | ARec i => rec h (nth i ks 0%nat)
  | AWrap i j => do_wrap h p c i j
  end.
Lemma add_hier1_S n key h p c : add_hier1 (S n) key h p c =
  match n_par (nd h c) with
  | Some _ => (h, Err ValueError)
  | None => match n_kids (nd h p) with
    | [] => if set_parent_ok h c p then (set_kids (set_par h c (Some p)) p (n_kids (nd h p) ++ [c]), Ok tt) else (h, Err ValueError)
    | _ => obind (flat_go (fun h d => add_hier1 n key h p d) c (length (n_kids (nd h c))) h)
             (fun h _ => place_go (fun h k => add_hier1 n key h k c) key h p c)
    end
  end.
Proof. reflexivity. Qed.

Record pre (h : heap) (p c : nat) (ts : list tree) : Prop := {
  pre_wf : hwf h; pre_ac : acyclic h; pre_p : (p < length h)%nat; pre_c : (c < length h)%nat; pre_ne : c <> p;
  pre_root : n_par (nd h c) = None; pre_nanc : ~ anc h c p; pre_fits : fits h c p;
  pre_rep : Forall2 (rep h) ts (n_kids (nd h p)) }.
Record post (h h' : heap) (p c : nat) (ts' : list tree) : Prop := {
  post_wf : hwf h'; post_ac : acyclic h'; post_len : length h' = length h;
  post_f : forall j, n_f (nd h' j) = n_f (nd h j);
  post_par : n_par (nd h' p) = n_par (nd h p);
  post_frame : forall j, j <> p -> ~ anc h p j -> j <> c -> ~ anc h c j -> nd h' j = nd h j;
  post_anc : forall j, anc h p j \/ j = c \/ anc h c j -> anc h' p j;
  post_rep : Forall2 (rep h') ts' (n_kids (nd h' p)) }.

Lemma anc_dec h a j : hwf h -> acyclic h -> anc h a j \/ ~ anc h a j.
Proof.
  intros H Ha. destruct (Nat.lt_ge_cases j (length h)) as [Hj|Hj].
  - destruct (descends_spec h j a H Ha Hj) as (b & _ & Hb). destruct b; [left; apply Hb; reflexivity|right; intros X; apply Hb in X; discriminate].
  - right. intros X. apply (anc_bound h a j H) in X. lia.
Qed.
(** what lies under p lies not under another root c *)
Lemma apart h p c j : n_par (nd h c) = None -> c <> p -> ~ anc h c p -> anc h p j -> j <> c /\ ~ anc h c j.
Proof.
  intros Nc Hne Hn Hj. split.
  - intros ->. apply anc_up_inv in Hj. destruct Hj as (q & E & _). congruence.
  - intros Hc. destruct (anc_comparable h p c j Hj Hc) as [E|[E|E]]; [congruence| |contradiction]. apply anc_up_inv in E. destruct E as (q & E & _). congruence.
Qed.
Lemma reps_starts h ts ks : Forall2 (rep h) ts ks -> starts_of h ks = map t_start ts /\ stops_of h ks = map t_stop ts.
Proof.
  intros F. induction F as [|t k ts ks Ht F [I1 I2]]; [split; reflexivity|]. unfold starts_of, stops_of in *. cbn [map]. apply rep_f in Ht. unfold t_start, t_stop, h_start, h_stop in *. rewrite Ht, I1, I2. auto.
Qed.
Lemma reps_nth h ts ks i : Forall2 (rep h) ts ks -> (i < length ts)%nat -> rep h (nth i ts dtree) (nth i ks 0%nat).
Proof. intros F. revert i. induction F as [|t k ts ks Ht F IH]; intros [|i] Hi; cbn [length] in Hi; try lia; [exact Ht|]. apply IH. lia. Qed.
Lemma Forall2_firstn {A B} (R : A -> B -> Prop) l l' n : Forall2 R l l' -> Forall2 R (firstn n l) (firstn n l').
Proof. intros F. revert n. induction F; intros [|n]; cbn; constructor; auto. Qed.
Lemma Forall2_skipn {A B} (R : A -> B -> Prop) l l' n : Forall2 R l l' -> Forall2 R (skipn n l) (skipn n l').
Proof. intros F. revert n. induction F; intros [|n]; cbn; auto. Qed.
Lemma Forall2_len {A B} (R : A -> B -> Prop) l l' : Forall2 R l l' -> length l = length l'.
Proof. induction 1; cbn; congruence. Qed.
Lemma reps_wf h p ts : hwf h -> Forall2 (rep h) ts (n_kids (nd h p)) -> forest_wf (n_f (nd h p)) ts.
Proof.
  intros H F. split; [apply (Forall2_rep_sorted h ts _ F); apply (hwf_sorted h H)|]. split.
  - apply Forall_forall. intros t Ht. destruct (Forall2_in_l _ _ _ t F Ht) as (k & Hk & Hr). apply (hwf_kid h H) in Hk. destruct Hk as (_ & Hf & _). apply rep_f in Hr. unfold inside. rewrite <- Hr. exact Hf.
  - apply Forall_forall. intros t Ht. destruct (Forall2_in_l _ _ _ t F Ht) as (k & Hk & Hr). eapply rep_twf; eassumption.
Qed.
Lemma fits_inside h c p : fits h c p <-> inside (n_f (nd h c)) (n_f (nd h p)).
Proof. reflexivity. Qed.

(** ** one level *)
Definition refines (key : hkey) (n : nat) : Prop := forall h p c ts ct, pre h p c ts -> rep h ct c ->
  match hadd n key (n_f (nd h p)) ts ct with
  | Ok ts' => exists h', add_hier1 n key h p c = (h', Ok tt) /\ post h h' p c ts'
  | Err e => exists h', add_hier1 n key h p c = (h', Err e) /\ (n_kids (nd h c) = [] -> h' = h) /\ kept h h'
  end.

Lemma post_in_kid h h' p k c l r kk' tl tr : hwf h -> acyclic h -> c <> p -> n_par (nd h c) = None -> ~ anc h c p ->
  n_kids (nd h p) = l ++ k :: r -> post h h' k c kk' -> Forall2 (rep h) tl l -> Forall2 (rep h) tr r -> post h h' p c (tl ++ T (n_f (nd h k)) kk' :: tr).
Proof.
  intros H Ha Hne Nc Hn Ek [W A L D P F An R] Fl Fr.
  assert (Hkin : In k (n_kids (nd h p))) by (rewrite Ek; apply in_or_app; right; left; reflexivity).
  pose proof (hwf_kid h H p k Hkin) as (Pk & _ & Hkp & _).
  assert (Ep : nd h' p = nd h p).
  { apply F; [congruence| |congruence|exact Hn]. intros X. apply (Ha p). eapply anc_trans; [apply anc_parent; exact Pk|exact X]. }
  assert (Pk' : n_par (nd h' k) = Some p) by (apply (kid_par h' p k W); rewrite Ep; exact Hkin).
  assert (Hsame : forall j, anc h p j -> ~ self_or_anc h k j -> nd h' j = nd h j).
  { intros j Hj Hk. destruct (apart h p c j Nc Hne Hn Hj) as [Hjc Hcj]. apply F; [intros ->; apply Hk; left; reflexivity|intros X; apply Hk; right; exact X|exact Hjc|exact Hcj]. }
  constructor; auto.
  - rewrite Ep. reflexivity.
  - intros j Hjp Hj Hjc Hcj. apply F; auto; [intros ->; apply Hj; apply anc_parent; exact Pk|]. intros X. apply Hj. eapply anc_trans; [apply anc_parent; exact Pk|exact X].
  - assert (Hup : forall j, anc h' k j -> anc h' p j) by (intros j X; eapply anc_trans; [apply anc_parent; exact Pk'|exact X]).
    intros j [Hj|Hj]; [|apply Hup, An; tauto]. induction Hj as [j Hj|j q Hj Hq IH].
    + apply anc_parent. apply (hwf_par h H) in Hj. destruct Hj as [Hj _]. rewrite <- Ep in Hj. apply (kid_par h' p j W Hj).
    + destruct (Nat.eq_dec q k) as [->|Hqk]; [apply Hup, An; left; apply anc_parent; exact Hj|].
      destruct (anc_dec h k q H Ha) as [Hkq|Hkq]; [apply Hup, An; left; eapply anc_down; eassumption|].
      apply (anc_up _ _ _ q); [|exact IH]. rewrite Hsame; [exact Hj|eapply anc_down; eassumption|].
      intros [->|X].
      * rewrite Pk in Hj. injection Hj as <-. exact (Ha p Hq).
      * apply anc_up_inv in X. destruct X as (q' & E & X). rewrite Hj in E. injection E as <-. destruct X; [congruence|contradiction].
  - rewrite Ep, Ek. pose proof (kids_nodup h _ (hwf_sorted h H p)) as Hnd. rewrite Ek in Hnd.
    assert (G : forall ts xs, Forall2 (rep h) ts xs -> (forall x, In x xs -> In x (n_kids (nd h p)) /\ x <> k) -> Forall2 (rep h') ts xs).
    { intros ts xs F2. induction F2 as [|t x ts xs Ht F2 IH]; intros Hin; constructor; [|apply IH; intros; apply Hin; right; assumption].
      destruct (Hin x (or_introl eq_refl)) as [Hx Hxk]. apply (rep_frame h h' H t x Ht). intros j Hj. rewrite Hsame; [auto| |].
      - pose proof (kid_par h p x H Hx) as Px. destruct Hj as [->|Hj]; [apply anc_parent; exact Px|]. eapply anc_trans; [apply anc_parent; exact Px|exact Hj].
      - intros Hkj. eapply (sibs_disjoint h p x k j); eauto. }
    apply Forall2_app.
    + apply G; [exact Fl|]. intros x Hx. split; [rewrite Ek; apply in_or_app; auto|]. intros ->. apply NoDup_remove_2 in Hnd. apply Hnd. apply in_or_app. auto.
    + constructor; [apply rep_unfold; split; [apply D|exact R]|]. apply G; [exact Fr|]. intros x Hx. split; [rewrite Ek; apply in_or_app; right; right; exact Hx|]. intros ->. apply NoDup_remove_2 in Hnd. apply Hnd. apply in_or_app. auto.
Qed.

Lemma place_ref key n h p c ts : refines key n -> pre h p c ts -> n_kids (nd h c) = [] ->
  match hplace (fun kf kk f => hadd n key kf kk (T f [])) key (n_f (nd h p)) ts (n_f (nd h c)) with
  | Ok ts' => exists h', place_go (fun h k => add_hier1 n key h k c) key h p c = (h', Ok tt) /\ post h h' p c ts'
  | Err e => place_go (fun h k => add_hier1 n key h k c) key h p c = (h, Err e)
  end.
Proof.
  intros IH [H Ha Hp Hc Hne Nc Hn Fi R] Kc. destruct (reps_starts h ts _ R) as [Es Ee]. pose proof (reps_wf h p ts H R) as Hw. pose proof Hw as (Hs & Hi & Hk).
  pose proof (Forall2_len _ _ _ R) as Len. pose proof (h_span h c H) as Hsp.
  unfold place_go, hplace. cbv zeta. rewrite Es, Ee.
  change (f_start (n_f (nd h c))) with (h_start h c). change (f_stop (n_f (nd h c))) with (h_stop h c).
  rewrite (hier_action_ext _ _ _ _ (fun i => key_deeper key (n_f (nd h c)) (n_f (nd h (nth i (n_kids (nd h p)) 0%nat)))) (fun i => key_deeper key (n_f (nd h c)) (t_f (nth i ts dtree)))).
  2:{ intros i Hi'. rewrite map_length in Hi'. rewrite <- (rep_f h _ _ (reps_nth h ts _ i R Hi')). reflexivity. }
  2:{ apply forest_seg; assumption. }
  pose proof (hier_action_ok (map t_start ts) (map t_stop ts) (h_start h c) (h_stop h c) (fun i => key_deeper key (n_f (nd h c)) (t_f (nth i ts dtree))) (forest_seg ts Hs Hk) ltac:(lia)) as Hok.
  destruct (hier_action _ _ _ _ _) as [i| |i j]; cbn [act_ok] in Hok; rewrite ?map_length in Hok; [|reflexivity|].
  - destruct Hok as (Hlt & O1 & O2 & _). rewrite key_tstart in O1 by exact Hlt. rewrite key_tstop in O2 by exact Hlt.
    pose proof (reps_nth h ts _ i R Hlt) as Rk. set (k := nth i (n_kids (nd h p)) 0%nat) in *. set (t := nth i ts dtree) in *.
    assert (Hkin : In k (n_kids (nd h p))) by (apply nth_In; lia). pose proof (hwf_kid h H p k Hkin) as (Pk & Fk & Hkp & Hkl).
    assert (Ek : n_kids (nd h p) = firstn i (n_kids (nd h p)) ++ k :: skipn (S i) (n_kids (nd h p))) by (apply nth_split1; lia).
    assert (Ef : t_f t = n_f (nd h k)) by (symmetry; apply rep_f; exact Rk).
    assert (Pre : pre h k c (t_kids t)).
    { constructor; auto.
      - intros ->. congruence.
      - intros X. apply anc_up_inv in X. destruct X as (q & E & X). rewrite Pk in E. injection E as <-. destruct X; [congruence|contradiction].
      - unfold t_start, t_stop in *. rewrite Ef in *. unfold fits in *. destruct Fi as (F1 & _), Fk as (F2 & _). split; [congruence|]. unfold h_start, h_stop in *. lia.
      - apply rep_kids. exact Rk. }
    assert (Rc : rep h (T (n_f (nd h c)) []) c) by (apply rep_unfold; split; [reflexivity|rewrite Kc; constructor]).
    specialize (IH h k c (t_kids t) (T (n_f (nd h c)) []) Pre Rc). rewrite <- Ef in IH.
    destruct (hadd n key (t_f t) (t_kids t) (T (n_f (nd h c)) [])) as [kk'|e]; cbn [bind].
    + destruct IH as (h' & E & Po). exists h'. split; [exact E|]. rewrite Ef.
      apply (post_in_kid h h' p k c (firstn i (n_kids (nd h p))) (skipn (S i) (n_kids (nd h p)))); auto; [apply Forall2_firstn|apply Forall2_skipn]; exact R.
    + destruct IH as (h' & E & X & _). rewrite (X Kc) in E. exact E.
  - destruct Hok as (Hij & O1 & O2 & O3 & _). rewrite Len in Hij.
    assert (Hmfit : Forall (fun x => fits h x c) (firstn (j - i) (skipn i (n_kids (nd h p))))).
    { apply Forall_forall. intros x Hx. destruct (In_mid_nth _ i j 0%nat x Hij Hx) as (k & Hk' & <-).
      specialize (O2 k Hk'). rewrite <- Es, <- Ee in O2. rewrite key_starts in O2 by lia. rewrite key_stops in O2 by lia.
      assert (Hkin : In (nth k (n_kids (nd h p)) 0%nat) (n_kids (nd h p))) by (apply nth_In; lia). pose proof (hwf_kid h H p _ Hkin) as (_ & Fk & _). destruct Fk as (F1 & _), Fi as (F2 & _). split; [congruence|]. lia. }
    assert (Eb : forallb (fun k => f_fits_b (t_f k) (n_f (nd h c))) (firstn (j - i) (skipn i ts)) && f_fits_b (n_f (nd h c)) (n_f (nd h p)) = true).
    { apply andb_true_iff. split; [|apply f_fits_iff; exact Fi]. apply forallb_forall. intros t Ht. apply f_fits_iff.
      assert (R2 : Forall2 (rep h) (firstn (j - i) (skipn i ts)) (firstn (j - i) (skipn i (n_kids (nd h p))))) by (apply Forall2_firstn, Forall2_skipn; exact R).
      destruct (Forall2_in_l _ _ _ t R2 Ht) as (x & Hx & Rx). rewrite <- (rep_f h t x Rx). rewrite Forall_forall in Hmfit. apply (Hmfit x Hx). }
    rewrite Eb. destruct (do_wrap_spec h p c i j H Hp Hc Hne Nc Kc Fi Hij Hmfit) as (h' & E & Hwr). exists h'. split; [exact E|].
    pose proof (split3 (n_kids (nd h p)) i j Hij) as Ek.
    assert (Hl : Forall (fun x => h_before h x c) (firstn i (n_kids (nd h p)))).
    { apply Forall_forall. intros x Hx. destruct (In_firstn_nth (n_kids (nd h p)) i 0%nat x ltac:(lia) Hx) as (k & Hk' & <-). specialize (O1 k Hk'). rewrite <- Es, <- Ee in O1. rewrite key_starts in O1 by lia. rewrite key_stops in O1 by lia. exact O1. }
    assert (Hr : Forall (h_before h c) (skipn j (n_kids (nd h p)))).
    { apply Forall_forall. intros x Hx. destruct (In_skipn_nth _ j 0%nat x Hx) as (k & Hk' & <-). specialize (O3 k ltac:(lia)). rewrite <- Es in O3. rewrite key_starts in O3 by lia. exact O3. }
    constructor.
    + exact (wrap_hwf h h' p c _ _ _ H Hp Hc Hne Nc Kc Ek Fi Hl Hmfit Hr Hwr).
    + exact (wrap_acyclic h h' p c _ _ _ H Ha Hc Hne Nc Kc Ek Fi Hl Hmfit Hr Hwr).
    + apply Hwr.
    + apply Hwr.
    + exact (wrap_par h h' p c _ _ _ H Ha Hne Ek Hwr).
    + intros x X1 X2 X3 _. exact (wrap_frame h h' p c _ _ _ H Ek Hwr x X1 X2 X3).
    + intros x X. apply (wrap_anc h h' p c _ _ _ Nc Hwr). destruct X as [X|[X|X]]; [auto|auto|exfalso; exact (childless_not_anc h c x H Kc X)].
    + apply (wrap_reps h h' p c _ _ _ H Ha Hp Hne Nc Ek Fi Hwr); [reflexivity|apply Forall2_firstn; exact R|apply Forall2_firstn, Forall2_skipn; exact R|apply Forall2_skipn; exact R].
Qed.
