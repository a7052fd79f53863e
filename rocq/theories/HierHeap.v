(** Proofs: add_hierarchical on the heap does what it does on trees. *)
From Verif Require Export HierFacts4.
From Coq Require Import Arith.

Lemma anc_mono h h' a j : (forall x, anc h a x -> n_par (nd h' x) = n_par (nd h x)) -> anc h a j -> anc h' a j.
Proof.
  intros E H. induction H as [j Hj|j q Hj Hq IH].
  - apply anc_parent. rewrite E; [exact Hj|apply anc_parent; exact Hj].
  - apply (anc_up _ _ _ q); [|exact IH]. rewrite E; [exact Hj|]. eapply anc_up; eassumption.
Qed.
Lemma anc_down h a b j : anc h a b -> n_par (nd h j) = Some b -> anc h a j.
Proof. intros H E. eapply anc_up; eassumption. Qed.
(** ancestors of one object are comparable *)
Lemma anc_comparable h a b j : anc h a j -> anc h b j -> a = b \/ anc h a b \/ anc h b a.
Proof.
  intros Ha. induction Ha as [j Hj|j q Hj Hq IH]; intros Hb; apply anc_up_inv in Hb; destruct Hb as (q' & Eq & Hb); rewrite Hj in Eq; injection Eq as <-.
  - destruct Hb as [->|Hb]; auto.
  - destruct Hb as [->|Hb]; auto.
Qed.
Lemma sibs_disjoint h p x y j : hwf h -> acyclic h -> In x (n_kids (nd h p)) -> In y (n_kids (nd h p)) -> x <> y -> self_or_anc h x j -> self_or_anc h y j -> False.
Proof.
  intros H Ha Hx Hy Hne. destruct (in_two _ x y Hx Hy) as [->|[(l1 & l2 & l3 & E)|(l1 & l2 & l3 & E)]]; [congruence| |]; intros; eapply (kids_disjoint h H Ha p); eauto.
Qed.
Lemma kid_par h p c : hwf h -> In c (n_kids (nd h p)) -> n_par (nd h c) = Some p.
Proof. intros H Hin. apply (hwf_kid h H) in Hin. tauto. Qed.
Lemma childless_not_anc h c j : hwf h -> n_kids (nd h c) = [] -> ~ anc h c j.
Proof.
  intros H E Ha. assert (G : exists x, n_par (nd h x) = Some c) by (induction Ha as [j Hj|j q Hj Hq IH]; eauto).
  destruct G as (x & Hx). apply (hwf_par h H) in Hx. rewrite E in Hx. destruct Hx as [[] _].
Qed.

(** ** the final step: c takes m, and sits between l and r *)
Definition wrapped (h h' : heap) (p c : nat) (l m r : list nat) : Prop :=
  length h' = length h /\ (forall j, n_f (nd h' j) = n_f (nd h j)) /\
  (forall j, n_kids (nd h' j) = if (j =? p)%nat then l ++ c :: r else if (j =? c)%nat then m else n_kids (nd h j)) /\
  (forall j, n_par (nd h' j) = if (j =? c)%nat then Some p else if memb j m then Some c else n_par (nd h j)).
Lemma memb_false j l : memb j l = false <-> ~ In j l.
Proof. rewrite <- memb_In. destruct (memb j l); split; congruence. Qed.

Lemma NoDup_app_disj {A} (l l' : list A) : NoDup (l ++ l') -> forall x, In x l -> In x l' -> False.
Proof.
  induction l as [|a l IH]; cbn [app]; intros Hn x; [intros []|]. inversion Hn as [|? ? H1 H2]; subst. intros [<-|Hx] Hx'; [apply H1; apply in_or_app; auto|eapply IH; eassumption].
Qed.
Lemma NoDup_app_r {A} (l l' : list A) : NoDup (l ++ l') -> NoDup l'.
Proof. induction l as [|a l IH]; cbn [app]; intros Hn; [exact Hn|]. inversion Hn; subst. auto. Qed.

Section Wrap.
  Variables (h h' : heap) (p c : nat) (l m r : list nat).
  Hypothesis H : hwf h.
  Hypothesis Ha : acyclic h.
  Hypothesis Hp : (p < length h)%nat.
  Hypothesis Hc : (c < length h)%nat.
  Hypothesis Hpc : c <> p.
  Hypothesis Nc : n_par (nd h c) = None.
  Hypothesis Kc : n_kids (nd h c) = [].
  Hypothesis Ek : n_kids (nd h p) = l ++ m ++ r.
  Hypothesis Fc : fits h c p.
  Hypothesis Hl : Forall (fun x => h_before h x c) l.
  Hypothesis Hm : Forall (fun x => fits h x c) m.
  Hypothesis Hr : Forall (h_before h c) r.
  Hypothesis Hw : wrapped h h' p c l m r.
  Local Lemma w_kid x : In x (l ++ m ++ r) -> n_par (nd h x) = Some p /\ fits h x p /\ x <> p /\ (x < length h)%nat.
  Proof. intros Hx. rewrite <- Ek in Hx. apply (hwf_kid h H) in Hx. tauto. Qed.
  Local Lemma w_nc x : In x (l ++ m ++ r) -> x <> c.
  Proof. intros Hx ->. apply w_kid in Hx. destruct Hx as [E _]. congruence. Qed.
  Local Lemma w_nm j : n_par (nd h j) <> Some p -> memb j m = false.
  Proof. intros Hj. apply memb_false. intros Hin. apply Hj. apply w_kid. apply in_or_app. right. apply in_or_app. auto. Qed.
  Local Lemma w_before x y : h_before h' x y <-> h_before h x y.
  Proof. destruct Hw as (_ & D & _). unfold h_before, h_start, h_stop. rewrite !D. reflexivity. Qed.
  Local Lemma w_fits x y : fits h' x y <-> fits h x y.
  Proof. destruct Hw as (_ & D & _). unfold fits, h_string, h_start, h_stop. rewrite !D. reflexivity. Qed.
  Local Lemma w_sorted ks : kids_sorted h ks -> kids_sorted h' ks.
  Proof. destruct Hw as (_ & D & _). apply data_sorted. intros; apply D. Qed.
  Local Lemma w_nodup : NoDup (l ++ m ++ r).
  Proof. rewrite <- Ek. apply (kids_nodup h). apply (hwf_sorted h H). Qed.
  Lemma wrap_hwf : hwf h'.
  Proof.
    pose proof Hw as (L & D & K & P). pose proof w_nodup as Hnd.
    pose proof (hwf_sorted h H p) as Hso. rewrite Ek in Hso. apply SS_app_inv in Hso. destruct Hso as (S1 & S2 & S3). apply SS_app_inv in S2. destruct S2 as (S4 & S5 & S6).
    constructor.
    - intros i. rewrite D. apply (hwf_span h H).
    - intros q k Hin. rewrite K in Hin. rewrite L, w_fits, P.
      destruct (Nat.eqb_spec q p) as [->|Hqp].
      + apply in_app_iff in Hin. destruct Hin as [Hin|[<-|Hin]].
        * assert (Hin' : In k (l ++ m ++ r)) by (apply in_or_app; auto). pose proof (w_kid k Hin') as (E1 & E2 & E3 & E4).
          destruct (Nat.eqb_spec k c) as [->|_]; [congruence|]. assert (Em : memb k m = false).
          { apply memb_false. intros Hkm. apply (NoDup_app_disj l (m ++ r) Hnd k); [exact Hin|apply in_or_app; auto]. }
          rewrite Em. tauto.
        * rewrite Nat.eqb_refl. auto.
        * assert (Hin' : In k (l ++ m ++ r)) by (apply in_or_app; right; apply in_or_app; auto). pose proof (w_kid k Hin') as (E1 & E2 & E3 & E4).
          destruct (Nat.eqb_spec k c) as [->|_]; [congruence|]. assert (Em : memb k m = false).
          { apply memb_false. intros Hkm. apply NoDup_app_r in Hnd. apply (NoDup_app_disj m r Hnd k); assumption. }
          rewrite Em. tauto.
      + destruct (Nat.eqb_spec q c) as [->|Hqc].
        * assert (Hin' : In k (l ++ m ++ r)) by (apply in_or_app; right; apply in_or_app; auto). pose proof (w_kid k Hin') as (E1 & E2 & E3 & E4).
          destruct (Nat.eqb_spec k c) as [->|Hkc]; [congruence|]. apply memb_In in Hin as Em. rewrite Em. rewrite Forall_forall in Hm. specialize (Hm k Hin). tauto.
        * pose proof (hwf_kid h H q k Hin) as (E1 & E2 & E3 & E4). destruct (Nat.eqb_spec k c) as [->|Hkc]; [congruence|].
          rewrite w_nm by congruence. tauto.
    - intros q k Hq. rewrite P in Hq. rewrite K, L. destruct (Nat.eqb_spec k c) as [Ekc|Hkc].
      + injection Hq as <-. rewrite Nat.eqb_refl, Ekc. split; [apply in_or_app; right; left; reflexivity|exact Hp].
      + destruct (memb k m) eqn:Em.
        * injection Hq as <-. destruct (Nat.eqb_spec c p); [contradiction|]. rewrite Nat.eqb_refl. split; [apply memb_In; exact Em|exact Hc].
        * pose proof (hwf_par h H q k Hq) as [Hin Hlt]. split; [|exact Hlt]. destruct (Nat.eqb_spec q p) as [->|Hqp].
          -- rewrite Ek in Hin. apply memb_false in Em. apply in_app_iff in Hin. destruct Hin as [Hin|Hin]; [apply in_or_app; auto|]. apply in_app_iff in Hin. destruct Hin as [Hin|Hin]; [contradiction|].
             apply in_or_app. right. right. exact Hin.
          -- destruct (Nat.eqb_spec q c) as [->|Hqc]; [rewrite Kc in Hin; destruct Hin|exact Hin].
    - intros q. rewrite K. apply w_sorted. destruct (Nat.eqb_spec q p) as [->|Hqp].
      + apply SS_app; [exact S1| |].
        * constructor; [exact S5|exact Hr].
        * intros x y Hx [<-|Hy]; [rewrite Forall_forall in Hl; auto|]. apply S3; [exact Hx|apply in_or_app; auto].
      + destruct (Nat.eqb_spec q c) as [->|Hqc]; [exact S4|apply (hwf_sorted h H)].
  Qed.
  Local Lemma w_up a x : (x = p \/ anc h x p) -> anc h' a x -> anc h a x.
  Proof.
    destruct Hw as (_ & _ & _ & P). intros Hx Hax. induction Hax as [j Hj|j q Hj Hq IH].
    - apply anc_parent. rewrite P in Hj. destruct (Nat.eqb_spec j c) as [->|Hjc].
      + exfalso. destruct Hx as [->|Hx]; [congruence|]. exact (childless_not_anc h c p H Kc Hx).
      + rewrite w_nm in Hj; [exact Hj|]. intros E. apply (Ha p). destruct Hx as [->|Hx]; [apply anc_parent; exact E|]. eapply anc_trans; [apply anc_parent; exact E|exact Hx].
    - assert (E : n_par (nd h j) = Some q).
      { rewrite P in Hj. destruct (Nat.eqb_spec j c) as [->|Hjc].
        + exfalso. destruct Hx as [->|Hx]; [congruence|]. exact (childless_not_anc h c p H Kc Hx).
        + rewrite w_nm in Hj; [exact Hj|]. intros E. apply (Ha p). destruct Hx as [->|Hx]; [apply anc_parent; exact E|]. eapply anc_trans; [apply anc_parent; exact E|exact Hx]. }
      apply (anc_up _ _ _ q); [exact E|]. apply IH. right. destruct Hx as [->|Hx]; [apply anc_parent; exact E|]. eapply anc_trans; [apply anc_parent; exact E|exact Hx].
  Qed.
  Lemma wrap_acyclic : acyclic h'.
  Proof.
    pose proof Hw as (_ & _ & _ & P).
    assert (G : forall a j, anc h' a j -> a <> c -> (j = c /\ (a = p \/ anc h a p)) \/ (j <> c /\ anc h a j)).
    { intros a j Haj Hac. induction Haj as [j Hj|j q Hj Hq IH]; rewrite P in Hj; destruct (Nat.eqb_spec j c) as [E0|Hjc].
      - injection Hj as <-. auto.
      - destruct (memb j m) eqn:Em; [congruence|]. right. split; [exact Hjc|]. apply anc_parent. exact Hj.
      - injection Hj as <-. left. split; [exact E0|]. destruct IH as [[E1 _]|[_ IH]]; [congruence|auto].
      - right. split; [exact Hjc|]. destruct (memb j m) eqn:Em.
        + injection Hj as <-. apply memb_In in Em. assert (Ep : n_par (nd h j) = Some p) by (apply w_kid; apply in_or_app; right; apply in_or_app; auto).
          destruct IH as [[_ [->|IH]]|[IH _]]; [apply anc_parent; exact Ep|eapply anc_up; eassumption|congruence].
        + destruct IH as [[E1 _]|[_ IH]]; [|eapply anc_up; eassumption]. rewrite E1 in Hj. apply (hwf_par h H) in Hj. rewrite Kc in Hj. destruct Hj as [[] _]. }
    intros i Hi. destruct (Nat.eq_dec i c) as [->|Hic].
    - apply anc_up_inv in Hi. destruct Hi as (q & Eq & Hi). rewrite P, Nat.eqb_refl in Eq. injection Eq as <-. destruct Hi as [Hi|Hi]; [congruence|].
      apply w_up in Hi; [|auto]. exact (childless_not_anc h c p H Kc Hi).
    - destruct (G i i Hi Hic) as [[E _]|[_ E]]; [congruence|]. exact (Ha i E).
  Qed.
  (** the descendants of p are still under p *)
  Lemma wrap_anc j : anc h p j \/ j = c -> anc h' p j.
  Proof.
    pose proof Hw as (_ & _ & _ & P). assert (Hcp : anc h' p c) by (apply anc_parent; rewrite P, Nat.eqb_refl; reflexivity).
    intros [Hj| ->]; [|exact Hcp]. induction Hj as [j Hj|j q Hj Hq IH].
    - destruct (Nat.eq_dec j c) as [->|Hjc]; [exact Hcp|]. destruct (memb j m) eqn:Em.
      + apply (anc_up _ _ _ c); [|exact Hcp]. rewrite P, Em. destruct (Nat.eqb_spec j c); [congruence|reflexivity].
      + apply anc_parent. rewrite P, Em. destruct (Nat.eqb_spec j c); [congruence|exact Hj].
    - destruct (Nat.eq_dec j c) as [->|Hjc]; [exact Hcp|]. destruct (memb j m) eqn:Em.
      + apply (anc_up _ _ _ c); [|exact Hcp]. rewrite P, Em. destruct (Nat.eqb_spec j c); [congruence|reflexivity].
      + apply (anc_up _ _ _ q); [|exact IH]. rewrite P, Em. destruct (Nat.eqb_spec j c); [congruence|exact Hj].
  Qed.
  Lemma wrap_frame j : j <> p -> ~ anc h p j -> j <> c -> nd h' j = nd h j.
  Proof.
    pose proof Hw as (_ & D & K & P). intros Hjp Hj Hjc. specialize (D j). specialize (K j). specialize (P j).
    destruct (Nat.eqb_spec j p); [contradiction|]. destruct (Nat.eqb_spec j c); [contradiction|].
    assert (Em : memb j m = false) by (apply w_nm; intros E; apply Hj; apply anc_parent; exact E). rewrite Em in P.
    destruct (nd h' j), (nd h j). cbn in *. congruence.
  Qed.
  Lemma wrap_par : n_par (nd h' p) = n_par (nd h p).
  Proof.
    pose proof Hw as (_ & _ & _ & P). rewrite P. destruct (Nat.eqb_spec p c); [congruence|]. rewrite w_nm; [reflexivity|]. intros E. apply (Ha p). apply anc_parent. exact E.
  Qed.
  (** subtrees of the children are untouched *)
  Lemma wrap_rep x t : In x (l ++ m ++ r) -> rep h t x -> rep h' t x.
  Proof.
    pose proof Hw as (_ & D & K & P). intros Hx Hr'. apply (rep_frame h h' H t x Hr'). intros j Hj. split; [apply D|]. rewrite K.
    pose proof (w_kid x Hx) as (Ep & _ & Hxp & _).
    destruct (Nat.eqb_spec j p) as [->|_].
    - exfalso. destruct Hj as [->|Hj]; [congruence|]. apply (Ha p). eapply anc_trans; [apply anc_parent; exact Ep|exact Hj].
    - destruct (Nat.eqb_spec j c) as [E0|_]; [|reflexivity]. exfalso. destruct Hj as [Hj|Hj]; [apply (w_nc x Hx); congruence|].
      apply anc_up_inv in Hj. destruct Hj as (q & Eq & _). congruence.
  Qed.
  Lemma wrap_reps f tl tm tr : n_f (nd h c) = f -> Forall2 (rep h) tl l -> Forall2 (rep h) tm m -> Forall2 (rep h) tr r ->
    Forall2 (rep h') (tl ++ T f tm :: tr) (n_kids (nd h' p)).
  Proof.
    intros Ef F1 F2 F3. pose proof Hw as (_ & D & K & P). rewrite K, Nat.eqb_refl.
    assert (G : forall ts xs, Forall2 (rep h) ts xs -> (forall x, In x xs -> In x (l ++ m ++ r)) -> Forall2 (rep h') ts xs).
    { intros ts xs F. induction F as [|t x ts xs Ht F IH]; intros Hin; constructor; [apply wrap_rep; [apply Hin; left; reflexivity|exact Ht]|apply IH; intros; apply Hin; right; assumption]. }
    apply Forall2_app; [apply G; [exact F1|intros; apply in_or_app; auto]|]. constructor.
    - apply rep_unfold. split; [rewrite D; exact Ef|]. rewrite K, Nat.eqb_refl. destruct (Nat.eqb_spec c p); [contradiction|]. apply G; [exact F2|]. intros; apply in_or_app; right; apply in_or_app; auto.
    - apply G; [exact F3|]. intros; apply in_or_app; right; apply in_or_app; auto.
  Qed.
End Wrap.
