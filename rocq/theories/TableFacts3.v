(** Facts for Table.v: a match with one group around all others, which lie apart. *)
From Verif Require Import SpecTable SpecXml PyFacts HeapFacts4 XmlFacts5 XmlFacts6.
From Coq Require Import Sorted.

Lemma filter_yes {A} (f : A -> bool) l : (forall x, In x l -> f x = true) -> filter f l = l.
Proof. induction l as [|x l IH]; intros H; [reflexivity|]. cbn. rewrite (H x (or_introl eq_refl)). f_equal. apply IH. intros y Hy. apply H. right. exact Hy. Qed.
Lemma filter_no {A} (f : A -> bool) l : (forall x, In x l -> f x = false) -> filter f l = [].
Proof. induction l as [|x l IH]; intros H; [reflexivity|]. cbn. rewrite (H x (or_introl eq_refl)). apply IH. intros y Hy. apply H. right. exact Hy. Qed.
Definition flat_kid (s : pystr) (df : gkey -> option pystr) (c : span * gkey) : tree := T (FI s (fst (fst c)) (snd (fst c)) (df (snd c)) None) [].
Lemma nth_const {A B} (x : B) (d : B) (l : list A) : forall k, (k < length l)%nat -> nth k (map (fun _ => x) l) d = x.
Proof. induction l as [|y l IH]; intros [|k] H; cbn in *; try lia; [reflexivity|]. apply IH. lia. Qed.
Lemma F2_nth {A B C} (P : B -> C -> Prop) (f : A -> B) d (g : nat -> C) (l : list A) : (forall k, (k < length l)%nat -> P (f (nth k l d)) (g k)) -> Forall2 P (map f l) (map g (seq 0 (length l))).
Proof.
  revert g. induction l as [|x l IH]; intros g H; [constructor|]. cbn [length seq map]. constructor; [apply (H 0%nat); cbn; lia|]. rewrite <- seq_shift, map_map. apply (IH (fun k => g (S k))). intros k Lk. apply (H (S k)). cbn. lia.
Qed.
Section Flat.
  Variables (r0 : span) (k0 : gkey) (caps : list (span * gkey)).
  Let pars : list (option nat) := None :: map (fun _ => Some 0%nat) caps.
  Lemma pars_at k : (1 <= k <= length caps)%nat -> nth k pars None = Some 0%nat.
  Proof. intros H. destruct k as [|k]; [lia|]. subst pars. cbn [nth]. apply nth_const. lia. Qed.
  Lemma pars_root : filter (is_par pars None) (seq 0 (S (length caps))) = [0%nat].
  Proof.
    cbn [seq filter]. unfold is_par at 1. cbn [nth pars]. f_equal. apply filter_no. intros x Hx. apply in_seq in Hx. unfold is_par. rewrite (pars_at x) by lia. reflexivity.
  Qed.
  Lemma pars_kids : filter (is_par pars (Some 0%nat)) (seq 0 (S (length caps))) = seq 1 (length caps).
  Proof.
    cbn [seq filter]. unfold is_par at 1. cbn [nth pars]. apply filter_yes. intros x Hx. apply in_seq in Hx. unfold is_par. rewrite (pars_at x) by lia. reflexivity.
  Qed.
  Lemma pars_leaf j : filter (is_par pars (Some (S j))) (seq 0 (S (length caps))) = [].
  Proof.
    cbn [seq filter]. unfold is_par at 1. cbn [nth pars]. apply filter_no. intros x Hx. apply in_seq in Hx. unfold is_par. rewrite (pars_at x) by lia. reflexivity.
  Qed.
  Hypothesis In_ : Forall (fun c : span * gkey => fst r0 <= fst (fst c) /\ fst (fst c) <= snd (fst c) /\ snd (fst c) <= snd r0 ) caps.
  Hypothesis Apart : StronglySorted (fun x y : span * gkey => snd (fst x) < fst (fst y)) caps.
  Lemma flat_sorted : StronglySorted cap2_order ((r0, k0) :: caps).
  Proof.
    constructor; [|eapply Forall_impl; [|exact In_]; cbn beta; intros [[c d] k] H; unfold cap2_order, cap_order; cbn [fst snd] in *; lia].
    revert In_. induction Apart as [|x l S IH F]; intros I0; [constructor|]. inversion I0 as [|? ? I1 I2]; subst. constructor; [apply IH; [exact S|exact I2]|]. rewrite Forall_forall in F |- *. intros y Hy. specialize (F y Hy). destruct I1 as (_ & I1 & _). unfold cap2_order, cap_order. left. exact (Z.le_lt_trans _ _ _ I1 F).
  Qed.
  Lemma apart_two i j : (i < j < length caps)%nat -> snd (fst (nth i caps ((0, 0), KInt 0))) < fst (fst (nth j caps ((0, 0), KInt 0))).
  Proof.
    clear In_. revert i j. induction Apart as [|x l S IH F]; intros i j H; [cbn in H; lia|]. destruct j as [|j]; [lia|]. cbn [length] in H. destruct i as [|i]; cbn [nth].
    - rewrite Forall_forall in F. apply F. apply nth_In. lia.
    - apply IH; [exact S|lia].
  Qed.
  Lemma flat_clear x y : In x (map fst ((r0, k0) :: caps)) -> In y (map fst ((r0, k0) :: caps)) -> ~ cap_cross x y.
  Proof.
    rewrite !in_map_iff. intros ([x' kx] & <- & Hx) ([y' ky] & <- & Hy). cbn [fst]. rewrite Forall_forall in In_. destruct Hx as [[= <- <-]|Hx].
    - destruct Hy as [[= <- <-]|Hy]; [unfold cap_cross; lia|]. specialize (In_ _ Hy). cbn [fst snd] in In_. unfold cap_cross. lia.
    - pose proof (In_ _ Hx) as Ix. cbn [fst snd] in Ix. destruct Hy as [[= <- <-]|Hy]; [unfold cap_cross; lia|]. pose proof (In_ _ Hy) as Iy. cbn [fst snd] in Iy.
      apply (In_nth caps _ ((0, 0), KInt 0)) in Hx. apply (In_nth caps _ ((0, 0), KInt 0)) in Hy. destruct Hx as (i & Li & Ei), Hy as (j & Lj & Ej). destruct (Nat.lt_trichotomy i j) as [Q|[<-|Q]].
      + pose proof (apart_two i j (conj Q Lj)) as D. rewrite Ei, Ej in D. cbn [fst snd] in D. unfold cap_cross. lia.
      + rewrite Ei in Ej. injection Ej as <- _. unfold cap_cross. lia.
      + pose proof (apart_two j i (conj Q Li)) as D. rewrite Ei, Ej in D. cbn [fst snd] in D. unfold cap_cross. lia.
  Qed.
  Lemma flat_gives df keys m : cap_valid (rm_string m) r0 -> captures m (keys m) = (r0, k0) :: caps ->
    gives df keys m (T (FI (rm_string m) (fst r0) (snd r0) (df m k0) None) (map (flat_kid (rm_string m) (df m)) caps)).
  Proof.
    intros V Ec h Hf.
    assert (Nk : forall k, nth (S k) (map fst ((r0, k0) :: caps)) (0, 0) = fst (nth k caps ((0, 0), KInt 0))) by (intros k; cbn [map nth]; exact (map_nth fst caps ((0, 0), KInt 0) k)).
    destruct (from_match_shape h m (df m) (keys m) ((r0, k0) :: caps) pars Hf) as (h' & E1 & X1 & Hf1 & L1 & D).
    - rewrite Ec. apply sorted_id. exact flat_sorted.
    - cbn [map fst]. constructor; [exact V|]. apply Forall_map. eapply Forall_impl; [|exact In_]. cbn beta. intros c H. unfold cap_valid in *. lia.
    - exact flat_clear.
    - intros j Lj. cbn [length] in Lj. destruct j as [|j]; [intros k Hk; lia|]. assert (Lj' : (j < length caps)%nat) by (apply Nat.succ_lt_mono; exact Lj). rewrite pars_at by lia. split; [lia|]. rewrite Nk. split.
      + cbn [map nth fst]. rewrite Forall_forall in In_. specialize (In_ (nth j caps ((0, 0), KInt 0)) (nth_In caps ((0, 0), KInt 0) Lj')). unfold cap_inside. lia.
      + intros k Hk [Q1 Q2]. destruct k as [|k]; [lia|]. rewrite Nk in Q1, Q2. pose proof (apart_two k j ltac:(lia)) as A. rewrite Forall_forall in In_. pose proof (In_ (nth j caps ((0, 0), KInt 0)) (nth_In caps ((0, 0), KInt 0) Lj')) as Ij. lia.
    - cbv zeta in E1, L1, D. cbn [length] in E1, L1, D. rewrite pars_root in E1. cbn [map] in E1. rewrite Nat.add_0_r in E1.
      pose proof (D 0%nat ltac:(lia)) as D0. cbn [nth fst snd] in D0. rewrite Nat.add_0_r, pars_kids in D0. cbn [pars nth option_map] in D0.
      exists h', (length h). split; [exact E1|]. split; [exact X1|]. split; [exact Hf1|]. split; [|lia]. unfold own. rewrite D0. cbn [n_par]. split; [|split; [reflexivity|lia]].
      apply rep_unfold. rewrite D0. cbn [n_f n_kids]. split; [reflexivity|].
      rewrite <- seq_shift, map_map. apply (F2_nth (fun t r => rep h' t r) (flat_kid (rm_string m) (df m)) ((0, 0), KInt 0)). intros k Lk.
      apply rep_unfold. rewrite (D (S k)) by (apply -> Nat.succ_lt_mono; exact Lk). cbn [nth]. rewrite pars_leaf. cbn [n_f n_kids map]. split; [reflexivity|constructor].
  Qed.
End Flat.
