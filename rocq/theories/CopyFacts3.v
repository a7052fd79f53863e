(** ... two trees of the same form: being at the same place is such a correspondence. *)
From Verif Require Export CopyFacts2.
From Verif Require Import SpecCopies.

Lemma leads_snoc h i w j : leads h i w j -> forall k c, nth_error (n_kids (nd h j)) k = Some c -> leads h i (w ++ [k]) c.
Proof. induction 1 as [i|i k' d w j Hk L IH]; intros k c Hc; cbn; [apply (ld_down h i k c); [exact Hc|constructor]|]. apply (ld_down h i k' d); [exact Hk|apply IH; exact Hc]. Qed.
Lemma leads_last h w : forall i k j, leads h i (w ++ [k]) j -> exists p, leads h i w p /\ nth_error (n_kids (nd h p)) k = Some j.
Proof.
  induction w as [|a w IH]; intros i k j L; cbn in L.
  - inversion L as [|x y c z t Hc L']; subst. inversion L'; subst. exists i. split; [constructor|exact Hc].
  - inversion L as [|x y c z t Hc L']; subst. destruct (IH c k j L') as (p & Lp & Hp). exists p. split; [apply (ld_down h i a c); assumption|exact Hp].
Qed.
Lemma leads_fun h : forall w i j j', leads h i w j -> leads h i w j' -> j = j'.
Proof. induction w as [|k w IH]; intros i j j' L L'; inversion L; subst; inversion L'; subst; [reflexivity|]. assert (c = c0) by congruence. subst. exact (IH _ _ _ H4 H6). Qed.

Section T.
  Context (h : heap) (H : hwf h) (r : nat) (Hr : n_par (nd h r) = None).
  Lemma leads_one : forall w w' j, leads h r w j -> leads h r w' j -> w = w'.
  Proof.
    induction w as [|k w IH] using rev_ind; intros w' j L L'.
    - inversion L; subst. destruct w' as [|k' w'] using rev_ind; [reflexivity|]. apply leads_last in L'. destruct L' as (p & _ & Hp). apply nth_error_In in Hp. apply (hwf_kid h H) in Hp. destruct Hp as [Hp _]. congruence.
    - apply leads_last in L. destruct L as (p & Lp & Hp). destruct w' as [|k' w' _] using rev_ind.
      + inversion L'; subst. apply nth_error_In in Hp. apply (hwf_kid h H) in Hp. destruct Hp as [Hp _]. congruence.
      + apply leads_last in L'. destruct L' as (p' & Lp' & Hp'). pose proof (nth_error_In _ _ Hp) as I1. pose proof (nth_error_In _ _ Hp') as I2.
        apply (hwf_kid h H) in I1, I2. destruct I1 as [I1 _], I2 as [I2 _]. assert (p = p') by congruence. subst p'. rewrite (IH w' p Lp Lp'). f_equal. f_equal.
        apply (proj1 (NoDup_nth_error (n_kids (nd h p))) (kids_nodup h _ (hwf_sorted h H p))); [apply nth_error_Some; congruence|congruence].
  Qed.
End T.
Lemma leads_in h (H : hwf h) r w j : (r < length h)%nat -> leads h r w j -> (j < length h)%nat.
  Proof.
    intros B L. destruct w as [|k w _] using rev_ind; [inversion L; subst; exact B|]. apply leads_last in L. destruct L as (p & _ & Hp). apply nth_error_In in Hp. apply (hwf_kid h H) in Hp. tauto.
  Qed.


Section T2.
  Context (h h' : heap) (H : hwf h) (H' : hwf h') (r r' : nat) (Hr : n_par (nd h r) = None) (Hr' : n_par (nd h' r') = None) (B : (r < length h)%nat) (B' : (r' < length h')%nat).
  Context (t : tree) (T1 : rep h t r) (T2 : rep h' t r').
  Lemma rep_leads : forall w u i i' j j', rep h u i -> rep h' u i' -> leads h i w j -> leads h' i' w j' -> exists v, rep h v j /\ rep h' v j'.
  Proof.
    induction w as [|k w IH]; intros u i i' j j' R1 R2 L L'; inversion L; subst; inversion L'; subst; [eauto|].
    destruct u as [f us]. rewrite rep_unfold in R1, R2. destruct R1 as [_ F1], R2 as [_ F2].
    destruct (Forall2_nth _ _ _ F1 k c H3) as (u & E & Ru). destruct (Forall2_nth' _ _ _ F2 k u E) as (c' & E' & Ru').
    assert (c' = c0) by congruence. subst c'. exact (IH u c c0 j j' Ru Ru' H5 H7).
  Qed.
  Lemma place_sim : sim h h' (same_place h r h' r').
  Proof.
    constructor.
    - intros i i' (w & L & L'). destruct (rep_leads w t r r' i i' T1 T2 L L') as ([f us] & R1 & R2). rewrite rep_unfold in R1, R2. destruct R1 as [-> _], R2 as [-> _]. reflexivity.
    - intros i i' (w & L & L'). destruct w as [|k w _] using rev_ind.
      + inversion L; subst. inversion L'; subst. rewrite Hr, Hr'. exact Logic.I.
      + apply leads_last in L, L'. destruct L as (p & Lp & Hp), L' as (p' & Lp' & Hp'). apply nth_error_In in Hp, Hp'. apply (hwf_kid h H) in Hp. apply (hwf_kid h' H') in Hp'.
        destruct Hp as [-> _], Hp' as [-> _]. exists w. auto.
    - intros i i' (w & L & L'). destruct (rep_leads w t r r' i i' T1 T2 L L') as ([f us] & R1 & R2). rewrite rep_unfold in R1, R2. destruct R1 as [_ F1], R2 as [_ F2].
      assert (G : forall k c c', nth_error (n_kids (nd h i)) k = Some c -> nth_error (n_kids (nd h' i')) k = Some c' -> same_place h r h' r' c c') by (intros k c c' E E'; exists (w ++ [k]); split; apply (leads_snoc _ _ _ _ L) || apply (leads_snoc _ _ _ _ L'); assumption).
      clear L L' T1 T2. revert G. revert F2. generalize (n_kids (nd h' i')) as ks'. induction F1 as [|u c us ks Hu F1 IH]; intros ks' F2 G; inversion F2; subst; constructor.
      + exact (G 0%nat c y eq_refl eq_refl).
      + apply IH; [assumption|]. intros k c1 c2 E E'. exact (G (Datatypes.S k) c1 c2 E E').
    - intros i i' j j' (w & L & L') (v & N & N'). split; intros <-.
      + rewrite (leads_one h H r Hr v w i N L) in N'. exact (leads_fun h' _ _ _ _ L' N').
      + rewrite (leads_one h' H' r' Hr' v w i' N' L') in N. exact (leads_fun h _ _ _ _ L N).
    - intros i i' (w & L & L'). split; [exact (leads_in h H r w i B L)|exact (leads_in h' H' r' w i' B' L')].
  Qed.
End T2.

(** paths *)
Section P.
  Context (h h' : heap) (R : nat -> nat -> Prop) (H : hwf h) (H' : hwf h') (Ha : acyclic h) (Ha' : acyclic h') (M : sim h h' R).
  Lemma position_same i i' : R i i' -> forall ks ks', Forall2 R ks ks' -> forall k, position i ks k = position i' ks' k.
  Proof. intros A ks ks' F. induction F as [|c c' ks ks' Hc F IH]; intros k; [reflexivity|]. cbn. rewrite (eqb_same h h' R M c c' i i' Hc A). destruct (c' =? i')%nat; [reflexivity|apply IH]. Qed.
  Lemma path_same : forall n n' i i' l l', R i i' -> anc_list n h i = Ok l -> anc_list n' h' i' = Ok l' -> path_fuel n h i = path_fuel n' h' i'.
  Proof.
    induction n as [|n IH]; intros [|n'] i i' l l' A E E'; cbn in E, E'; try discriminate. cbn [path_fuel]. pose proof (s_par _ _ _ M i i' A) as P.
    destruct (n_par (nd h i)) as [p|], (n_par (nd h' i')) as [p'|]; try contradiction; [|reflexivity].
    destruct (anc_list n h p) as [m|] eqn:Em; [|discriminate]. destruct (anc_list n' h' p') as [m'|] eqn:Em'; [|discriminate].
    rewrite (position_same i i' A _ _ (s_kids _ _ _ M p p' P)), (IH n' p p' m m' P Em Em'). reflexivity.
  Qed.
  Lemma ito_path_same i i' : R i i' -> ito_path h i = ito_path h' i'.
  Proof.
    intros A. destruct (anc_depth h h' R H H' Ha Ha' M i i' A) as (l & l' & E & E' & _). exact (path_same _ _ i i' l l' A E E').
  Qed.
End P.
