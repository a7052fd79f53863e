(** Proofs: add_hierarchical gives back settled siblings (trees as values). *)
From Verif Require Export SpecJson HierHeap6.
From Coq Require Import Arith.

Lemma echo_free_T f ts : echo_free (T f ts) <-> (forall k, ts = [k] -> f_span (t_f k) <> f_span f) /\ Forall echo_free ts.
Proof.
  cbn [echo_free]. split; intros [H1 H2]; (split; [exact H1|]); clear H1.
  - induction ts as [|t ts IH]; [constructor|]. destruct H2 as [H2 H3]. constructor; auto.
  - induction ts as [|t ts IH]; [exact I|]. inversion H2; subst. split; [assumption|apply IH; assumption].
Qed.
Lemma settled_T f ts : settled (T f ts) <-> (forall k, ts = [k] -> f_span (t_f k) <> f_span f) /\ f_nonempty f /\ Forall settled ts.
Proof.
  unfold settled. rewrite echo_free_T, t_nodes_cons. split.
  - intros ((E1 & E2) & N). inversion N as [|? ? N1 N2]; subst. split; [exact E1|]. split; [exact N1|]. rewrite Forall_forall in *. intros t Ht. split; [auto|].
    apply Forall_forall. intros x Hx. apply N2. apply In_f_nodes. eauto.
  - intros (E1 & N1 & K). rewrite Forall_forall in K. split; [split; [exact E1|apply Forall_forall; intros t Ht; apply (K t Ht)]|]. constructor; [exact N1|].
    apply Forall_forall. intros x Hx. apply In_f_nodes in Hx. destruct Hx as (t & Ht & Hx). destruct (K t Ht) as [_ N]. rewrite Forall_forall in N. auto.
Qed.
Lemma hfold_app add a b ks : hfold add (a ++ b) ks = do k <- hfold add a ks; hfold add b k.
Proof. revert ks. induction a as [|d a IH]; intros ks; [reflexivity|]. cbn [app hfold]. fold (hfold add). destruct (add ks d); cbn [bind]; [apply IH|reflexivity]. Qed.

Lemma forest_insert pf ks d ms : forest_wf pf (ks ++ ms) -> twf d -> inside (t_f d) pf -> Forall (fun k => t_before k d) ks -> Forall (t_before d) ms -> forest_wf pf (ks ++ d :: ms).
Proof.
  intros (S1 & I1 & W1) Wd Id B1 B2. apply Forall_app in I1, W1. destruct I1 as [I1 I2], W1 as [W1 W2]. apply SS_app_inv in S1. destruct S1 as (S1 & S2 & S3). rewrite Forall_forall in B1.
  split; [|split; apply Forall_app; split; auto]. apply SS_app; [exact S1|constructor; assumption|]. intros x y Hx [<-|Hy]; [apply B1; exact Hx|apply S3; assumption].
Qed.
(** the place a settled tree goes to when its children have already been moved up *)
Lemma hplace_settled key rec pf ks f ts ms : forest_wf pf (ks ++ ts ++ ms) -> fwf f -> f_nonempty f -> inside f pf -> Forall (fun k => t_before k (T f ts)) ks -> Forall (t_before (T f ts)) ms ->
  Forall (fun k => inside (t_f k) f) ts -> Forall (fun k => f_nonempty (t_f k)) ts -> Forall (fun k => f_nonempty (t_f k)) ms -> (forall k, ts = [k] -> f_span (t_f k) <> f_span f) ->
  hplace rec key pf (ks ++ ts ++ ms) f = Ok (ks ++ T f ts :: ms).
Proof.
  intros (Hs & Hi & Hw) Ff Nf If B1 B2 It Nt Nm Hk. rewrite Forall_forall in B1, B2, It, Nt, Nm. unfold t_before, t_start, t_stop in B1, B2. cbn [t_f] in *. unfold f_nonempty, fwf in *.
  destruct (hplace_placed key rec pf (ks ++ ts ++ ms) f Hs Hw ltac:(lia)) as [l k r E H1 H2 H3|k Hin Hc|l m r E Hl Hm Hr _].
  - exfalso. assert (Hin : In k (ks ++ ts ++ ms)) by (rewrite E; apply in_or_app; right; left; reflexivity). unfold t_start, t_stop in *.
    apply in_app_iff in Hin. destruct Hin as [Hin|Hin]; [specialize (B1 k Hin); lia|]. apply in_app_iff in Hin. destruct Hin as [Hin|Hin]; [|specialize (B2 k Hin); lia].
    pose proof (It k Hin) as Hik. unfold inside in Hik. assert (Es : f_span (t_f k) = f_span f) by (unfold f_span; f_equal; lia).
    destruct ts as [|k1 [|k2 ts]]; [destruct Hin|destruct Hin as [<-|[]]; exact (Hk k1 eq_refl Es)|].
    assert (S2 : StronglySorted t_before (k1 :: k2 :: ts)) by (apply SS_app_inv in Hs; destruct Hs as (_ & Hs & _); apply (SS_app_inv _ _ _ Hs)).
    assert (Hd : forall x, In x (k1 :: k2 :: ts) -> x = k \/ False).
    { intros x Hx. destruct (in_two _ k x Hin Hx) as [->|[(l1 & l2 & l3 & E2)|(l1 & l2 & l3 & E2)]]; [left; reflexivity| |]; right; rewrite E2 in S2; apply SS_two in S2; unfold t_before, t_start, t_stop in S2;
        pose proof (It x Hx) as Ix; pose proof (Nt x Hx); unfold inside in Ix; lia. }
    destruct (Hd k1 ltac:(left; reflexivity)) as [->|[]]. destruct (Hd k2 ltac:(right; left; reflexivity)) as [->|[]].
    inversion S2 as [|? ? _ F]; subst. inversion F as [|? ? F1 _]; subst. unfold t_before in F1. lia.
  - exfalso. unfold crosses in Hc. apply in_app_iff in Hin. destruct Hin as [Hin|Hin]; [specialize (B1 k Hin); lia|]. apply in_app_iff in Hin. destruct Hin as [Hin|Hin]; [|specialize (B2 k Hin); lia].
    specialize (It k Hin). unfold inside in It. lia.
  - unfold t_start, t_stop in *.
    assert (G1 : forall x, In x ks -> In x l).
    { intros x Hx. assert (Hin : In x (l ++ m ++ r)) by (rewrite <- E; apply in_or_app; auto). apply in_app_iff in Hin. destruct Hin as [|Hin]; [assumption|]. exfalso. specialize (B1 x Hx). apply in_app_iff in Hin. destruct Hin as [Hin|Hin]; [specialize (Hm x Hin)|specialize (Hr x Hin)]; lia. }
    assert (U : ks = l /\ ts ++ ms = m ++ r).
    { assert (P1 : forall y, In y ks -> f_start (t_f y) < f_start f) by (intros y Hy; apply B1; exact Hy).
      assert (P2 : forall y, In y (ts ++ ms) -> f_start f <= f_start (t_f y)) by (intros y Hy; apply in_app_iff in Hy; destruct Hy as [Hy|Hy]; [specialize (It y Hy); unfold inside in It; lia|specialize (B2 y Hy); lia]).
      assert (P3 : forall y, In y l -> f_start (t_f y) < f_start f) by (intros y Hy; apply Hl; exact Hy).
      assert (P4 : forall y, In y (m ++ r) -> f_start f <= f_start (t_f y)) by (intros y Hy; apply in_app_iff in Hy; destruct Hy as [Hy|Hy]; [apply Hm in Hy|apply Hr in Hy]; lia).
      clear - E P1 P2 P3 P4. revert l E P3. induction ks as [|x ks IH]; intros l E P3.
      - destruct l as [|y l]; [auto|]. exfalso. cbn [app] in E. specialize (P3 y (or_introl eq_refl)). assert (In y (ts ++ ms)) by (rewrite E; left; reflexivity). specialize (P2 y H). lia.
      - destruct l as [|y l].
        + exfalso. cbn [app] in E. specialize (P1 x (or_introl eq_refl)). assert (In x (m ++ r)) by (rewrite <- E; left; reflexivity). specialize (P4 x H). lia.
        + cbn [app] in E. injection E as -> E. destruct (IH ltac:(intros; apply P1; right; assumption) l E ltac:(intros; apply P3; right; assumption)) as [-> ->]. auto. }
    destruct U as [-> U].
    assert (V : ts = m /\ ms = r).
    { assert (P1 : forall y, In y ts -> f_start (t_f y) < f_stop f) by (intros y Hy; specialize (It y Hy); specialize (Nt y Hy); unfold inside in It; lia).
      assert (P2 : forall y, In y ms -> f_stop f < f_stop (t_f y)) by (intros y Hy; specialize (B2 y Hy); specialize (Nm y Hy); lia).
      assert (P3 : forall y, In y m -> f_stop (t_f y) <= f_stop f) by (intros y Hy; apply Hm; exact Hy).
      assert (P4 : forall y, In y r -> f_stop f <= f_start (t_f y)) by (intros y Hy; apply Hr in Hy; lia).
      clear - U P1 P2 P3 P4. revert m U P3. induction ts as [|x ts IH]; intros m U P3.
      - destruct m as [|y m]; [auto|]. exfalso. cbn [app] in U. specialize (P3 y (or_introl eq_refl)). assert (In y ms) by (rewrite U; left; reflexivity). specialize (P2 y H). lia.
      - destruct m as [|y m].
        + exfalso. cbn [app] in U. specialize (P1 x (or_introl eq_refl)). assert (In x r) by (rewrite <- U; left; reflexivity). specialize (P4 x H). lia.
        + cbn [app] in U. injection U as -> U. destruct (IH ltac:(intros; apply P1; right; assumption) m U ltac:(intros; apply P3; right; assumption)) as [-> ->]. auto. }
    destruct V as [-> ->].
    assert (X1 : forallb (fun k => f_fits_b (t_f k) f) m = true) by (apply forallb_forall; intros k Hk2; apply f_fits_iff; apply It; exact Hk2).
    assert (X2 : f_fits_b f pf = true) by (apply f_fits_iff; exact If). rewrite X1, X2. reflexivity.
Qed.
(** a settled tree is inserted whole, whatever its neighbours *)
Lemma hadd_settled key pf : forall d n ks ms, ks ++ ms <> [] -> forest_wf pf (ks ++ ms) -> twf d -> inside (t_f d) pf -> settled d -> Forall (fun k => f_nonempty (t_f k)) ms ->
  Forall (fun k => t_before k d) ks -> Forall (t_before d) ms -> (t_height d <= n)%nat -> hadd n key pf (ks ++ ms) d = Ok (ks ++ d :: ms).
Proof.
  induction d as [f ts IH] using tree_ind'. intros n ks ms Ne Hw Hd Hin St Nm B1 B2 Hn. destruct n as [|n]; [cbn in Hn; lia|]. pose proof Hd as Hd0. apply twf_forest in Hd0. destruct Hd0 as (Ff & Ss & Fi & Kw).
  apply settled_T in St. destruct St as (E1 & Nf & St). cbn [t_f] in *.
  assert (Hfold : forall us vs, ts = us ++ vs -> hfold (fun ks d => hadd n key pf ks d) (rev us) (ks ++ vs ++ ms) = Ok (ks ++ ts ++ ms)).
  { induction us as [|u us IHu] using rev_ind; intros vs E; [cbn in E; subst vs; reflexivity|]. rewrite rev_app_distr. cbn [rev app hfold]. fold (hfold (fun ks d => hadd n key pf ks d)).
    assert (Hu : In u ts) by (rewrite E; apply in_or_app; left; apply in_or_app; right; left; reflexivity). rewrite <- app_assoc in E. cbn [app] in E.
    rewrite Forall_forall in IH, Fi, Kw, St, B1, B2. pose proof (St u Hu) as Su. pose proof (Fi u Hu) as Iu.
    assert (Nu : forall t, In t ts -> f_nonempty (t_f t)) by (intros t Ht; destruct (St t Ht) as [_ N]; rewrite Forall_forall in N; apply N; apply t_f_node).
    pose proof (Nu u Hu) as Nuu.
    assert (Bu : forall x, In x vs -> t_before u x) by (intros x Hx; rewrite E in Ss; apply SS_app_inv in Ss; destruct Ss as (_ & Ss & _); inversion Ss as [|? ? _ F]; subst; rewrite Forall_forall in F; auto).
    rewrite (IH u Hu n ks (vs ++ ms)).
    - cbn [bind]. apply (IHu (u :: vs)). exact E.
    - destruct ks; [|discriminate]. destruct ms; [exfalso; apply Ne; reflexivity|]. destruct vs; discriminate.
    - assert (Gv : forall ws, (exists w0, ts = w0 ++ ws) -> forest_wf pf (ks ++ ws ++ ms)).
      { induction ws as [|w ws IHw]; intros (w0 & Ew); [exact Hw|]. cbn [app].
        assert (Hwi : In w ts) by (rewrite Ew; apply in_or_app; right; left; reflexivity). pose proof (Fi w Hwi) as Iw. pose proof (Nu w Hwi) as Nw.
        apply forest_insert; [apply IHw; exists (w0 ++ [w]); rewrite <- app_assoc; exact Ew|apply Kw; exact Hwi|eapply inside_trans; [exact Iw|exact Hin]| |].
        - apply Forall_forall. intros k Hk. specialize (B1 k Hk). unfold t_before, t_start, t_stop, inside in *. cbn [t_f] in *. lia.
        - apply Forall_app. split; apply Forall_forall; intros x Hx.
          + rewrite Ew in Ss. apply SS_app_inv in Ss. destruct Ss as (_ & Ss & _). inversion Ss as [|? ? _ F]; subst. rewrite Forall_forall in F. auto.
          + specialize (B2 x Hx). unfold t_before, t_start, t_stop, inside, f_nonempty in *. cbn [t_f] in *. lia. }
      apply Gv. exists (us ++ [u]). rewrite <- app_assoc. exact E.
    - apply Kw; exact Hu.
    - eapply inside_trans; [exact Iu|exact Hin].
    - exact Su.
    - apply Forall_app. split; [|exact Nm]. apply Forall_forall. intros x Hx. apply Nu. rewrite E. apply in_or_app. right. right. exact Hx.
    - apply Forall_forall. intros k Hk. specialize (B1 k Hk). unfold t_before, t_start, t_stop, inside in *. cbn [t_f] in *. lia.
    - apply Forall_app. split; apply Forall_forall; intros x Hx; [apply Bu; exact Hx|]. specialize (B2 x Hx). unfold t_before, t_start, t_stop, inside, f_nonempty in *. cbn [t_f] in *. lia.
    - pose proof (t_height_kids f ts u Hu). lia. }
  specialize (Hfold ts [] ltac:(rewrite app_nil_r; reflexivity)). cbn [app] in Hfold.
  cbn [hadd t_kids t_f]. destruct (ks ++ ms) as [|k0 l0] eqn:El; [contradiction|]. rewrite Hfold. cbn [bind].
  assert (Nt : Forall (fun k => f_nonempty (t_f k)) ts) by (rewrite Forall_forall in *; intros t Ht; destruct (St t Ht) as [_ N]; rewrite Forall_forall in N; apply N; apply t_f_node).
  apply hplace_settled; auto.
  assert (Gv : forall ws w0, ts = w0 ++ ws -> forest_wf pf (ks ++ ws ++ ms)).
  { rewrite Forall_forall in IH, Fi, Kw, St, B1, B2, Nt. induction ws as [|w ws IHw]; intros w0 Ew; [cbn [app]; rewrite El; exact Hw|]. cbn [app].
    assert (Hwi : In w ts) by (rewrite Ew; apply in_or_app; right; left; reflexivity). pose proof (Fi w Hwi) as Iw. pose proof (Nt w Hwi) as Nw.
    apply forest_insert; [apply (IHw (w0 ++ [w])); rewrite <- app_assoc; exact Ew|apply Kw; exact Hwi|eapply inside_trans; [exact Iw|exact Hin]| |].
    - apply Forall_forall. intros k Hk. specialize (B1 k Hk). unfold t_before, t_start, t_stop, inside in *. cbn [t_f] in *. lia.
    - apply Forall_app. split; apply Forall_forall; intros x Hx.
      + rewrite Ew in Ss. apply SS_app_inv in Ss. destruct Ss as (_ & Ss & _). inversion Ss as [|? ? _ F]; subst. rewrite Forall_forall in F. auto.
      + specialize (B2 x Hx). unfold t_before, t_start, t_stop, inside, f_nonempty in *. cbn [t_f] in *. lia. }
  apply (Gv ts []). reflexivity.
Qed.
(** the children of a node, decoded one after the other, come back as they were *)
Lemma hfold_settled key pf ts n : forest_wf pf ts -> Forall settled (tl ts) -> (forall t, In t ts -> (t_height t <= n)%nat) -> (1 <= n)%nat ->
  hfold (fun ks d => hadd n key pf ks d) ts [] = Ok ts.
Proof.
  intros Hw Hs Hn N1. destruct ts as [|t ts]; [reflexivity|]. cbn [tl] in Hs. cbn [hfold]. fold (hfold (fun ks d => hadd n key pf ks d)).
  assert (E : hadd n key pf [] t = Ok [t]).
  { destruct n as [|n]; [lia|]. cbn [hadd]. destruct Hw as (_ & Hi & _). inversion Hi; subst. assert (E : f_fits_b (t_f t) pf = true) by (apply f_fits_iff; assumption). rewrite E. reflexivity. }
  rewrite E. cbn [bind].
  assert (G : forall vs us, us ++ vs = t :: ts -> us <> [] -> Forall settled vs -> hfold (fun ks d => hadd n key pf ks d) vs us = Ok (us ++ vs)).
  { induction vs as [|v vs IH]; intros us Eu Nu Sv; [rewrite app_nil_r; reflexivity|]. cbn [hfold]. fold (hfold (fun ks d => hadd n key pf ks d)). inversion Sv as [|? ? S1 S2]; subst.
    assert (Hv : In v (t :: ts)) by (rewrite <- Eu; apply in_or_app; right; left; reflexivity).
    pose proof Hw as (Ss & Hi & Hk). rewrite Forall_forall in Hi, Hk.
    assert (Ev : hadd n key pf (us ++ []) v = Ok (us ++ [v])).
    { apply hadd_settled; auto; try (apply Forall_nil).
      - rewrite app_nil_r. exact Nu.
      - rewrite app_nil_r. rewrite <- Eu in Hw. apply (forest_app_inv pf us (v :: vs) Hw).
      - apply Forall_forall. intros x Hx. rewrite <- Eu in Ss. apply SS_app_inv in Ss. destruct Ss as (_ & _ & S3). apply S3; [exact Hx|left; reflexivity]. }
    rewrite app_nil_r in Ev. rewrite Ev. cbn [bind]. replace (us ++ v :: vs) with ((us ++ [v]) ++ vs) by (rewrite <- app_assoc; reflexivity). apply IH; [rewrite <- app_assoc; exact Eu| |exact S2]. destruct us; discriminate. }
  apply (G ts [t]); [reflexivity|discriminate|exact Hs].
Qed.
