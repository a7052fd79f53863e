(** Proofs: add_hierarchical on the heap, in terms of objects. *)
From Verif Require Export HierHeap4.
From Coq Require Import Arith.

Lemma rep_nodes h : hwf h -> forall t i, rep h t i -> forall x, In x (t_nodes t) <-> exists j, self_or_anc h i j /\ n_f (nd h j) = x.
Proof.
  intros H. induction t as [f ts IH] using tree_ind'. intros i Hr x. apply rep_unfold in Hr. destruct Hr as [Hf F]. rewrite t_nodes_cons. rewrite Forall_forall in IH. split.
  - intros [<-|Hx]; [exists i; split; [left; reflexivity|exact Hf]|]. apply In_f_nodes in Hx. destruct Hx as (t & Ht & Hx). destruct (Forall2_in_l _ _ _ t F Ht) as (k & Hk & Hr).
    apply (IH t Ht k Hr) in Hx. destruct Hx as (j & Hj & E). exists j. split; [|exact E]. right. pose proof (kid_par h i k H Hk) as Pk. destruct Hj as [->|Hj]; [apply anc_parent; exact Pk|]. eapply anc_trans; [apply anc_parent; exact Pk|exact Hj].
  - intros (j & Hj & E). destruct Hj as [->|Hj]; [left; congruence|right]. apply In_f_nodes.
    assert (G : exists k, In k (n_kids (nd h i)) /\ self_or_anc h k j).
    { clear - H Hj. induction Hj as [j Hj|j q Hj Hq (k & Hk & IH)].
      - exists j. split; [apply (hwf_par h H); exact Hj|left; reflexivity].
      - exists k. split; [exact Hk|]. right. destruct IH as [->|IH]; [apply anc_parent; exact Hj|eapply anc_up; eassumption]. }
    destruct G as (k & Hk & Hkj). destruct (Forall2_in_r _ _ _ k F Hk) as (t & Ht & Hr). exists t. split; [exact Ht|]. apply (IH t Ht k Hr). eauto.
Qed.
Lemma reps_nodes h p ts : hwf h -> Forall2 (rep h) ts (n_kids (nd h p)) -> forall x, In x (f_nodes ts) <-> exists j, anc h p j /\ n_f (nd h j) = x.
Proof.
  intros H F x. assert (R : rep h (T (n_f (nd h p)) ts) p) by (apply rep_unfold; auto). split.
  - intros Hx. apply In_f_nodes in Hx. destruct Hx as (t & Ht & Hx). destruct (Forall2_in_l _ _ _ t F Ht) as (k & Hk & Hr). apply (rep_nodes h H t k Hr) in Hx. destruct Hx as (j & Hj & E). exists j. split; [|exact E].
    pose proof (kid_par h p k H Hk) as Pk. destruct Hj as [->|Hj]; [apply anc_parent; exact Pk|]. eapply anc_trans; [apply anc_parent; exact Pk|exact Hj].
  - intros (j & Hj & E). apply In_f_nodes.
    assert (G : exists k, In k (n_kids (nd h p)) /\ self_or_anc h k j).
    { clear - H Hj. induction Hj as [j Hj|j q Hj Hq (k & Hk & IH)].
      - exists j. split; [apply (hwf_par h H); exact Hj|left; reflexivity].
      - exists k. split; [exact Hk|]. right. destruct IH as [->|IH]; [apply anc_parent; exact Hj|eapply anc_up; eassumption]. }
    destruct G as (k & Hk & Hkj). destruct (Forall2_in_r _ _ _ k F Hk) as (t & Ht & Hr). exists t. split; [exact Ht|]. apply (rep_nodes h H t k Hr). eauto.
Qed.
Lemma rep_edges h : hwf h -> forall t i, rep h t i -> forall j q, self_or_anc h i q -> n_par (nd h j) = Some q -> In (n_f (nd h q), n_f (nd h j)) (t_edges t).
Proof.
  intros H. induction t as [f ts IH] using tree_ind'. intros i Hr j q Hq Hj. apply rep_unfold in Hr. destruct Hr as [Hf F]. rewrite t_edges_T. apply in_or_app. rewrite Forall_forall in IH.
  destruct Hq as [->|Hq].
  - left. apply (hwf_par h H) in Hj. destruct Hj as [Hj _]. destruct (Forall2_in_r _ _ _ j F Hj) as (t & Ht & Hr). rewrite Hf, (rep_f h t j Hr). apply (in_map (fun c => (f, t_f c))). exact Ht.
  - right. assert (G : exists k, In k (n_kids (nd h i)) /\ self_or_anc h k q).
    { clear - H Hq. induction Hq as [q Hq|q r Hq Hr (k & Hk & IH)].
      - exists q. split; [apply (hwf_par h H); exact Hq|left; reflexivity].
      - exists k. split; [exact Hk|]. right. destruct IH as [->|IH]; [apply anc_parent; exact Hq|eapply anc_up; eassumption]. }
    destruct G as (k & Hk & Hkq). destruct (Forall2_in_r _ _ _ k F Hk) as (t & Ht & Hr). apply In_f_edges. exists t. split; [exact Ht|]. apply (IH t Ht k Hr); assumption.
Qed.


Theorem add_hier_heap key h p c tp tc fuel : hwf h -> acyclic h -> (p < length h)%nat -> (c < length h)%nat ->
  n_par (nd h c) = None -> c <> p -> ~ anc h c p -> fits h c p -> rep h tp p -> rep h tc c -> (t_size tc + t_size tp <= fuel)%nat ->
  ((forall x y, anc h p x -> self_or_anc h c y -> ~ h_cross h x y) /\
    exists h', add_hier1 fuel key h p c = (h', Ok tt) /\ hwf h' /\ acyclic h' /\ length h' = length h /\
      (forall j, n_f (nd h' j) = n_f (nd h j)) /\
      (forall j, anc h' p j <-> anc h p j \/ j = c \/ anc h c j) /\
      (forall j, j <> p -> ~ anc h' p j -> nd h' j = nd h j) /\ n_par (nd h' p) = n_par (nd h p) /\
      (forall x q y, anc h' p x -> n_par (nd h' x) = Some q -> self_or_anc h' p y -> f_overlap (n_f (nd h x)) (n_f (nd h y)) -> h_inside h x y -> ~ same_span h x y -> h_inside h q y))
  \/ (exists x y, anc h p x /\ self_or_anc h c y /\ h_cross h x y) /\
     exists h', add_hier1 fuel key h p c = (h', Err ValueError) /\ (n_kids (nd h c) = [] -> h' = h) /\ kept h h'.
Proof.
  intros H Ha Hp Hc Nc Hne Hn Fi Rp Rc Hfu. pose proof (rep_kids h tp p Rp) as R. pose proof (rep_f h tp p Rp) as Efp. pose proof (rep_f h tc c Rc) as Efc.
  assert (Pre : pre h p c (t_kids tp)) by (constructor; assumption). pose proof (refines_all key fuel h p c (t_kids tp) tc Pre Rc) as Ref.
  assert (Hsz : (t_size tc + sizes (t_kids tp) < fuel)%nat) by (destruct tp as [pf pk]; rewrite t_size_T in Hfu; cbn [t_kids]; lia).
  assert (Hin : inside (t_f tc) (n_f (nd h p))) by (rewrite <- Efc; exact Fi).
  pose proof (reps_wf h p (t_kids tp) H R) as Hw.
  destruct (hadd_spec fuel key (n_f (nd h p)) (t_kids tp) tc Hw (rep_twf h H tc c Rc) Hin Hsz) as [(Hnc & ts' & E & W' & Pm)|((x & y & Hx & Hy & Hcr) & E)]; rewrite E in Ref.
  - left. split.
    { intros x y Hx Hy. apply Hnc; [apply (reps_nodes h p _ H R); eauto|apply (rep_nodes h H tc c Rc); eauto]. }
    destruct Ref as (h' & E' & Po). pose proof Po as [W A L D P F An R']. exists h'. split; [exact E'|]. split; [exact W|]. split; [exact A|]. split; [exact L|]. split; [exact D|].
    assert (Iff : forall j, anc h' p j <-> anc h p j \/ j = c \/ anc h c j).
    { intros j. split; [|apply An]. apply (frame_rev h h' p c H Ha Nc Hne Hn P F). }
    split; [exact Iff|]. split.
    { intros j Nj X. rewrite Iff in X. apply F; tauto. }
    split; [exact P|].
    intros x q y Hx Hq Hy Hnx Hxy Hns.
    assert (Rp' : rep h' (T (n_f (nd h' p)) ts') p) by (apply rep_unfold; split; [reflexivity|exact R']).
    assert (Hqp : self_or_anc h' p q).
    { apply anc_up_inv in Hx. destruct Hx as (q' & Eq & Hx). rewrite Hq in Eq. injection Eq as <-. destruct Hx as [->|Hx]; [left; reflexivity|right; exact Hx]. }
    pose proof (rep_edges h' W _ p Rp' x q Hqp Hq) as Hed.
    assert (Hyn : In (n_f (nd h' y)) (t_nodes (T (n_f (nd h' p)) ts'))) by (apply (rep_nodes h' W _ p Rp'); eauto).
    assert (Sxy : h_string h x = h_string h y).
    { assert (G : forall z, self_or_anc h' p z -> h_string h z = h_string h p).
      { intros z [->|Hz]; [reflexivity|]. apply (anc_span h' p z W) in Hz. destruct Hz as (Hz & _). unfold h_string in *. rewrite !D in Hz. exact Hz. }
      rewrite (G x (or_intror Hx)), (G y Hy). reflexivity. }
    pose proof (t_smallest _ (rep_twf h' W _ p Rp') _ _ (n_f (nd h' y)) Hed Hyn) as Sm. rewrite !D in Sm.
    assert (Si : strictly_inside (n_f (nd h x)) (n_f (nd h y))).
    { split; [split; [exact Sxy|exact Hxy]|]. intros Es. apply Hns. unfold f_span in Es. injection Es as E1 E2. split; assumption. }
    destruct (Sm Hnx Si) as (_ & S1 & S2). split; assumption.
  - right. split.
    + apply (reps_nodes h p _ H R) in Hx. apply (rep_nodes h H tc c Rc) in Hy. destruct Hx as (a & Ha' & <-), Hy as (b & Hb & <-). exists a, b. auto.
    + destruct Ref as (h' & E' & X). eauto.
Qed.

(** ** several arguments *)
Lemma add_hier_refines key n p : forall cs cts h ts ts', hwf h -> acyclic h -> (p < length h)%nat -> NoDup cs ->
  Forall (fun c => (c < length h)%nat /\ n_par (nd h c) = None /\ c <> p /\ ~ anc h c p /\ fits h c p) cs ->
  Forall2 (rep h) ts (n_kids (nd h p)) -> Forall2 (rep h) cts cs ->
  hfold (fun ks d => hadd n key (n_f (nd h p)) ks d) cts ts = Ok ts' ->
  exists h', add_hier n key h p cs = (h', Ok tt) /\ hwf h' /\ acyclic h' /\ length h' = length h /\ (forall j, n_f (nd h' j) = n_f (nd h j)) /\ Forall2 (rep h') ts' (n_kids (nd h' p)).
Proof.
  induction cs as [|c cs IH]; intros cts h ts ts' H Ha Hp Hnd Hcs R Rc E.
  - inversion Rc; subst. cbn [hfold] in E. injection E as <-. exists h. split; [reflexivity|]. split; [exact H|]. split; [exact Ha|]. split; [reflexivity|]. split; [reflexivity|exact R].
  - inversion Rc as [|tc ? cts' ? Rc1 Rc2]; subst. cbn [hfold] in E. fold (hfold (fun ks d => hadd n key (n_f (nd h p)) ks d)) in E.
    inversion Hcs as [|? ? (C1 & C2 & C3 & C4 & C5) C6]; subst. inversion Hnd as [|? ? Hni Hnd']; subst.
    assert (Pre : pre h p c ts) by (constructor; assumption). pose proof (refines_all key n h p c ts tc Pre Rc1) as Ref.
    destruct (hadd n key (n_f (nd h p)) ts tc) as [ts1|e]; cbn [bind] in E; [|discriminate]. destruct Ref as (h1 & E1 & Po). pose proof Po as [W A L D P F An R'].
    cbn [add_hier]. rewrite E1. unfold obind. cbn [fst snd].
    assert (Hfree : forall c' j, In c' cs -> self_or_anc h c' j -> nd h1 j = nd h j).
    { intros c' j Hc' Hj. rewrite Forall_forall in C6. destruct (C6 c' Hc') as (_ & N & Np & Na & _). assert (Hcc : c' <> c) by (intros ->; contradiction).
      assert (Hroot : forall a x, n_par (nd h x) = None -> ~ anc h a x) by (intros a x Nx X; apply anc_up_inv in X; destruct X as (q & Eq & _); congruence).
      apply F.
      - intros ->. destruct Hj as [Hj|Hj]; [congruence|contradiction].
      - destruct Hj as [->|Hj]; [apply Hroot; exact N|]. intros X. destruct (apart h p c' j N Np Na X) as [_ Y]. contradiction.
      - intros ->. destruct Hj as [Hj|Hj]; [congruence|exact (Hroot c' c C2 Hj)].
      - destruct Hj as [->|Hj]; [apply Hroot; exact N|]. intros X. destruct (apart h c c' j N Hcc (Hroot c' c C2) X) as [_ Y]. contradiction. }
    destruct (IH cts' h1 ts1 ts') as (h' & E' & W' & A' & L' & D' & R''); auto.
    + lia.
    + rewrite Forall_forall in *. intros c' Hc'. destruct (C6 c' Hc') as (X1 & X2 & X3 & X4 & X5). split; [lia|]. rewrite (Hfree c' c' Hc' (or_introl eq_refl)). split; [exact X2|]. split; [exact X3|]. split.
      * intros X. apply X4. apply (post_up h h1 p c ts1 c' H Ha C2 C3 C4 Po X).
      * apply (data_fits h); [apply D|apply D|exact X5].
    + clear - Rc2 Hfree H. assert (G : forall cts' xs, Forall2 (rep h) cts' xs -> (forall x, In x xs -> In x cs) -> Forall2 (rep h1) cts' xs).
      { intros q xs F. induction F as [|t x q xs Ht F IH]; intros Hin; constructor; [|apply IH; intros; apply Hin; right; assumption].
        apply (rep_frame h h1 H t x Ht). intros j Hj. rewrite (Hfree x j (Hin x (or_introl eq_refl)) Hj). auto. }
      apply G; auto.
    + rewrite D. exact E.
    + exists h'. split; [exact E'|]. split; [exact W'|]. split; [exact A'|]. split; [lia|]. split; [intros j; rewrite D'; apply D|exact R''].
Qed.
Lemma hfold_spec n key pf ks cs : forest_wf pf ks -> Forall twf cs -> Forall (fun c => inside (t_f c) pf) cs -> no_cross (f_nodes cs) (f_nodes cs) -> (sizes cs + sizes ks < n)%nat ->
  hadd_result pf ks (f_nodes cs) (hfold (fun ks d => hadd n key pf ks d) cs ks).
Proof. intros Hw Ht Hi Hn Hsz. apply (hfold_result pf _ cs ks n); auto. intros ks' d Hw' Hd Hdi Hlt. apply hadd_spec; assumption. Qed.
Lemma fold_order n key key' pf ks cs cs' : forest_wf pf ks -> Forall twf cs -> Forall (fun c => inside (t_f c) pf) cs ->
  Forall f_nonempty (f_nodes cs ++ f_nodes ks) -> NoDup (map f_span (f_nodes cs ++ f_nodes ks)) ->
  no_cross (f_nodes cs) (f_nodes cs) -> no_cross (f_nodes ks) (f_nodes cs) -> Permutation cs cs' -> (sizes cs + sizes ks < n)%nat ->
  exists ks', hfold (fun ks d => hadd n key pf ks d) cs ks = Ok ks' /\ hfold (fun ks d => hadd n key' pf ks d) cs' ks = Ok ks'.
Proof.
  intros Hw Ht Hi Hne Hnd Hcc Hkc Hp Hsz.
  assert (Hpn : Permutation (f_nodes cs) (f_nodes cs')) by (apply Permutation_flat_map; exact Hp).
  assert (Ht' : Forall twf cs') by (rewrite Forall_forall in *; intros x Hx; apply Ht; eapply Permutation_in; [symmetry; exact Hp|exact Hx]).
  assert (Hi' : Forall (fun c => inside (t_f c) pf) cs') by (rewrite Forall_forall in *; intros x Hx; apply Hi; eapply Permutation_in; [symmetry; exact Hp|exact Hx]).
  assert (Hcc' : no_cross (f_nodes cs') (f_nodes cs')) by (intros x y Hx Hy; apply Hcc; (eapply Permutation_in; [symmetry; exact Hpn|]); assumption).
  assert (Hsz' : (sizes cs' + sizes ks < n)%nat) by (rewrite sizes_nodes, <- (Permutation_length Hpn), <- sizes_nodes; exact Hsz).
  destruct (hfold_spec n key pf ks cs Hw Ht Hi Hcc Hsz) as [(_ & k1 & E1 & W1 & P1)|((x & y & Hx & Hy & Hc) & _)]; [|exfalso; exact (Hkc x y Hx Hy Hc)].
  destruct (hfold_spec n key' pf ks cs' Hw Ht' Hi' Hcc' Hsz') as [(_ & k2 & E2 & W2 & P2)|((x & y & Hx & Hy & Hc) & _)].
  2:{ exfalso. apply (Hkc x y Hx); [|exact Hc]. eapply Permutation_in; [symmetry; exact Hpn|exact Hy]. }
  assert (E : k1 = k2).
  { apply (forest_unique pf); auto.
    - rewrite Forall_forall in *. intros x Hx. apply Hne. eapply Permutation_in; [exact P1|exact Hx].
    - eapply Permutation_NoDup; [|exact Hnd]. apply Permutation_map. symmetry. exact P1.
    - rewrite P1, P2. apply Permutation_app_tail. exact Hpn. }
  subst k2. exists k1. auto.
Qed.
(** order independence on the heap; the Itos to add are leaves *)
Theorem add_hier_order key key' n h p cs cs' tp : hwf h -> acyclic h -> (p < length h)%nat -> NoDup cs ->
  Forall (fun c => (c < length h)%nat /\ n_par (nd h c) = None /\ n_kids (nd h c) = [] /\ c <> p /\ fits h c p /\ nonempty h c) cs ->
  rep h tp p -> Forall f_nonempty (f_nodes (t_kids tp)) ->
  NoDup (map (fun c => f_span (n_f (nd h c))) cs ++ map f_span (f_nodes (t_kids tp))) ->
  (forall x y, In x cs -> In y cs -> ~ h_cross h x y) -> (forall x y, anc h p x -> In y cs -> ~ h_cross h x y) ->
  Permutation cs cs' -> (length cs + t_size tp <= n)%nat ->
  exists ts' h1 h2, add_hier n key h p cs = (h1, Ok tt) /\ add_hier n key' h p cs' = (h2, Ok tt) /\
    hwf h1 /\ hwf h2 /\ rep h1 (T (n_f (nd h p)) ts') p /\ rep h2 (T (n_f (nd h p)) ts') p /\
    Permutation (f_nodes ts') (map (fun c => n_f (nd h c)) cs ++ f_nodes (t_kids tp)).
Proof.
  intros H Ha Hp Hnd Hcs Rp Hne Hns Hcc Hkc Hpm Hsz.
  assert (Rleaf : forall l, Forall (fun c => n_kids (nd h c) = []) l -> Forall2 (rep h) (leaves (map (fun c => n_f (nd h c)) l)) l).
  { induction 1 as [|c l Hc _ IH]; cbn; constructor; [|exact IH]. apply (rep_unfold h _ [] c). split; [reflexivity|rewrite Hc; constructor]. }
  pose proof (rep_kids h tp p Rp) as R. pose proof (reps_wf h p _ H R) as Hw.
  set (fs := map (fun c => n_f (nd h c)) cs).
  assert (Hcs' : Forall (fun c => (c < length h)%nat /\ n_par (nd h c) = None /\ n_kids (nd h c) = [] /\ c <> p /\ fits h c p /\ nonempty h c) cs').
  { rewrite Forall_forall in *. intros x Hx. apply Hcs. eapply Permutation_in; [symmetry; exact Hpm|exact Hx]. }
  assert (Hin : forall c, In c cs -> (c < length h)%nat /\ n_par (nd h c) = None /\ n_kids (nd h c) = [] /\ c <> p /\ fits h c p /\ nonempty h c) by (rewrite Forall_forall in Hcs; exact Hcs).
  destruct (leaves_twf (n_f (nd h p)) fs) as [L1 L2].
  { apply Forall_forall. intros f Hf. apply in_map_iff in Hf. destruct Hf as (c & <- & Hc). split; [apply (hwf_span h H)|]. apply fits_inside. apply Hin. exact Hc. }
  destruct (fold_order n key key' (n_f (nd h p)) (t_kids tp) (leaves fs) (leaves (map (fun c => n_f (nd h c)) cs')) Hw L1 L2) as (ts' & E1 & E2).
  - rewrite f_nodes_leaves. apply Forall_app. split; [|exact Hne]. apply Forall_forall. intros f Hf. apply in_map_iff in Hf. destruct Hf as (c & <- & Hc). apply (Hin c Hc).
  - rewrite f_nodes_leaves, map_app. unfold fs. rewrite map_map. exact Hns.
  - rewrite f_nodes_leaves. intros x y Hx Hy. apply in_map_iff in Hx, Hy. destruct Hx as (a & <- & Ha'), Hy as (b & <- & Hb). apply (Hcc a b); assumption.
  - rewrite f_nodes_leaves. intros x y Hx Hy. apply in_map_iff in Hy. destruct Hy as (b & <- & Hb). apply (reps_nodes h p _ H R) in Hx. destruct Hx as (a & Ha' & <-). apply (Hkc a b); assumption.
  - unfold fs, leaves. apply Permutation_map, Permutation_map. exact Hpm.
  - rewrite sizes_nodes, f_nodes_leaves. unfold fs. rewrite map_length. destruct tp as [pf pk]. rewrite t_size_T in Hsz. cbn [t_kids]. lia.
  - assert (Q : forall l, Forall (fun c => (c < length h)%nat /\ n_par (nd h c) = None /\ n_kids (nd h c) = [] /\ c <> p /\ fits h c p /\ nonempty h c) l ->
              Forall (fun c => (c < length h)%nat /\ n_par (nd h c) = None /\ c <> p /\ ~ anc h c p /\ fits h c p) l /\ Forall (fun c => n_kids (nd h c) = []) l).
    { intros l Hl. split; (eapply Forall_impl; [|exact Hl]); cbn; intros c (X1 & X2 & X3 & X4 & X5 & X6); [|exact X3]. split; [exact X1|]. split; [exact X2|]. split; [exact X4|]. split; [|exact X5]. apply childless_not_anc; assumption. }
    destruct (Q cs Hcs) as [Q1 Q2]. destruct (Q cs' Hcs') as [Q3 Q4].
    destruct (add_hier_refines key n p cs (leaves fs) h (t_kids tp) ts' H Ha Hp Hnd Q1 R (Rleaf cs Q2) E1) as (h1 & F1 & W1 & _ & _ & D1 & R1).
    destruct (add_hier_refines key' n p cs' _ h (t_kids tp) ts' H Ha Hp (Permutation_NoDup Hpm Hnd) Q3 R (Rleaf cs' Q4) E2) as (h2 & F2 & W2 & _ & _ & D2 & R2).
    exists ts', h1, h2. split; [exact F1|]. split; [exact F2|]. split; [exact W1|]. split; [exact W2|]. split; [apply rep_unfold; split; [apply D1|exact R1]|]. split; [apply rep_unfold; split; [apply D2|exact R2]|].
    destruct (hfold_spec n key (n_f (nd h p)) (t_kids tp) (leaves fs) Hw L1 L2) as [(_ & k1 & E3 & _ & P3)|(_ & E3)].
    + rewrite f_nodes_leaves. intros x y Hx Hy. apply in_map_iff in Hx, Hy. destruct Hx as (a & <- & Ha'), Hy as (b & <- & Hb). apply (Hcc a b); assumption.
    + rewrite sizes_nodes, f_nodes_leaves. unfold fs. rewrite map_length. destruct tp as [pf pk]. rewrite t_size_T in Hsz. cbn [t_kids]. lia.
    + rewrite E1 in E3. injection E3 as <-. rewrite f_nodes_leaves in P3. exact P3.
    + congruence.
Qed.
