(** add_hierarchical of several Itos with their subtrees, on the heap (C24, C53). *)
From Verif Require Import AddHier SpecHier HeapFacts HeapFacts2 HeapFacts3 HeapFacts4 HierFacts HierFacts2 HierFacts3 HierHeap HierHeap2 HierHeap3 HierHeap4 HierHeap5 HierHeap6.

Lemma root_not_anc h a x : n_par (nd h x) = None -> ~ anc h a x.
Proof. intros N X. apply anc_up_inv in X. destruct X as (q & Eq & _). congruence. Qed.
Lemma roots_disjoint h c c' j : n_par (nd h c) = None -> n_par (nd h c') = None -> c <> c' -> self_or_anc h c j -> self_or_anc h c' j -> False.
Proof.
  intros N N' Ne [->|A] [->|A'].
  - exact (Ne eq_refl).
  - exact (root_not_anc h c' c N A').
  - exact (root_not_anc h c c' N' A).
  - destruct (anc_comparable h c c' j A A') as [X|[X|X]]; [exact (Ne X)|exact (root_not_anc h c c' N' X)|exact (root_not_anc h c' c N X)].
Qed.
Lemma root_not_below h p c j : n_par (nd h c) = None -> c <> p -> ~ anc h c p -> anc h p j -> ~ self_or_anc h c j.
Proof. intros N Ne Na A X. destruct (apart h p c j N Ne Na A) as [Y Z]. destruct X as [->|X]; contradiction. Qed.
(** a tree that is left alone is the same tree *)
Lemma soa_keep h h' c : (forall x, anc h c x -> nd h' x = nd h x) -> forall j, self_or_anc h c j -> self_or_anc h' c j.
Proof. intros F j [->|A]; [left; reflexivity|right]. apply (anc_mono h h' c j); [|exact A]. intros x X. rewrite (F x X). reflexivity. Qed.

(** nodes of one tree do not cross *)
Lemma tree_no_cross h c : hwf h -> acyclic h -> (c < length h)%nat -> forall x y, self_or_anc h c x -> self_or_anc h c y -> ~ h_cross h x y.
Proof.
  intros H Ha Hc x y Hx Hy. destruct (rep_ex h c H Ha Hc) as (t & R & _). apply (twf_no_cross t (rep_twf h H t c R)); apply (rep_nodes h H t c R); eauto.
Qed.
Lemma add_hier_many key n p : forall cs h, hwf h -> acyclic h -> (p < length h)%nat -> NoDup cs ->
  Forall (fun c => (c < length h)%nat /\ n_par (nd h c) = None /\ c <> p /\ ~ anc h c p /\ fits h c p) cs -> (2 * length h <= n)%nat ->
  ((forall x y, among_trees h cs x \/ anc h p x -> among_trees h cs y -> ~ h_cross h x y) /\
    exists h', add_hier n key h p cs = (h', Ok tt) /\ hwf h' /\ acyclic h' /\ length h' = length h /\ (forall j, n_f (nd h' j) = n_f (nd h j)) /\
      (forall j, anc h' p j <-> anc h p j \/ among_trees h cs j) /\ (forall j, j <> p -> ~ anc h' p j -> nd h' j = nd h j) /\ n_par (nd h' p) = n_par (nd h p))
  \/ ((exists x y, (among_trees h cs x \/ anc h p x) /\ among_trees h cs y /\ h_cross h x y) /\
     exists h', add_hier n key h p cs = (h', Err ValueError) /\ kept h h').
Proof.
  induction cs as [|c cs IH]; intros h H Ha Hp Hnd Hcs Hn.
  - left. split; [intros x y _ (c & [] & _)|]. exists h. repeat (split; [try assumption; reflexivity|]). split; [|split; reflexivity]. intros j. split; [auto|]. intros [X|(c & [] & _)]. exact X.
  - inversion Hcs as [|? ? (C1 & C2 & C3 & C4 & C5) C6]; subst. inversion Hnd as [|? ? Hni Hnd']; subst. rewrite Forall_forall in C6.
    destruct (add_hier_total key h p c n H Ha Hp C1 C2 C3 C4 C5 Hn) as [(Nc1 & h1 & E1 & W1 & A1 & L1 & D1 & An1 & F1 & P1 & _)|((x & y & X & Y & Cr) & h1 & E1 & _ & K1)].
    2:{ right. split; [exists x, y; split; [right; exact X|split; [exists c; split; [left; reflexivity|exact Y]|exact Cr]]|]. exists h1. split; [cbn [add_hier]; rewrite E1; reflexivity|exact K1]. }
    assert (Fr : forall c' j, In c' cs -> self_or_anc h c' j -> j <> p /\ ~ anc h1 p j /\ nd h1 j = nd h j).
    { intros c' j Hc' Hj. destruct (C6 c' Hc') as (_ & N & Np & Na & _). assert (Hcc : c <> c') by (intros ->; contradiction).
      assert (J1 : j <> p) by (intros ->; destruct Hj as [Hj|Hj]; [exact (Np (eq_sym Hj))|exact (Na Hj)]).
      assert (J2 : ~ anc h1 p j).
      { rewrite An1. intros [X|[X|X]].
        - exact (root_not_below h p c' j N Np Na X Hj).
        - exact (roots_disjoint h c c' j C2 N Hcc (or_introl X) Hj).
        - exact (roots_disjoint h c c' j C2 N Hcc (or_intror X) Hj). }
      split; [exact J1|]. split; [exact J2|]. apply F1; assumption. }
    assert (Am : forall j, among_trees h1 cs j <-> among_trees h cs j).
    { assert (Up : forall c' j, In c' cs -> self_or_anc h c' j -> self_or_anc h1 c' j).
      { intros c' j Hc' Hj. apply (soa_keep h h1 c'); [|exact Hj]. intros x X. apply (Fr c' x Hc'). right. exact X. }
      intros j. split; intros (c' & Hc' & Hj); exists c'; (split; [exact Hc'|]); [|apply Up; assumption].
      destruct Hj as [->|Hj]; [left; reflexivity|right]. destruct (C6 c' Hc') as (_ & N & Np & Na & _).
      (* the children of a node of the tree of c' are the same in h1, so nothing else is below c' *)
      induction Hj as [j Eq|j q Eq Hq IHq].
      - apply anc_parent. assert (Hk : In j (n_kids (nd h1 c'))) by (apply (hwf_par h1 W1 c' j Eq)). rewrite (proj2 (proj2 (Fr c' c' Hc' (or_introl eq_refl)))) in Hk. exact (kid_par h c' j H Hk).
      - assert (Hk : In j (n_kids (nd h1 q))) by (apply (hwf_par h1 W1 q j Eq)). rewrite (proj2 (proj2 (Fr c' q Hc' (or_intror IHq)))) in Hk. exact (anc_down h c' q j IHq (kid_par h q j H Hk)). }
    destruct (IH h1 W1 A1 ltac:(lia) Hnd') as [(Nc2 & h' & E' & W' & A' & L' & D' & An' & F' & P')|((x & y & X & Y & Cr) & h' & E' & K')].
    + apply Forall_forall. intros c' Hc'. destruct (C6 c' Hc') as (X1 & X2 & X3 & X4 & X5). destruct (Fr c' c' Hc' (or_introl eq_refl)) as (_ & _ & Ec).
      split; [lia|]. rewrite Ec. split; [exact X2|]. split; [exact X3|]. split; [|apply (data_fits h); [apply D1|apply D1|exact X5]].
      intros X. destruct (proj1 (Am p) (ex_intro _ c' (conj Hc' (or_intror X)))) as (d & Hd & Hj). destruct (C6 d Hd) as (_ & _ & Y1 & Y2 & _). destruct Hj as [Hj|Hj]; [exact (Y1 (eq_sym Hj))|exact (Y2 Hj)].
    + lia.
    + left. split.
      { intros x y X (d & Hd & Y). assert (Hsym : forall a b, ~ h_cross h a b -> ~ h_cross h b a) by (intros a b Nb Cb; apply Nb; apply crosses_sym; exact Cb).
        assert (N2 : forall a b, among_trees h cs a \/ anc h1 p a -> among_trees h cs b -> ~ h_cross h a b).
        { intros a b Xa Xb. pose proof (Nc2 a b) as Z. unfold h_cross in *. rewrite !D1 in Z. apply Z; [destruct Xa as [Xa|Xa]; [left; apply Am; exact Xa|right; exact Xa]|apply Am; exact Xb]. }
        assert (Low : forall a, self_or_anc h c a -> anc h1 p a) by (intros a [->|Xa]; apply An1; auto).
        destruct X as [(e & He & X)|X].
        - destruct Hd as [<-|Hd]; destruct He as [<-|He].
          + exact (tree_no_cross h c H Ha C1 x y X Y).
          + apply Hsym. apply N2; [right; exact (Low y Y)|exists e; auto].
          + apply N2; [right; exact (Low x X)|exists d; auto].
          + apply N2; [left; exists e; auto|exists d; auto].
        - destruct Hd as [<-|Hd]; [exact (Nc1 x y X Y)|]. apply N2; [right; apply An1; left; exact X|exists d; auto]. }
      exists h'. split; [cbn [add_hier]; rewrite E1; unfold obind; cbn [fst snd]; exact E'|]. split; [exact W'|]. split; [exact A'|]. split; [lia|]. split; [intros j; rewrite D'; apply D1|].
      split; [|split; [|congruence]].
      * intros j. rewrite An', An1, Am. split.
        -- intros [[X|[->|X]]|(d & Hd & X)]; [left; exact X|right; exists c; split; [left; reflexivity|left; reflexivity]|right; exists c; split; [left; reflexivity|right; exact X]|right; exists d; split; [right; exact Hd|exact X]].
        -- intros [X|(d & [<-|Hd] & X)]; [left; left; exact X| |right; exists d; split; assumption]. left. right. destruct X as [->|X]; [left; reflexivity|right; exact X].
      * intros j J1 J2. rewrite (F' j J1 J2). apply F1; [exact J1|]. intros X. apply J2. apply An'. left. exact X.
    + right. split.
      * apply Am in Y. destruct Y as (d & Hd & Y). exists x, y. split; [|split; [exists d; split; [right; exact Hd|exact Y]|unfold h_cross in *; rewrite !D1 in Cr; exact Cr]].
        destruct X as [X|X]; [apply Am in X; destruct X as (e & He & X); left; exists e; split; [right; exact He|exact X]|].
        apply An1 in X. destruct X as [X|X]; [right; exact X|left; exists c; split; [left; reflexivity|exact X]].
      * exists h'. split; [cbn [add_hier]; rewrite E1; unfold obind; cbn [fst snd]; exact E'|]. destruct K' as (K1 & K2 & K3 & K4). split; [exact K1|]. split; [exact K2|]. split; [lia|]. intros j. rewrite K4. apply D1.
Qed.

(** ** any order *)
Lemma forest_ids h : hwf h -> acyclic h -> forall cs cts, Forall2 (rep h) cts cs -> NoDup cs -> Forall (fun c => n_par (nd h c) = None) cs ->
  exists js, map (fun j => n_f (nd h j)) js = f_nodes cts /\ NoDup js /\ forall j, In j js -> among_trees h cs j.
Proof.
  intros H Ha. induction cs as [|c cs IH]; intros cts F Nd Np; inversion F as [|t ? ts ? Rt F2]; subst; [exists []; repeat split; [constructor|intros j []]|].
  inversion Nd as [|? ? N1 N2]; subst. inversion Np as [|? ? P1 P2]; subst.
  destruct (rep_ids h H Ha t c Rt) as (j1 & M1 & D1 & A1). destruct (IH ts F2 N2 P2) as (j2 & M2 & D2 & A2). rewrite Forall_forall in P2.
  assert (Dis : forall x, self_or_anc h c x -> In x j2 -> False).
  { intros x X Y. apply A2 in Y. destruct Y as (d & Hd & Y). apply (roots_disjoint h c d x P1 (P2 d Hd)); auto. intros ->. contradiction. }
  exists (c :: j1 ++ j2). split; [cbn [map]; rewrite map_app, M1, M2, f_nodes_cons; pose proof (rep_f h t c Rt) as Ef; destruct t as [tf tk]; cbn [t_f] in Ef; rewrite Ef; reflexivity|]. split.
  - constructor.
    + intros X. apply in_app_iff in X. destruct X as [X|X]; [exact (Ha c (A1 c X))|]. apply (Dis c); [left; reflexivity|exact X].
    + apply NoDup_app_intro; auto. intros x X1 X2. apply (Dis x); [right; auto|exact X2].
  - intros j [<-|Hj]; [exists c; split; [left; reflexivity|left; reflexivity]|]. apply in_app_iff in Hj. destruct Hj as [Hj|Hj]; [exists c; split; [left; reflexivity|right; auto]|].
    destruct (A2 j Hj) as (d & Hd & X). exists d. split; [right; exact Hd|exact X].
Qed.
Lemma reps_ex h : hwf h -> acyclic h -> forall cs, Forall (fun c => (c < length h)%nat) cs -> exists cts, Forall2 (rep h) cts cs.
Proof.
  intros H Ha. induction 1 as [|c cs Hc _ (cts & IH)]; [exists []; constructor|]. destruct (rep_ex h c H Ha Hc) as (t & R & _). exists (t :: cts). constructor; assumption.
Qed.
Lemma reps_perm h cs cs' : Permutation cs cs' -> forall cts, Forall2 (rep h) cts cs -> exists cts', Permutation cts cts' /\ Forall2 (rep h) cts' cs'.
Proof.
  induction 1 as [|x l l' P IH|x y l|l1 l2 l3 P1 IH1 P2 IH2]; intros cts F.
  - inversion F; subst. exists []. split; constructor.
  - inversion F as [|t ? ts ? R F2]; subst. destruct (IH ts F2) as (ts' & Q & G). exists (t :: ts'). split; [constructor; exact Q|constructor; assumption].
  - inversion F as [|t ? ts ? R F2]; subst. inversion F2 as [|u ? us ? R2 F3]; subst. exists (u :: t :: us). split; [apply perm_swap|repeat (constructor; try assumption)].
  - destruct (IH1 cts F) as (c2 & Q1 & G1). destruct (IH2 c2 G1) as (c3 & Q2 & G2). exists c3. split; [eapply Permutation_trans; eassumption|exact G2].
Qed.
Lemma forest_nodes h cs cts : hwf h -> Forall2 (rep h) cts cs -> forall x, In x (f_nodes cts) -> exists j, among_trees h cs j /\ n_f (nd h j) = x.
Proof.
  intros H F. induction F as [|t c cts cs R F IH]; intros x X; [destruct X|]. change (f_nodes (t :: cts)) with (t_nodes t ++ f_nodes cts) in X. apply in_app_iff in X. destruct X as [X|X].
  - apply (rep_nodes h H t c R) in X. destruct X as (j & Hj & E). exists j. split; [exists c; split; [left; reflexivity|exact Hj]|exact E].
  - destruct (IH x X) as (j & (d & Hd & Hj) & E). exists j. split; [exists d; split; [right; exact Hd|exact Hj]|exact E].
Qed.
Theorem add_hier_any_order key key' n h p cs cs' : hwf h -> acyclic h -> (p < length h)%nat -> NoDup cs ->
  Forall (fun c => (c < length h)%nat /\ n_par (nd h c) = None /\ c <> p /\ ~ anc h c p /\ fits h c p) cs ->
  (forall x, among_trees h cs x \/ anc h p x -> nonempty h x) ->
  (forall x y, among_trees h cs x \/ anc h p x -> among_trees h cs y \/ anc h p y -> same_span h x y -> x = y) ->
  (forall x y, among_trees h cs x \/ anc h p x -> among_trees h cs y -> ~ h_cross h x y) ->
  Permutation cs cs' -> (2 * length h <= n)%nat ->
  exists t h1 h2, add_hier n key h p cs = (h1, Ok tt) /\ add_hier n key' h p cs' = (h2, Ok tt) /\
    hwf h1 /\ hwf h2 /\ rep h1 t p /\ rep h2 t p /\ forall j, anc h1 p j <-> anc h p j \/ among_trees h cs j.
Proof.
  intros H Ha Hp Hnd Hcs Hne Hdis Hcr Hpm Hn. destruct (rep_ex h p H Ha Hp) as (tp & Rp & _). pose proof (rep_size h tp p H Ha Hp Rp) as Sz. pose proof (rep_kids h tp p Rp) as R.
  destruct (add_hier_many key n p cs h H Ha Hp Hnd Hcs Hn) as [(_ & h1 & E1 & _ & _ & _ & _ & An & _)|((x & y & X & Y & Cr) & _)]; [|exfalso; exact (Hcr x y X Y Cr)].
  rewrite Forall_forall in Hcs.
  destruct (reps_ex h H Ha cs) as (cts & Rc); [apply Forall_forall; intros c Hc; apply (Hcs c Hc)|].
  destruct (reps_perm h cs cs' Hpm cts Rc) as (cts' & Pc & Rc').
  destruct (rep_ids h H Ha tp p Rp) as (js & Mj & Nj & Aj).
  destruct (forest_ids h H Ha cs cts Rc Hnd) as (is & Mi & Ni & Ai); [apply Forall_forall; intros c Hc; apply (Hcs c Hc)|].
  assert (Hlen : (length is <= length h)%nat).
  { rewrite <- (seq_length (length h) 0). apply (NoDup_incl_length Ni). intros x Hx. apply in_seq. destruct (Ai x Hx) as (c & Hc & [->|A]); [destruct (Hcs c Hc)|destruct (anc_bound h c x H A)]; lia. }
  assert (Fin : forall j, In j (is ++ js) -> among_trees h cs j \/ anc h p j) by (intros j Hj; apply in_app_iff in Hj; destruct Hj; auto).
  destruct (fold_order n key key' (n_f (nd h p)) (t_kids tp) cts cts') as (ts' & F1 & F2).
  - exact (reps_wf h p _ H R).
  - apply Forall_forall. intros t Ht. apply In_nth_error in Ht. destruct Ht as (k & Hk). clear - H Rc Hk. revert cs Rc k Hk. induction cts as [|u cts IH]; intros cs Rc k Hk; [destruct k; discriminate|]. inversion Rc as [|? c ? cs2 Ru Rc2]; subst.
    destruct k; [injection Hk as <-; exact (rep_twf h H u c Ru)|exact (IH cs2 Rc2 k Hk)].
  - clear - H Rc Hcs. revert Hcs. induction Rc as [|t c cts cs Rt Rc IH]; intros Hcs; constructor; [|apply IH; intros; apply Hcs; right; assumption]. rewrite <- (rep_f h t c Rt). apply fits_inside. apply (Hcs c). left. reflexivity.
  - rewrite <- Mi, <- Mj, <- map_app. apply Forall_forall. intros f Hf. apply in_map_iff in Hf. destruct Hf as (j & <- & Hj). exact (Hne j (Fin j Hj)).
  - rewrite <- Mi, <- Mj, <- map_app, map_map. apply NoDup_map_in.
    + apply NoDup_app_intro; auto. intros x X1 X2. apply Ai in X1. apply Aj in X2. destruct X1 as (c & Hc & X1). destruct (Hcs c Hc) as (_ & N & Np & Na & _). exact (root_not_below h p c x N Np Na X2 X1).
    + intros x y Hx Hy E. apply (Hdis x y (Fin x Hx) (Fin y Hy)). injection E as X1 X2. split; assumption.
  - intros x y Hx Hy. destruct (forest_nodes h cs cts H Rc x Hx) as (a & Xa & <-). destruct (forest_nodes h cs cts H Rc y Hy) as (b & Xb & <-). apply (Hcr a b); [left; exact Xa|exact Xb].
  - intros x y Hx Hy. apply (reps_nodes h p _ H R) in Hx. destruct Hx as (a & Xa & <-). destruct (forest_nodes h cs cts H Rc y Hy) as (b & Xb & <-). apply (Hcr a b); [right; exact Xa|exact Xb].
  - exact Pc.
  - rewrite sizes_nodes, <- Mi, map_length. destruct tp as [pf pk]. rewrite t_size_T in Sz. cbn [t_kids]. lia.
  - assert (Hcs' : Forall (fun c => (c < length h)%nat /\ n_par (nd h c) = None /\ c <> p /\ ~ anc h c p /\ fits h c p) cs').
    { apply Forall_forall. intros x Hx. apply Hcs. eapply Permutation_in; [symmetry; exact Hpm|exact Hx]. }
    destruct (add_hier_refines key n p cs cts h (t_kids tp) ts' H Ha Hp Hnd) as (g1 & G1 & W1 & _ & _ & D1 & R1); [apply Forall_forall; exact Hcs|exact R|exact Rc|exact F1|].
    destruct (add_hier_refines key' n p cs' cts' h (t_kids tp) ts' H Ha Hp (Permutation_NoDup Hpm Hnd) Hcs' R Rc' F2) as (g2 & G2 & W2 & _ & _ & D2 & R2).
    rewrite E1 in G1. injection G1 as <-. exists (T (n_f (nd h p)) ts'), h1, g2. split; [exact E1|]. split; [exact G2|]. split; [exact W1|]. split; [exact W2|].
    split; [apply rep_unfold; split; [apply D1|exact R1]|]. split; [apply rep_unfold; split; [apply D2|exact R2]|exact An].
Qed.

(** all orders succeed, or all raise *)
Theorem add_hier_all_or_none key key' n h p cs cs' : hwf h -> acyclic h -> (p < length h)%nat -> NoDup cs ->
  Forall (fun c => (c < length h)%nat /\ n_par (nd h c) = None /\ c <> p /\ ~ anc h c p /\ fits h c p) cs ->
  Permutation cs cs' -> (2 * length h <= n)%nat ->
  (snd (add_hier n key h p cs) = Ok tt /\ snd (add_hier n key' h p cs') = Ok tt) \/
  (snd (add_hier n key h p cs) = Err ValueError /\ snd (add_hier n key' h p cs') = Err ValueError).
Proof.
  intros H Ha Hp Hnd Hcs Hpm Hn.
  assert (Hcs' : Forall (fun c => (c < length h)%nat /\ n_par (nd h c) = None /\ c <> p /\ ~ anc h c p /\ fits h c p) cs').
  { rewrite Forall_forall in *. intros x Hx. apply Hcs. eapply Permutation_in; [symmetry; exact Hpm|exact Hx]. }
  assert (Am : forall x, among_trees h cs x <-> among_trees h cs' x).
  { intros x. split; intros (c & Hc & X); exists c; (split; [|exact X]); eapply Permutation_in; try exact Hc; [exact Hpm|symmetry; exact Hpm]. }
  destruct (add_hier_many key n p cs h H Ha Hp Hnd Hcs Hn) as [(N & h1 & E1 & _)|((x & y & X & Y & Cr) & h1 & E1 & _)];
  destruct (add_hier_many key' n p cs' h H Ha Hp (Permutation_NoDup Hpm Hnd) Hcs' Hn) as [(N' & h2 & E2 & _)|((x' & y' & X' & Y' & Cr') & h2 & E2 & _)]; rewrite E1, E2; auto; exfalso.
  - apply (N x' y'); [|apply Am; exact Y'|exact Cr']. destruct X' as [X'|X']; [left; apply Am|right]; exact X'.
  - apply (N' x y); [|apply Am; exact Y|exact Cr]. destruct X as [X|X]; [left; apply Am|right]; exact X.
Qed.
