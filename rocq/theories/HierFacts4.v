(** Proofs: equal spans and keys in add_hierarchical. *)
From Verif Require Export HierFacts3.
From Coq Require Import Arith.

Lemma In_f_pairs e ts : In e (f_pairs ts) <-> exists t, In t ts /\ In e (t_pairs t).
Proof. unfold f_pairs. apply in_flat_map. Qed.
Lemma t_pairs_T f ts : t_pairs (T f ts) = map (fun y => (f, y)) (f_nodes ts) ++ f_pairs ts. Proof. reflexivity. Qed.
Lemma edge_pair t e : In e (t_edges t) -> In e (t_pairs t).
Proof.
  induction t as [f ts IH] using tree_ind'. rewrite t_edges_T, t_pairs_T, !in_app_iff. intros [H|H].
  - left. apply in_map_iff in H. destruct H as (c & <- & Hc). apply in_map_iff. exists (t_f c). split; [reflexivity|]. apply In_f_nodes. exists c. split; [exact Hc|apply t_f_node].
  - right. apply In_f_edges in H. destruct H as (c & Hc & H). apply In_f_pairs. exists c. split; [exact Hc|]. rewrite Forall_forall in IH. auto.
Qed.
(** in a well-formed tree it is enough to look at (parent, child) pairs *)
Lemma edges_pairs key t : twf t -> edges_ok key [t] -> (forall y, In y (t_nodes t) -> f_span y = f_span (t_f t) -> key (t_f t) <= key y) /\ (forall x y, In (x, y) (t_pairs t) -> f_span x = f_span y -> key x <= key y).
Proof.
  induction t as [f ts IH] using tree_ind'. intros Hw He. apply twf_forest in Hw. destruct Hw as (Hf & Hs & Hi & Hk). apply edges_ok_cons in He. destruct He as (He1 & He2 & _).
  rewrite Forall_forall in IH, Hi, Hk, He1.
  assert (Hkid : forall c, In c ts -> edges_ok key [c]).
  { intros c Hc. apply in_split in Hc. destruct Hc as (l & r & ->). apply edges_ok_app in He2. destruct He2 as [_ He2]. change (c :: r) with ([c] ++ r) in He2. apply edges_ok_app in He2. apply He2. }
  assert (H1 : forall y, In y (f_nodes ts) -> f_span y = f_span f -> key f <= key y).
  { intros y Hy Esp. apply In_f_nodes in Hy. destruct Hy as (c & Hc & Hy). destruct (twf_nodes c (Hk c Hc) y Hy) as [(_ & Y1 & Y2) _]. pose proof (Hi c Hc) as (_ & C1 & C2).
    unfold f_span in Esp. injection Esp as E1 E2. assert (Ec : f_span f = f_span (t_f c)) by (unfold f_span; f_equal; lia).
    specialize (He1 c Hc). unfold edge_ok in He1. cbn [fst snd] in He1. specialize (He1 Ec). destruct (IH c Hc (Hk c Hc) (Hkid c Hc)) as [I1 _].
    specialize (I1 y Hy). rewrite <- Ec in I1. unfold f_span in I1. rewrite E1, E2 in I1. specialize (I1 eq_refl). lia. }
  split.
  - intros y. rewrite t_nodes_cons. cbn [t_f]. intros [<-|Hy] Esp; [lia|auto].
  - intros x y. rewrite t_pairs_T, in_app_iff. intros [Hxy|Hxy] Esp.
    + apply in_map_iff in Hxy. destruct Hxy as (z & [= <- <-] & Hz). apply H1; [exact Hz|symmetry; exact Esp].
    + apply In_f_pairs in Hxy. destruct Hxy as (c & Hc & Hxy). destruct (IH c Hc (Hk c Hc) (Hkid c Hc)) as [_ I2]. apply I2; assumption.
Qed.
Lemma key_ordered_edges key pf ts : forest_wf pf ts -> (key_ordered key ts <-> edges_ok key ts).
Proof.
  intros (_ & _ & Hk). split.
  - intros H. apply Forall_forall. intros [x y] He Esp. apply H; [|exact Esp]. apply In_f_edges in He. destruct He as (t & Ht & He). apply In_f_pairs. exists t. split; [exact Ht|apply edge_pair; exact He].
  - intros He x y Hxy Esp. apply In_f_pairs in Hxy. destruct Hxy as (c & Hc & Hxy). rewrite Forall_forall in Hk.
    assert (Ec : edges_ok key [c]).
    { apply in_split in Hc. destruct Hc as (l & r & ->). apply edges_ok_app in He. destruct He as [_ He]. change (c :: r) with ([c] ++ r) in He. apply edges_ok_app in He. apply He. }
    destruct (edges_pairs key c (Hk c Hc) Ec) as [_ I2]. apply I2; assumption.
Qed.
Lemma key_ordered_single key c : twf c -> (key_ordered key [c] <-> edges_ok key [c]).
Proof.
  intros Hc. apply (key_ordered_edges key (t_f c)). split; [constructor; constructor|]. split; [constructor; [apply inside_refl|constructor]|constructor; auto].
Qed.

Theorem add_hier_keys key pf ks c ks' : forest_wf pf ks -> twf c -> inside (t_f c) pf -> Forall f_nonempty (f_nodes ks ++ t_nodes c) ->
  key_ordered key ks -> key_ordered key [c] -> add_hierarchical (Some key) pf ks c = Ok ks' -> key_ordered key ks'.
Proof.
  intros Hw Hc Hi Hne Hk Hkc E. apply (key_ordered_edges key pf ks Hw) in Hk. apply (key_ordered_single key c Hc) in Hkc.
  destruct (add_hier_spec (Some key) pf ks c Hw Hc Hi) as [(_ & k & E1 & W1 & P1)|(_ & E1)]; [|congruence]. rewrite E in E1. injection E1 as <-.
  apply (key_ordered_edges key pf ks' W1). unfold add_hierarchical in E. eapply hadd_edges; [exact Hw|exact Hc|exact Hi| |exact Hne|exact Hk|exact Hkc|exact E]. unfold hfuel. lia.
Qed.

Lemma key_ordered_nil key : key_ordered key []. Proof. intros x y []. Qed.
Lemma add_all_keys key pf : forall cs ks ks', forest_wf pf ks -> Forall twf cs -> Forall (fun c => inside (t_f c) pf) cs -> Forall f_nonempty (f_nodes ks ++ f_nodes cs) ->
  key_ordered key ks -> Forall (fun c => key_ordered key [c]) cs -> add_hierarchical_all (Some key) pf ks cs = Ok ks' ->
  forest_wf pf ks' /\ Permutation (f_nodes ks') (f_nodes cs ++ f_nodes ks) /\ key_ordered key ks'.
Proof.
  unfold add_hierarchical_all. induction cs as [|c cs IH]; intros ks ks' Hw Ht Hi Hne Hk Hkc; cbn [hfold].
  - intros [= <-]. auto.
  - fold (hfold (add_hierarchical (Some key) pf)). inversion Ht; subst. inversion Hi; subst. inversion Hkc; subst. rewrite f_nodes_cons in Hne.
    destruct (add_hierarchical (Some key) pf ks c) as [k1|e] eqn:E1; cbn [bind]; [|discriminate]. intros E.
    destruct (add_hier_spec (Some key) pf ks c Hw H1 H3) as [(_ & k & E2 & W1 & P1)|(_ & E2)]; [|congruence]. rewrite E1 in E2. injection E2 as <-.
    rewrite app_assoc in Hne. apply Forall_app in Hne. destruct Hne as [Hne1 Hne2].
    assert (Ko : key_ordered key k1) by (eapply (add_hier_keys key pf ks c k1); eassumption).
    assert (Hne' : Forall f_nonempty (f_nodes k1)).
    { rewrite Forall_forall in *. intros x Hx. apply Hne1. apply in_app_iff. assert (Hx' : In x (t_nodes c ++ f_nodes ks)) by (eapply Permutation_in; [exact P1|exact Hx]). apply in_app_iff in Hx'. tauto. }
    destruct (IH k1 ks' W1 H2 H4 ltac:(apply Forall_app; split; assumption) Ko H6 E) as (R1 & R2 & R3). split; [exact R1|]. split; [|exact R3].
    rewrite R2, P1, f_nodes_cons, !app_assoc. apply Permutation_app_tail, Permutation_app_comm.
Qed.

(** ** key None *)
Lemma hier_action_ext ss es a b d d' : (forall i, (i < length ss)%nat -> d i = d' i) -> seg_ok ss es -> hier_action ss es a b d = hier_action ss es a b d'.
Proof.
  intros Hd Hseg. assert (R : forall i, hier_rest ss es a b d i = hier_rest ss es a b d' i).
  { intros i. unfold hier_rest. destruct (bfind_stop es b) as [fj j] eqn:Eb. 
    assert (Hj : (j <= length ss)%nat).
    { destruct Hseg as (Hl & Hse & Hss). assert (Hes : StronglySorted Z.le es).
      { apply sorted_of_nth. intros u v Huv. rewrite Hl in Huv. pose proof (Hss u v Huv). pose proof (Hse v). lia. }
      pose proof (bfind_stop_spec es b Hes) as Hb. cbv zeta in Hb. rewrite Eb in Hb. cbn [fst snd] in Hb. destruct Hb as (Hb & _). lia. }
    destruct (_ && _ && _); [reflexivity|]. destruct (_ && _ && _); [reflexivity|]. destruct (i =? j)%nat; [reflexivity|].
    destruct (Nat.eqb_spec j (S i)) as [->|]; [|reflexivity]. rewrite (Hd i) by lia. reflexivity. }
  unfold hier_action. destruct (bfind_start ss a) as [found i]. rewrite !R. reflexivity.
Qed.
Lemma hplace_none key rec rec' pf ks f : f_start f <= f_stop f -> StronglySorted t_before ks -> Forall twf ks -> Forall (fun k => key (t_f k) <= key f) ks ->
  (forall k, In k ks -> rec (t_f k) (t_kids k) f = rec' (t_f k) (t_kids k) f) ->
  hplace rec None pf ks f = hplace rec' (Some key) pf ks f.
Proof.
  intros Hf Hs Hk Hle Hrec. unfold hplace.
  assert (Ed : forall i, (i < length (map t_start ks))%nat -> key_deeper None f (t_f (nth i ks dtree)) = key_deeper (Some key) f (t_f (nth i ks dtree))).
  { intros i Hi. rewrite map_length in Hi. rewrite Forall_forall in Hle. specialize (Hle _ (nth_In ks dtree Hi)). cbn. lia. }
  rewrite (hier_action_ext _ _ _ _ (fun i => key_deeper None f (t_f (nth i ks dtree))) (fun i => key_deeper (Some key) f (t_f (nth i ks dtree))) Ed) by (apply forest_seg; assumption).
  destruct (hier_action _ _ _ _ _) as [i| |i j] eqn:Ea; [|reflexivity|reflexivity].
  pose proof (hier_action_ok _ _ (f_start f) (f_stop f) (fun i => key_deeper (Some key) f (t_f (nth i ks dtree))) (forest_seg ks Hs Hk) Hf) as Ha.
  rewrite Ea in Ha. cbn [act_ok] in Ha. destruct Ha as [Hlt _]. rewrite map_length in Hlt. rewrite Hrec by (apply nth_In; exact Hlt). reflexivity.
Qed.
(** adding a leaf whose key is at least every other key: None is Some key *)
Lemma hadd_none key f : fwf f -> forall n pf ks, forest_wf pf ks -> Forall (fun x => key x <= key f) (f_nodes ks) ->
  hadd n None pf ks (T f []) = hadd n (Some key) pf ks (T f []).
Proof.
  intros Hf. induction n as [|n IH]; intros pf ks Hw Hle; [reflexivity|]. rewrite !hadd_leaf. destruct ks as [|k0 ks0]; [reflexivity|].
  pose proof Hw as (Hs & Hi & Hk). apply (hplace_none key); auto; [unfold fwf in Hf; lia| |].
  - rewrite Forall_forall in *. intros k Hkin. apply Hle. apply In_f_nodes. exists k. split; [exact Hkin|apply t_f_node].
  - intros k Hkin. apply IH; [eapply kid_forest; eassumption|]. rewrite Forall_forall in *. intros x Hx. apply Hle. eapply kid_nodes_sub; eassumption.
Qed.
Lemma f_nodes_leaves fs : f_nodes (leaves fs) = fs.
Proof. induction fs as [|f fs IH]; [reflexivity|]. cbn. f_equal. exact IH. Qed.
Lemma leaves_twf pf fs : Forall (fun f => fwf f /\ inside f pf) fs -> Forall twf (leaves fs) /\ Forall (fun c => inside (t_f c) pf) (leaves fs).
Proof. induction 1 as [|f fs [Hf Hi] _ [I1 I2]]; cbn; [split; constructor|]. split; constructor; auto. apply leaf_twf. exact Hf. Qed.
Lemma add_all_none key pf : forall fs ks, forest_wf pf ks -> Forall (fun f => fwf f /\ inside f pf) fs -> StronglySorted (fun x y => key x <= key y) fs ->
  (forall x y, In x (f_nodes ks) -> In y fs -> key x <= key y) ->
  add_hierarchical_all None pf ks (leaves fs) = add_hierarchical_all (Some key) pf ks (leaves fs).
Proof.
  unfold add_hierarchical_all. induction fs as [|f fs IH]; intros ks Hw Hf Hs Hle; [reflexivity|]. cbn [leaves map hfold].
  change (map (fun f => T f []) fs) with (leaves fs). fold (hfold (add_hierarchical None pf)). fold (hfold (add_hierarchical (Some key) pf)).
  inversion Hf as [|? ? [Hf1 Hf2] Hf3]; subst. inversion Hs as [|? ? Hs1 Hs2]; subst.
  assert (E : add_hierarchical None pf ks (T f []) = add_hierarchical (Some key) pf ks (T f [])).
  { unfold add_hierarchical, hfuel. cbn [t_size map list_sum fold_right]. apply hadd_none; auto. apply Forall_forall. intros x Hx. apply Hle; [exact Hx|left; reflexivity]. }
  rewrite E. destruct (add_hier_spec (Some key) pf ks (T f []) Hw (leaf_twf f Hf1) Hf2) as [(_ & k1 & -> & W1 & P1)|(_ & ->)]; cbn [bind]; [|reflexivity].
  apply IH; auto. intros x y Hx Hy. assert (Hx' : In x ([f] ++ f_nodes ks)) by (eapply Permutation_in; [exact P1|exact Hx]). cbn [app] in Hx'. destruct Hx' as [<-|Hx'].
  - rewrite Forall_forall in Hs2. auto.
  - apply Hle; [exact Hx'|right; exact Hy].
Qed.
Theorem add_all_none_order key pf fs ks' : fwf pf -> Forall (fun f => fwf f /\ inside f pf /\ f_nonempty f) fs -> StronglySorted (fun x y => key x <= key y) fs ->
  add_hierarchical_all None pf [] (leaves fs) = Ok ks' -> forest_wf pf ks' /\ Permutation (f_nodes ks') fs /\ key_ordered key ks'.
Proof.
  intros Hp Hf Hs E. assert (Hw : forest_wf pf []) by (split; [constructor|split; constructor]).
  assert (Hf' : Forall (fun f => fwf f /\ inside f pf) fs) by (eapply Forall_impl; [|exact Hf]; cbn; tauto).
  rewrite (add_all_none key pf fs []) in E; auto; [|intros x y []]. destruct (leaves_twf pf fs Hf') as [L1 L2].
  apply (add_all_keys key) in E; auto.
  - rewrite f_nodes_leaves, app_nil_r in E. exact E.
  - rewrite f_nodes_leaves. cbn [f_nodes flat_map app]. eapply Forall_impl; [|exact Hf]; cbn; tauto.
  - apply key_ordered_nil.
  - clear. induction fs as [|f fs IH]; cbn; constructor; auto. intros x y [].
Qed.

(** ** only equal spans: a chain *)
Lemma chain_nodes fs : f_nodes (chain fs) = fs.
Proof. induction fs as [|f fs IH]; [reflexivity|]. cbn [chain]. rewrite f_nodes_cons, t_nodes_cons, IH. cbn. rewrite app_nil_r. reflexivity. Qed.
Lemma same_span_chain : forall n pf ts a b, (length (f_nodes ts) <= n)%nat -> forest_wf pf ts -> a < b -> Forall (fun f => f_span f = (a, b)) (f_nodes ts) -> ts = chain (f_nodes ts).
Proof.
  induction n as [|n IH]; intros pf ts a b Hn Hw Hab Hf.
  - destruct ts as [|[f kk] ts]; [reflexivity|]. cbn in Hn. lia.
  - destruct ts as [|[f kk] ts]; [reflexivity|]. destruct Hw as (Hs & Hi & Hk). rewrite f_nodes_cons, t_nodes_cons in *. cbn [app] in *. inversion Hf as [|? ? Hf1 Hf2]; subst.
    assert (ts = []) as ->.
    { destruct ts as [|[g gg] ts]; [reflexivity|]. exfalso. inversion Hs as [|? ? _ F]; subst. inversion F as [|? ? [F1 _] _]; subst. apply Forall_app in Hf2. destruct Hf2 as [_ Hf2]. rewrite f_nodes_cons, t_nodes_cons in Hf2.
      inversion Hf2 as [|? ? Hg _]; subst. unfold f_span in *. injection Hf1 as E1 E2. injection Hg as E3 E4. unfold t_start in F1. cbn in F1. lia. }
    cbn [f_nodes flat_map]. rewrite app_nil_r in *. cbn [chain]. f_equal. f_equal.
    inversion Hk as [|? ? Hk1 _]; subst. apply twf_forest in Hk1. destruct Hk1 as [_ Hk1].
    cbn [f_nodes flat_map app] in Hn, Hf2. rewrite ?app_nil_r in Hf2. apply (IH f kk a b); auto. cbn [length] in Hn. lia.
Qed.
Lemma chain_pairs fs x y l r : fs = l ++ x :: r -> In y r -> In (x, y) (f_pairs (chain fs)).
Proof.
  revert fs. induction l as [|z l IH]; intros fs -> Hy; cbn [chain app].
  - apply In_f_pairs. eexists. split; [left; reflexivity|]. rewrite t_pairs_T. apply in_or_app. left. rewrite chain_nodes. apply in_map. exact Hy.
  - apply In_f_pairs. eexists. split; [left; reflexivity|]. rewrite t_pairs_T. apply in_or_app. right. apply IH; auto.
Qed.
Lemma chain_sorted key fs : key_ordered key (chain fs) -> (forall x y, In x fs -> In y fs -> f_span x = f_span y) -> StronglySorted (fun x y => key x <= key y) fs.
Proof.
  intros Hk He. assert (G : forall l r, fs = l ++ r -> StronglySorted (fun x y => key x <= key y) r).
  { intros l r. revert l. induction r as [|x r IH]; intros l E; constructor.
    - apply (IH (l ++ [x])). rewrite E, <- app_assoc. reflexivity.
    - apply Forall_forall. intros y Hy. apply Hk; [eapply chain_pairs; eassumption|]. apply He; rewrite E; apply in_or_app; right; [left; reflexivity|right; exact Hy]. }
  apply (G [] fs). reflexivity.
Qed.
Theorem chain_key key pf fs a b : a < b -> Forall (fun f => fwf f /\ inside f pf /\ f_span f = (a, b)) fs ->
  exists fs', add_hierarchical_all (Some key) pf [] (leaves fs) = Ok (chain fs') /\ Permutation fs' fs /\ StronglySorted (fun x y => key x <= key y) fs'.
Proof.
  intros Hab Hf. assert (Hw : forest_wf pf []) by (split; [constructor|split; constructor]).
  assert (Hf' : Forall (fun f => fwf f /\ inside f pf) fs) by (eapply Forall_impl; [|exact Hf]; cbn; tauto).
  assert (Hsp : Forall (fun f => f_span f = (a, b)) fs) by (eapply Forall_impl; [|exact Hf]; cbn; tauto).
  assert (Hne : Forall f_nonempty fs) by (eapply Forall_impl; [|exact Hsp]; intros f [= <- <-]; exact Hab).
  destruct (leaves_twf pf fs Hf') as [L1 L2].
  assert (Hnc : no_cross (f_nodes (leaves fs)) (f_nodes (leaves fs))).
  { rewrite f_nodes_leaves. rewrite Forall_forall in Hsp. intros x y Hx Hy Hc. apply Hsp in Hx, Hy. unfold f_span in *. injection Hx as E1 E2. injection Hy as E3 E4. unfold crosses in Hc. lia. }
  destruct (add_all_spec (Some key) pf [] (leaves fs) Hw L1 L2 Hnc) as [(_ & ks & E & W & P)|((x & _ & [] & _) & _)].
  rewrite f_nodes_leaves in P. cbn [f_nodes flat_map] in P. rewrite app_nil_r in P.
  assert (Hks : Forall (fun f => f_span f = (a, b)) (f_nodes ks)) by (rewrite Forall_forall in *; intros x Hx; apply Hsp; eapply Permutation_in; [exact P|exact Hx]).
  exists (f_nodes ks). rewrite <- (same_span_chain (length (f_nodes ks)) pf ks a b) by auto. split; [exact E|]. split; [exact P|].
  apply (add_all_keys key) in E; auto.
  - destruct E as (_ & _ & Ko). rewrite (same_span_chain (length (f_nodes ks)) pf ks a b) in Ko by auto. apply chain_sorted; [exact Ko|].
    rewrite Forall_forall in Hks. intros x y Hx Hy. rewrite (Hks x Hx), (Hks y Hy). reflexivity.
  - rewrite f_nodes_leaves. exact Hne.
  - apply key_ordered_nil.
  - clear. induction fs as [|f fs IH]; cbn; constructor; auto. intros x y [].
Qed.
Lemma hadd_chain pf f a b : a < b -> fwf f -> f_span f = (a, b) -> forall gs n, forest_wf pf (chain gs) -> inside f pf -> Forall (fun g => f_span g = (a, b)) gs -> (length gs < n)%nat ->
  hadd n None pf (chain gs) (T f []) = Ok (chain (gs ++ [f])).
Proof.
  intros Hab Hf Esp gs. revert pf. induction gs as [|g gs IH]; intros pf n Hw Hi Hg Hn; destruct n as [|n]; cbn [length] in Hn; try lia; rewrite hadd_leaf; cbn [chain].
  - assert (E : f_fits_b f pf = true) by (apply f_fits_iff; exact Hi). rewrite E. reflexivity.
  - inversion Hg as [|? ? Hg1 Hg2]; subst. pose proof Hw as (Hs & Hin & Hk). cbn [chain] in Hs, Hin, Hk.
    unfold f_span in Esp, Hg1. injection Esp as E1 E2. injection Hg1 as E3 E4.
    set (rec := fun kf kk f0 => hadd n None kf kk (T f0 [])).
    pose proof (hplace_placed None rec pf [T g (chain gs)] f Hs Hk ltac:(lia)) as Hp.
    inversion Hp as [l k r Ek _ _ _ Er|k Hkin Hc Er|l m r Ek Hl Hm Hr Hd Er].
    + destruct l as [|x l]; [|exfalso; injection Ek as _ Ek; destruct l; discriminate]. injection Ek as <- <-. cbn [t_f t_kids] in *. unfold rec. rewrite IH; [reflexivity| | | |lia].
      * pose proof (kid_forest pf _ (T g (chain gs)) Hw (or_introl eq_refl)) as Kw. exact Kw.
      * inversion Hin as [|? ? Hgi _]; subst. destruct Hgi as (G1 & _), Hi as (I1 & _). unfold inside. cbn [t_f] in G1. split; [congruence|lia].
      * exact Hg2.
    + exfalso. destruct Hkin as [<-|[]]. unfold crosses in Hc. cbn [t_f] in Hc. lia.
    + exfalso. destruct l as [|x l].
      * destruct m as [|x m].
        -- cbn [app] in Ek. subst r. specialize (Hr _ (or_introl eq_refl)). unfold t_start in Hr. cbn [t_f] in Hr. lia.
        -- cbn [app] in Ek. injection Ek as <- Ek. destruct m; [|discriminate]. specialize (Hd _ eq_refl). unfold t_start, t_stop in Hd. cbn [t_f key_deeper] in Hd. discriminate Hd; lia.
      * cbn [app] in Ek. injection Ek as <- _. specialize (Hl _ (or_introl eq_refl)). unfold t_start in Hl. cbn [t_f] in Hl. lia.
Qed.
Theorem chain_none pf fs a b : a < b -> Forall (fun f => fwf f /\ inside f pf /\ f_span f = (a, b)) fs ->
  add_hierarchical_all None pf [] (leaves fs) = Ok (chain fs).
Proof.
  intros Hab Hf. assert (G : forall fs gs, Forall (fun f => fwf f /\ inside f pf /\ f_span f = (a, b)) fs -> forest_wf pf (chain gs) -> Forall (fun g => f_span g = (a, b)) gs ->
    add_hierarchical_all None pf (chain gs) (leaves fs) = Ok (chain (gs ++ fs))).
  { clear fs Hf. unfold add_hierarchical_all. induction fs as [|f fs IH]; intros gs Hf Hw Hg; cbn [leaves map hfold]; [rewrite app_nil_r; reflexivity|].
    change (map (fun f => T f []) fs) with (leaves fs). fold (hfold (add_hierarchical None pf)). inversion Hf as [|? ? (F1 & F2 & F3) F4]; subst.
    assert (E : add_hierarchical None pf (chain gs) (T f []) = Ok (chain (gs ++ [f]))).
    { unfold add_hierarchical. apply (hadd_chain pf f a b); auto. unfold hfuel. rewrite sizes_nodes, chain_nodes. lia. }
    destruct (add_hier_spec None pf (chain gs) (T f []) Hw (leaf_twf f F1) F2) as [(_ & k1 & E1 & W1 & _)|(_ & E1)]; [|congruence]. rewrite E in E1. injection E1 as <-.
    rewrite E. cbn [bind]. rewrite IH; auto; [rewrite <- app_assoc; reflexivity|]. apply Forall_app. split; [exact Hg|]. constructor; [exact F3|constructor]. }
  apply (G fs []); auto. split; [constructor|split; constructor].
Qed.
