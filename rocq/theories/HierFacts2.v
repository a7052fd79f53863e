(** Proofs: add_hierarchical on trees: exact success condition, well-formedness,
    conservation of nodes. *)
From Verif Require Export HierFacts.
From Coq Require Import Arith.

Lemma crosses_sym x y : crosses x y -> crosses y x.
Proof. unfold crosses. lia. Qed.
Lemma inside_trans a b c : inside a b -> inside b c -> inside a c.
Proof. unfold inside. intros (?&?&?) (?&?&?). split; [congruence|lia]. Qed.
Lemma inside_refl a : inside a a. Proof. unfold inside. split; [reflexivity|lia]. Qed.
Lemma t_nodes_cons f ts : t_nodes (T f ts) = f :: f_nodes ts. Proof. reflexivity. Qed.
Lemma f_nodes_app a b : f_nodes (a ++ b) = f_nodes a ++ f_nodes b.
Proof. unfold f_nodes. apply flat_map_app. Qed.
Lemma f_nodes_cons a b : f_nodes (a :: b) = t_nodes a ++ f_nodes b. Proof. reflexivity. Qed.
Lemma In_f_nodes x ts : In x (f_nodes ts) <-> exists t, In t ts /\ In x (t_nodes t).
Proof. unfold f_nodes. apply in_flat_map. Qed.
Lemma t_f_node t : In (t_f t) (t_nodes t). Proof. destruct t; left; reflexivity. Qed.
Lemma t_size_nodes t : t_size t = length (t_nodes t).
Proof.
  induction t as [f ts IH] using tree_ind'. cbn [t_size t_nodes length]. f_equal.
  induction ts as [|t ts IHt]; [reflexivity|]. inversion IH; subst. cbn [map list_sum fold_right flat_map]. rewrite app_length. unfold list_sum in IHt. rewrite <- IHt by assumption. lia.
Qed.
Lemma sizes_nodes ts : sizes ts = length (f_nodes ts).
Proof. induction ts as [|t ts IH]; [reflexivity|]. unfold sizes in *. cbn [map list_sum fold_right]. rewrite f_nodes_cons, app_length, t_size_nodes. unfold list_sum in IH. lia. Qed.
Lemma sizes_app a b : sizes (a ++ b) = (sizes a + sizes b)%nat.
Proof. rewrite !sizes_nodes, f_nodes_app, app_length. lia. Qed.
Lemma sizes_cons a b : sizes (a :: b) = (t_size a + sizes b)%nat. Proof. reflexivity. Qed.
Lemma t_size_T f ts : t_size (T f ts) = S (sizes ts). Proof. reflexivity. Qed.
Lemma f_nodes_rev ts : Permutation (f_nodes (rev ts)) (f_nodes ts).
Proof. unfold f_nodes. apply Permutation_flat_map. apply Permutation_sym, Permutation_rev. Qed.

Lemma twf_nodes t : twf t -> forall x, In x (t_nodes t) -> inside x (t_f t) /\ fwf x.
Proof.
  induction t as [f ts IH] using tree_ind'. intros Ht x. apply twf_forest in Ht. destruct Ht as (Hf & _ & Hi & Hk). rewrite t_nodes_cons. cbn [t_f].
  intros [<-|Hx]; [split; [apply inside_refl|exact Hf]|]. apply In_f_nodes in Hx. destruct Hx as (t & Ht & Hx). rewrite Forall_forall in *.
  destruct (IH t Ht (Hk t Ht) x Hx) as [H1 H2]. split; [|exact H2]. eapply inside_trans; [exact H1|apply Hi; exact Ht].
Qed.
Lemma forest_nodes pf ts : forest_wf pf ts -> forall x, In x (f_nodes ts) -> inside x pf /\ fwf x.
Proof.
  intros (_ & Hi & Hk) x Hx. apply In_f_nodes in Hx. destruct Hx as (t & Ht & Hx). rewrite Forall_forall in *.
  destruct (twf_nodes t (Hk t Ht) x Hx) as [H1 H2]. split; [|exact H2]. eapply inside_trans; [exact H1|apply Hi; exact Ht].
Qed.
Lemma in_two {A} (l : list A) a b : In a l -> In b l -> a = b \/ (exists l1 l2 l3, l = l1 ++ a :: l2 ++ b :: l3) \/ (exists l1 l2 l3, l = l1 ++ b :: l2 ++ a :: l3).
Proof.
  intros Ha Hb. apply in_split in Ha. destruct Ha as (l1 & l2 & ->). apply in_app_iff in Hb. destruct Hb as [Hb|[->|Hb]]; [|auto|].
  - apply in_split in Hb. destruct Hb as (u & v & ->). right. right. exists u, v, l2. rewrite <- app_assoc. reflexivity.
  - apply in_split in Hb. destruct Hb as (u & v & ->). right. left. exists l1, u, v. reflexivity.
Qed.
Lemma SS_two {A} (R : A -> A -> Prop) l1 a l2 b l3 : StronglySorted R (l1 ++ a :: l2 ++ b :: l3) -> R a b.
Proof. intros H. apply SS_app_inv in H. destruct H as (_ & H & _). inversion H as [|? ? _ F]; subst. rewrite Forall_forall in F. apply F. apply in_or_app. right. left. reflexivity. Qed.
(** nodes of two different sibling trees lie one before the other *)
Lemma siblings_apart ts a b x y : StronglySorted t_before ts -> Forall twf ts -> In a ts -> In b ts -> In x (t_nodes a) -> In y (t_nodes b) ->
  a = b \/ f_stop x <= f_start y \/ f_stop y <= f_start x.
Proof.
  intros Hs Ht Ha Hb Hx Hy. rewrite Forall_forall in Ht.
  destruct (twf_nodes a (Ht a Ha) x Hx) as [Hxa _]. destruct (twf_nodes b (Ht b Hb) y Hy) as [Hyb _].
  destruct (in_two ts a b Ha Hb) as [->|[(l1 & l2 & l3 & E)|(l1 & l2 & l3 & E)]]; [left; reflexivity| |]; right; rewrite E in Hs; apply SS_two in Hs; destruct Hs as [_ Hs];
    unfold inside, t_start, t_stop in *; lia.
Qed.
Lemma twf_no_cross t : twf t -> no_cross (t_nodes t) (t_nodes t).
Proof.
  induction t as [f ts IH] using tree_ind'. intros Ht. pose proof Ht as Ht0. apply twf_forest in Ht. destruct Ht as (Hf & Hs & Hi & Hk).
  intros x y Hx Hy. pose proof (twf_nodes _ Ht0 x Hx) as [Hxf Hxw]. pose proof (twf_nodes _ Ht0 y Hy) as [Hyf Hyw]. cbn [t_f] in *.
  rewrite t_nodes_cons in Hx, Hy. destruct Hx as [<-|Hx]; [unfold crosses, inside in *; lia|]. destruct Hy as [<-|Hy]; [unfold crosses, inside in *; lia|].
  apply In_f_nodes in Hx, Hy. destruct Hx as (a & Ha & Hx), Hy as (b & Hb & Hy).
  destruct (siblings_apart ts a b x y Hs Hk Ha Hb Hx Hy) as [->|Hap].
  - rewrite Forall_forall in *. apply (IH b Hb); auto.
  - unfold crosses, fwf in *. lia.
Qed.
Lemma forest_no_cross pf ts : forest_wf pf ts -> no_cross (f_nodes ts) (f_nodes ts).
Proof.
  intros (Hs & Hi & Hk) x y Hx Hy. apply In_f_nodes in Hx, Hy. destruct Hx as (a & Ha & Hx), Hy as (b & Hb & Hy).
  assert (Hka := Hk). rewrite Forall_forall in Hka.
  destruct (siblings_apart ts a b x y Hs Hk Ha Hb Hx Hy) as [->|Hap]; [apply (twf_no_cross b); auto|].
  pose proof (twf_nodes a (Hka a Ha) x Hx) as [_ Hxw]. pose proof (twf_nodes b (Hka b Hb) y Hy) as [_ Hyw]. unfold crosses, fwf in *. lia.
Qed.

Lemma forest_app_inv pf a b : forest_wf pf (a ++ b) -> forest_wf pf a /\ forest_wf pf b.
Proof.
  intros (Hs & Hi & Hk). apply SS_app_inv in Hs. destruct Hs as (S1 & S2 & _). apply Forall_app in Hi, Hk. unfold forest_wf. tauto.
Qed.
(** replacing one tree by another of the same span *)
Lemma SS_replace l k k' r : t_start k' = t_start k -> t_stop k' = t_stop k -> StronglySorted t_before (l ++ k :: r) -> StronglySorted t_before (l ++ k' :: r).
Proof.
  intros E1 E2 H. apply SS_app_inv in H. destruct H as (S1 & S2 & S3). inversion S2 as [|? ? S4 S5]; subst. apply SS_app; [exact S1| |].
  - constructor; [exact S4|]. eapply Forall_impl; [|exact S5]. unfold t_before. intros x. lia.
  - intros x y Hx [<-|Hy]; [specialize (S3 x k Hx (or_introl eq_refl)); unfold t_before in *; lia|]. apply S3; [exact Hx|right; exact Hy].
Qed.

Definition hadd_result (pf : fito) (ks : list tree) (new : list fito) (r : res (list tree)) : Prop :=
  (no_cross (f_nodes ks) new /\ exists ks', r = Ok ks' /\ forest_wf pf ks' /\ Permutation (f_nodes ks') (new ++ f_nodes ks))
  \/ (some_cross (f_nodes ks) new /\ r = Err ValueError).

Lemma hplace_result key rec pf ks f : forest_wf pf ks -> fwf f -> inside f pf ->
  (forall k, In k ks -> inside f (t_f k) -> forest_wf (t_f k) (t_kids k) -> hadd_result (t_f k) (t_kids k) [f] (rec (t_f k) (t_kids k) f)) ->
  hadd_result pf ks [f] (hplace rec key pf ks f).
Proof.
  intros Hw Hf Hin Hrec. pose proof Hw as (Hs & Hi & Hk).
  destruct (hplace_placed key rec pf ks f Hs Hk ltac:(unfold fwf in Hf; lia)) as [l k r E H1 H2 _|k Hkin Hc|l m r E Hl Hm Hr _].
  - (* into k *)
    assert (Hkin : In k ks) by (rewrite E; apply in_or_app; right; left; reflexivity).
    assert (Hki : inside (t_f k) pf) by (rewrite Forall_forall in Hi; apply Hi; exact Hkin).
    assert (Hkw : twf k) by (rewrite Forall_forall in Hk; apply Hk; exact Hkin).
    assert (Hfk : inside f (t_f k)) by (unfold inside, t_start, t_stop in *; split; [destruct Hki, Hin; congruence|lia]).
    destruct k as [kf kk]. cbn [t_f t_kids] in *. pose proof Hkw as Hkw0. apply twf_forest in Hkw0. destruct Hkw0 as [Hkf Hkk].
    specialize (Hrec (T kf kk) Hkin Hfk Hkk). cbn [t_f t_kids] in Hrec.
    assert (Hother : forall x, In x (f_nodes l ++ f_nodes r) -> ~ crosses x f).
    { intros x Hx. rewrite <- f_nodes_app in Hx. apply In_f_nodes in Hx. destruct Hx as (t & Htin & Hx).
      assert (Htks : In t ks) by (rewrite E; apply in_app_iff; apply in_app_iff in Htin; destruct Htin; [left|right; right]; assumption).
      assert (Htw : twf t) by (rewrite Forall_forall in Hk; auto). destruct (twf_nodes t Htw x Hx) as [Hxt _].
      assert (Hap : t_stop t <= f_start kf \/ f_stop kf <= t_start t).
      { rewrite E in Hs. apply in_app_iff in Htin. destruct Htin as [Htl|Htr].
        - apply SS_app_inv in Hs. destruct Hs as (_ & _ & S3). specialize (S3 t (T kf kk) Htl (or_introl eq_refl)). destruct S3. left. assumption.
        - apply SS_app_inv in Hs. destruct Hs as (_ & S2 & _). inversion S2 as [|? ? _ S5]; subst. rewrite Forall_forall in S5. specialize (S5 t Htr). destruct S5. right. assumption. }
      unfold crosses, inside, t_start, t_stop in *. cbn [t_f] in *. lia. }
    assert (Hself : ~ crosses kf f) by (unfold crosses, inside in *; lia).
    destruct Hrec as [(Hnc & ks' & -> & Hw' & Hp)|((x & y & Hx & Hy & Hc) & ->)]; cbn [bind].
    + left. split.
      * intros x y Hx [<-|[]]. rewrite E, f_nodes_app, f_nodes_cons, t_nodes_cons in Hx. apply in_app_iff in Hx. destruct Hx as [Hx|[<-|Hx]]; [apply Hother; apply in_or_app; auto|exact Hself|].
        apply in_app_iff in Hx. destruct Hx as [Hx|Hx]; [apply Hnc; [exact Hx|left; reflexivity]|apply Hother; apply in_or_app; auto].
      * eexists. split; [reflexivity|]. split.
        -- split; [|split].
           ++ apply (SS_replace l (T kf kk)); [reflexivity|reflexivity|]. rewrite <- E. exact Hs.
           ++ rewrite E in Hi. apply Forall_app in Hi. destruct Hi as [Hi1 Hi2]. inversion Hi2; subst. apply Forall_app. split; [exact Hi1|constructor; assumption].
           ++ rewrite E in Hk. apply Forall_app in Hk. destruct Hk as [Hk1 Hk2]. inversion Hk2; subst. apply Forall_app. split; [exact Hk1|]. constructor; [apply twf_forest; auto|assumption].
        -- rewrite E, !f_nodes_app, !f_nodes_cons, !t_nodes_cons. cbn [app].
           rewrite Hp. cbn [app]. rewrite <- !Permutation_middle. cbn [app]. rewrite perm_swap. reflexivity.
    + right. split; [|reflexivity]. destruct Hy as [<-|[]]. exists x, f. split; [|split; [left; reflexivity|exact Hc]].
      rewrite E, f_nodes_app, f_nodes_cons, t_nodes_cons. apply in_or_app. right. right. apply in_or_app. left. exact Hx.
  - right. split; [|reflexivity]. exists (t_f k), f. split; [apply In_f_nodes; exists k; split; [exact Hkin|apply t_f_node]|]. split; [left; reflexivity|exact Hc].
  - (* here *)
    assert (Hmi : forall x, In x m -> inside (t_f x) f).
    { intros x Hx. assert (Hxk : In x ks) by (rewrite E; apply in_or_app; right; apply in_or_app; left; exact Hx). rewrite Forall_forall in Hi. specialize (Hi x Hxk). specialize (Hm x Hx).
      unfold inside, t_start, t_stop in *. split; [destruct Hi, Hin; congruence|lia]. }
    assert (Eb : forallb (fun k => f_fits_b (t_f k) f) m && f_fits_b f pf = true).
    { apply andb_true_iff. split; [|apply f_fits_iff; exact Hin]. apply forallb_forall. intros x Hx. apply f_fits_iff. apply Hmi. exact Hx. }
    rewrite Eb. left. split.
    + intros x y Hx [<-|[]]. rewrite E, !f_nodes_app in Hx. rewrite Forall_forall in Hk.
      apply in_app_iff in Hx. destruct Hx as [Hx|Hx]; [|apply in_app_iff in Hx; destruct Hx as [Hx|Hx]]; apply In_f_nodes in Hx; destruct Hx as (t & Htin & Hx).
      * assert (Htw : twf t) by (apply Hk; rewrite E; apply in_or_app; left; exact Htin). destruct (twf_nodes t Htw x Hx) as [Hxt _]. specialize (Hl t Htin). unfold crosses, inside, t_start, t_stop in *. lia.
      * assert (Htw : twf t) by (apply Hk; rewrite E; apply in_or_app; right; apply in_or_app; left; exact Htin). destruct (twf_nodes t Htw x Hx) as [Hxt _]. specialize (Hm t Htin). unfold crosses, inside, t_start, t_stop in *. lia.
      * assert (Htw : twf t) by (apply Hk; rewrite E; apply in_or_app; right; apply in_or_app; right; exact Htin). destruct (twf_nodes t Htw x Hx) as [Hxt _]. specialize (Hr t Htin). unfold crosses, inside, t_start, t_stop in *. lia.
    + eexists. split; [reflexivity|]. rewrite E in Hs, Hi, Hk. apply SS_app_inv in Hs. destruct Hs as (S1 & S2 & S3). apply SS_app_inv in S2. destruct S2 as (S4 & S5 & S6).
      apply Forall_app in Hi, Hk. destruct Hi as [Hi1 Hi2], Hk as [Hk1 Hk2]. apply Forall_app in Hi2, Hk2. destruct Hi2 as [Hi2 Hi3], Hk2 as [Hk2 Hk3].
      split; [split; [|split]|].
      * apply SS_app; [exact S1| |].
        -- constructor; [exact S5|]. apply Forall_forall. intros x Hx. specialize (Hr x Hx). unfold t_before, t_start, t_stop in *. cbn [t_f]. lia.
        -- intros x y Hx [<-|Hy]; [specialize (Hl x Hx); unfold t_before, t_start, t_stop in *; cbn [t_f]; lia|]. apply S3; [exact Hx|apply in_or_app; right; exact Hy].
      * apply Forall_app. split; [exact Hi1|]. constructor; assumption.
      * apply Forall_app. split; [exact Hk1|]. constructor; [|exact Hk3]. apply twf_forest. split; [exact Hf|]. split; [exact S4|]. split; [|exact Hk2].
        apply Forall_forall. exact Hmi.
      * rewrite E, !f_nodes_app, f_nodes_cons, t_nodes_cons. cbn [app]. symmetry. apply Permutation_middle.
Qed.

Lemma hfold_result pf add : forall ds ks n,
  (forall ks d, forest_wf pf ks -> twf d -> inside (t_f d) pf -> (t_size d + sizes ks < n)%nat -> hadd_result pf ks (t_nodes d) (add ks d)) ->
  forest_wf pf ks -> Forall twf ds -> Forall (fun d => inside (t_f d) pf) ds -> (sizes ds + sizes ks < n)%nat -> no_cross (f_nodes ds) (f_nodes ds) ->
  hadd_result pf ks (f_nodes ds) (hfold add ds ks).
Proof.
  induction ds as [|d ds IH]; intros ks n Hadd Hw Ht Hi Hsz Hnc; cbn [hfold].
  - left. split; [intros x y _ []|]. exists ks. split; [reflexivity|]. split; [exact Hw|reflexivity].
  - inversion Ht as [|? ? Ht1 Ht2]; subst. inversion Hi as [|? ? Hi1 Hi2]; subst. rewrite sizes_cons in Hsz.
    destruct (Hadd ks d Hw Ht1 Hi1 ltac:(lia)) as [(Hn1 & ks1 & -> & Hw1 & Hp1)|((x & y & Hx & Hy & Hc) & ->)]; cbn [bind].
    2:{ right. split; [|reflexivity]. exists x, y. split; [exact Hx|]. split; [rewrite f_nodes_cons; apply in_or_app; left; exact Hy|exact Hc]. }
    fold (hfold add).
    assert (Hsz1 : sizes ks1 = (t_size d + sizes ks)%nat) by (rewrite !sizes_nodes, t_size_nodes, <- app_length; apply Permutation_length; exact Hp1).
    assert (Hnds : no_cross (f_nodes ds) (f_nodes ds)) by (intros x y Hx Hy; apply Hnc; rewrite f_nodes_cons; apply in_or_app; right; assumption).
    destruct (IH ks1 n Hadd Hw1 Ht2 Hi2 ltac:(lia) Hnds) as [(Hn2 & ks2 & -> & Hw2 & Hp2)|((x & y & Hx & Hy & Hc) & ->)].
    + left. split.
      * intros x y Hx Hy. rewrite f_nodes_cons in Hy. apply in_app_iff in Hy. destruct Hy as [Hy|Hy]; [apply Hn1; assumption|].
        apply Hn2; [|exact Hy]. eapply Permutation_in; [symmetry; exact Hp1|]. apply in_or_app. right. exact Hx.
      * exists ks2. split; [reflexivity|]. split; [exact Hw2|]. rewrite Hp2, Hp1, f_nodes_cons, !app_assoc. apply Permutation_app_tail. apply Permutation_app_comm.
    + right. split; [|reflexivity]. assert (Hx' : In x (t_nodes d ++ f_nodes ks)) by (eapply Permutation_in; [exact Hp1|exact Hx]).
      apply in_app_iff in Hx'. destruct Hx' as [Hxd|Hxk].
      * exfalso. apply (Hnc x y); [| |exact Hc]; rewrite f_nodes_cons; apply in_or_app; [left|right]; assumption.
      * exists x, y. split; [exact Hxk|]. split; [rewrite f_nodes_cons; apply in_or_app; right; exact Hy|exact Hc].
Qed.

Lemma leaf_twf f : fwf f -> twf (T f []).
Proof. intros Hf. apply twf_forest. split; [exact Hf|]. unfold forest_wf. repeat split; constructor. Qed.
Theorem hadd_spec : forall fuel key pf ks c, forest_wf pf ks -> twf c -> inside (t_f c) pf -> (t_size c + sizes ks < fuel)%nat ->
  hadd_result pf ks (t_nodes c) (hadd fuel key pf ks c).
Proof.
  induction fuel as [|n IH]; intros key pf ks c Hw Hc Hin Hsz; [lia|]. cbn [hadd].
  destruct ks as [|k0 ks0].
  - assert (E : f_fits_b (t_f c) pf = true) by (apply f_fits_iff; exact Hin). rewrite E. left. split; [intros x y []|]. exists [c]. split; [reflexivity|]. split.
    + split; [constructor; [constructor|constructor]|]. split; constructor; auto.
    + unfold f_nodes. cbn [flat_map]. reflexivity.
  - set (ks := k0 :: ks0) in *. destruct c as [f ts]. cbn [t_kids t_f] in *. rewrite t_size_T in Hsz. pose proof Hc as Hc0. apply twf_forest in Hc0. destruct Hc0 as (Hf & Hts).
    pose proof Hts as (_ & Htsi & Htst).
    assert (Hrevin : forall P : tree -> Prop, Forall P ts -> Forall P (rev ts)) by (intros P HP; apply Forall_rev; exact HP).
    assert (Hsr : sizes (rev ts) = sizes ts) by (rewrite !sizes_nodes; apply Permutation_length, f_nodes_rev).
    assert (Hnr : no_cross (f_nodes (rev ts)) (f_nodes (rev ts))).
    { intros x y Hx Hy. apply (forest_no_cross f ts Hts); (eapply Permutation_in; [apply f_nodes_rev|]); assumption. }
    destruct (hfold_result pf (fun ks d => hadd n key pf ks d) (rev ts) ks n) as [(Hn1 & ks1 & E1 & Hw1 & Hp1)|((x & y & Hx & Hy & Hcr) & E1)].
    + intros ks' d Hw' Hd Hdi Hdn. apply IH; assumption.
    + exact Hw.
    + apply Hrevin. exact Htst.
    + apply Hrevin. eapply Forall_impl; [|exact Htsi]. intros t Ht. exact (inside_trans _ _ _ Ht Hin).
    + lia.
    + exact Hnr.
    + rewrite E1. cbn [bind]. rewrite f_nodes_rev in Hp1.
      assert (Hsz1 : sizes ks1 = (sizes ts + sizes ks)%nat) by (rewrite !sizes_nodes, <- app_length; apply Permutation_length; exact Hp1).
      destruct (hplace_result key (fun kf kk f => hadd n key kf kk (T f [])) pf ks1 f Hw1 Hf Hin) as [(Hn2 & ks2 & -> & Hw2 & Hp2)|((x & y & Hx & Hy & Hcr) & ->)].
      * intros k Hk Hfk Hkw. change [f] with (t_nodes (T f [])); apply IH; [exact Hkw|apply leaf_twf; exact Hf|exact Hfk|].
        apply in_split in Hk. destruct Hk as (l & r & El). rewrite El, sizes_app, sizes_cons in Hsz1. destruct k as [kf kk]. rewrite t_size_T in *. cbn [t_kids] in *. change (sizes []) with 0%nat. lia.
      * left. split.
        -- intros x y Hx Hy. rewrite t_nodes_cons in Hy. destruct Hy as [<-|Hy].
           ++ apply Hn2; [|left; reflexivity]. eapply Permutation_in; [symmetry; exact Hp1|]. apply in_or_app. right. exact Hx.
           ++ apply Hn1; [exact Hx|]. eapply Permutation_in; [symmetry; apply f_nodes_rev|exact Hy].
        -- exists ks2. split; [reflexivity|]. split; [exact Hw2|]. rewrite Hp2, Hp1, t_nodes_cons. reflexivity.
      * right. split; [|reflexivity]. destruct Hy as [<-|[]]. assert (Hx' : In x (f_nodes ts ++ f_nodes ks)) by (eapply Permutation_in; [exact Hp1|exact Hx]).
        apply in_app_iff in Hx'. destruct Hx' as [Hx'|Hx'].
        -- exfalso. apply (twf_no_cross _ Hc x f); [right; exact Hx'|left; reflexivity|exact Hcr].
        -- exists x, f. split; [exact Hx'|]. split; [left; reflexivity|exact Hcr].
    + rewrite E1. cbn [bind]. right. split; [|reflexivity]. exists x, y. split; [exact Hx|]. split; [|exact Hcr]. right. eapply Permutation_in; [apply f_nodes_rev|exact Hy].
Qed.
