(** Lemmas about the axes. *)
From Verif Require Export SpecAxis CombinFacts3 HierHeap3.

Lemma SS_rev {A} (R : A -> A -> Prop) l : StronglySorted R l -> StronglySorted (fun a b => R b a) (rev l).
Proof.
  induction 1 as [|a l Hs IH Hf]; cbn [rev]; [constructor|]. apply SS_app; [exact IH|repeat constructor|].
  intros x y Hx [<-|[]]. rewrite Forall_forall in Hf. apply Hf. apply in_rev. exact Hx.
Qed.
Lemma SS_filter {A} (R : A -> A -> Prop) f l : StronglySorted R l -> StronglySorted R (filter f l).
Proof.
  induction 1 as [|a l Hs IH Hf]; cbn [filter]; [constructor|]. destruct (f a); [|exact IH]. constructor; [exact IH|].
  apply Forall_forall. intros x Hx. apply filter_In in Hx. rewrite Forall_forall in Hf. apply Hf. tauto.
Qed.
Lemma filter_rev {A} (f : A -> bool) l : filter f (rev l) = rev (filter f l).
Proof. induction l as [|x l IH]; [reflexivity|]. cbn [rev filter]. rewrite filter_app, IH. cbn [filter]. destruct (f x); [reflexivity|apply app_nil_r]. Qed.
Lemma drop_while_filter {A} (f : A -> bool) l : StronglySorted (fun a b => f b = true -> f a = true) l -> drop_while_l f l = filter (fun x => negb (f x)) l.
Proof.
  induction 1 as [|a l Hs IH Hf]; [reflexivity|]. cbn [drop_while_l filter]. destruct (f a) eqn:E; cbn [negb]; [exact IH|].
  f_equal. symmetry. rewrite Forall_forall in Hf. clear Hs IH. induction l as [|b l IH]; [reflexivity|]. cbn [filter].
  destruct (f b) eqn:E2; [pose proof (Hf b (or_introl eq_refl) E2); congruence|]. cbn [negb]. f_equal. apply IH. intros x Hx. apply Hf. right. exact Hx.
Qed.
Lemma take_while_filter {A} (f : A -> bool) l : StronglySorted (fun a b => f b = true -> f a = true) l -> take_while_l f l = filter f l.
Proof.
  induction 1 as [|a l Hs IH Hf]; [reflexivity|]. cbn [take_while_l filter]. destruct (f a) eqn:E; [f_equal; exact IH|].
  rewrite Forall_forall in Hf. clear Hs IH. induction l as [|b l IH]; [reflexivity|]. cbn [filter].
  destruct (f b) eqn:E2; [pose proof (Hf b (or_introl eq_refl) E2); congruence|]. apply IH. intros x Hx. apply Hf. right. exact Hx.
Qed.
Lemma take_while_split l1 i l2 : ~ In i l1 -> take_while_l (fun j => negb (j =? i)%nat) (l1 ++ i :: l2) = l1.
Proof.
  induction l1 as [|x l1 IH]; cbn [app take_while_l]; intros N.
  - rewrite Nat.eqb_refl. reflexivity.
  - destruct (Nat.eqb_spec x i) as [E|E]; [subst; exfalso; apply N; left; reflexivity|]. cbn [negb]. f_equal. apply IH. intros Hx. apply N. right. exact Hx.
Qed.
Lemma drop_while_split l1 i l2 : ~ In i l1 -> drop_while_l (fun j => negb (j =? i)%nat) (l1 ++ i :: l2) = i :: l2.
Proof.
  induction l1 as [|x l1 IH]; cbn [app drop_while_l]; intros N.
  - rewrite Nat.eqb_refl. reflexivity.
  - destruct (Nat.eqb_spec x i) as [E|E]; [subst; exfalso; apply N; left; reflexivity|]. cbn [negb]. apply IH. intros Hx. apply N. right. exact Hx.
Qed.

(** ** document order *)
Lemma kids_par h p c : hwf h -> In c (n_kids (nd h p)) -> n_par (nd h c) = Some p.
Proof. intros H Hc. apply (hwf_kid h H) in Hc. tauto. Qed.
Lemma sib_mem h p l x m y r : n_kids (nd h p) = l ++ x :: m ++ y :: r -> In x (n_kids (nd h p)) /\ In y (n_kids (nd h p)).
Proof. intros E. rewrite E. split; apply in_or_app; right; [left; reflexivity|]. right. apply in_or_app. right. left. reflexivity. Qed.
Lemma soa_anc h p x a : n_par (nd h x) = Some p -> self_or_anc h x a -> anc h p a.
Proof. intros Hx [->|Ha]; [apply anc_parent; exact Hx|]. eapply anc_trans; [apply anc_parent; exact Hx|exact Ha]. Qed.
Lemma under_same h x y p a : hwf h -> acyclic h -> n_par (nd h x) = Some p -> n_par (nd h y) = Some p -> self_or_anc h x a -> self_or_anc h y a -> x = y.
Proof.
  intros H Ha Hx Hy Ax Ay. destruct (Nat.eq_dec x y) as [E|E]; [exact E|exfalso].
  pose proof (proj1 (hwf_par h H p x Hx)) as Ix. pose proof (proj1 (hwf_par h H p y Hy)) as Iy.
  apply in_split in Ix. destruct Ix as (l & r & Ek). rewrite Ek in Iy. apply in_app_or in Iy. destruct Iy as [Iy|[Iy|Iy]]; [| congruence|].
  - apply in_split in Iy. destruct Iy as (l1 & l2 & ->). rewrite <- app_assoc in Ek. cbn [app] in Ek. exact (kids_disjoint h H Ha p _ _ _ _ _ a Ek Ay Ax).
  - apply in_split in Iy. destruct Iy as (l1 & l2 & ->). exact (kids_disjoint h H Ha p _ _ _ _ _ a Ek Ax Ay).
Qed.
Lemma anc_child h a j : anc h a j -> exists c, n_par (nd h c) = Some a /\ self_or_anc h c j.
Proof.
  induction 1 as [j Hj|j q Hj Hq IH]; [exists j; split; [exact Hj|left; reflexivity]|]. destruct IH as (c & Hc & S). exists c. split; [exact Hc|].
  right. destruct S as [->|S]; [apply anc_parent; exact Hj|eapply anc_up; eassumption].
Qed.
Lemma NoDup_order (l : list nat) : NoDup l -> forall a1 x b1 y c1 a2 b2 c2, l = a1 ++ x :: b1 ++ y :: c1 -> l = a2 ++ y :: b2 ++ x :: c2 -> False.
Proof.
  induction 1 as [|z l Hz Hn IH]; intros a1 x b1 y c1 a2 b2 c2 E1 E2.
  - destruct a1; discriminate.
  - destruct a1 as [|u a1], a2 as [|v a2]; cbn [app] in E1, E2; injection E1 as E1a E1b; injection E2 as E2a E2b.
    + apply Hz. rewrite E1b. apply in_or_app. right. left. congruence.
    + apply Hz. rewrite E2b. apply in_or_app. right. right. apply in_or_app. right. left. congruence.
    + apply Hz. rewrite E1b. apply in_or_app. right. right. apply in_or_app. right. left. congruence.
    + eapply IH; eassumption.
Qed.
Lemma doc_asym h : hwf h -> acyclic h -> forall a b, doc_before h a b -> doc_before h b a -> False.
Proof.
  intros H Ha.
  assert (G : forall a b p l x m y r, n_kids (nd h p) = l ++ x :: m ++ y :: r -> self_or_anc h x b -> self_or_anc h y a -> anc h a b -> False).
  { intros a b p l x m y r Ek Hx Hy Hab. refine (kids_disjoint h H Ha p l x m y r b Ek Hx _). right. destruct Hy as [->|Hy]; [exact Hab|eapply anc_trans; eassumption]. }
  intros a b [Hab|(p & l & x & m & y & r & Ek & Hx & Hy)] [Hba|(q & l' & x' & m' & y' & r' & Ek' & Hx' & Hy')].
  - apply (Ha a). eapply anc_trans; eassumption.
  - eapply G; [exact Ek'|exact Hx'|exact Hy'|exact Hab].
  - eapply G; [exact Ek|exact Hx|exact Hy|exact Hba].
  - pose proof (sib_mem _ _ _ _ _ _ _ Ek) as [Ix Iy]. pose proof (sib_mem _ _ _ _ _ _ _ Ek') as [Ix' Iy'].
    pose proof (kids_par _ _ _ H Ix) as Px. pose proof (kids_par _ _ _ H Iy) as Py. pose proof (kids_par _ _ _ H Ix') as Px'. pose proof (kids_par _ _ _ H Iy') as Py'.
    assert (Apa : anc h p a) by (eapply soa_anc; [exact Px|exact Hx]). assert (Aqa : anc h q a) by (eapply soa_anc; [exact Py'|exact Hy']).
    destruct (anc_comparable h p q a Apa Aqa) as [E|[E|E]].
    + subst q. assert (Ex : x = y') by exact (under_same h x y' p a H Ha Px Py' Hx Hy'). assert (Ey : y = x') by exact (under_same h y x' p b H Ha Py Px' Hy Hx'). rewrite <- Ex, <- Ey in Ek'.
      exact (NoDup_order _ (kids_sorted_NoDup h _ (hwf_sorted h H p)) _ _ _ _ _ _ _ _ Ek Ek').
    + destruct (anc_child h p q E) as (c & Pc & Sc).
      assert (Sa : self_or_anc h c a) by (destruct Sc as [->|Sc]; right; [exact Aqa|eapply anc_trans; eassumption]).
      assert (Aqb : anc h q b) by (eapply soa_anc; [exact Px'|exact Hx']).
      assert (Sb : self_or_anc h c b) by (destruct Sc as [->|Sc]; right; [exact Aqb|eapply anc_trans; eassumption]).
      assert (Ec : c = x) by exact (under_same h c x p a H Ha Pc Px Sa Hx). rewrite Ec in Sb. exact (kids_disjoint h H Ha p _ _ _ _ _ b Ek Sb Hy).
    + destruct (anc_child h q p E) as (c & Pc & Sc).
      assert (Sa : self_or_anc h c a) by (destruct Sc as [->|Sc]; right; [exact Apa|eapply anc_trans; eassumption]).
      assert (Apb : anc h p b) by (eapply soa_anc; [exact Py|exact Hy]).
      assert (Sb : self_or_anc h c b) by (destruct Sc as [->|Sc]; right; [exact Apb|eapply anc_trans; eassumption]).
      assert (Ec : c = x') by exact (under_same h c x' q b H Ha Pc Px' Sb Hx'). rewrite Ec in Sa. exact (kids_disjoint h H Ha q _ _ _ _ _ a Ek' Sa Hy').
Qed.
Lemma soa_span h x a : hwf h -> self_or_anc h x a -> h_start h x <= h_start h a /\ h_stop h a <= h_stop h x.
Proof. intros H [->|A]; [lia|]. apply (anc_span h x a H) in A. destruct A as (_ & A). lia. Qed.
Lemma hwf_le h i : hwf h -> h_start h i <= h_stop h i.
Proof. intros H. pose proof (hwf_span h H i) as F. unfold fwf in F. unfold h_start, h_stop. lia. Qed.
Lemma sib_spans h p l x m y r a b : hwf h -> n_kids (nd h p) = l ++ x :: m ++ y :: r -> self_or_anc h x a -> self_or_anc h y b -> h_stop h a <= h_start h b.
Proof.
  intros H Ek Hx Hy. pose proof (hwf_sorted h H p) as S. unfold kids_sorted in S. rewrite Ek in S. apply SS_app_inv in S. destruct S as (_ & S & _).
  inversion S as [|? ? _ F]; subst. rewrite Forall_forall in F. pose proof (F y (in_or_app m (y :: r) y (or_intror (or_introl eq_refl)))) as [_ B].
  apply (soa_span h _ _ H) in Hx, Hy. lia.
Qed.
Lemma doc_start h a b : hwf h -> doc_before h a b -> h_start h a <= h_start h b.
Proof.
  intros H [A|(p & l & x & m & y & r & Ek & Hx & Hy)]; [apply (anc_span h a b H) in A; destruct A as (_ & A); lia|].
  pose proof (sib_spans h p l x m y r a b H Ek Hx Hy). pose proof (hwf_le h a H). lia.
Qed.
Lemma doc_before_root h a b : hwf h -> doc_before h a b -> forall r, root_of h r b -> self_or_anc h r a.
Proof.
  intros H D r [Pr Rb].
  assert (N : forall q, anc h q r -> False) by (intros q A; apply anc_up_inv in A; destruct A as (? & E & _); congruence).
  destruct D as [A|(p & l & x & m & y & r0 & Ek & Hx & Hy)].
  - destruct Rb as [->|Rb]; [destruct (N a A)|]. destruct (anc_comparable h a r b A Rb) as [E|[E|E]]; [left; exact E|destruct (N _ E)|right; exact E].
  - pose proof (sib_mem _ _ _ _ _ _ _ Ek) as [Ix Iy]. pose proof (soa_anc h p x a (kids_par _ _ _ H Ix) Hx) as Aa. pose proof (soa_anc h p y b (kids_par _ _ _ H Iy) Hy) as Ab.
    right. destruct Rb as [->|Rb]; [destruct (N _ Ab)|]. destruct (anc_comparable h p r b Ab Rb) as [<-|[E|E]]; [exact Aa|destruct (N _ E)|eapply anc_trans; eassumption].
Qed.

(** ** the upward loop *)
Lemma anc_list_aux h : hwf h -> acyclic h -> forall fuel i vs, (i < length h)%nat -> NoDup vs -> Forall (fun v => anc h i v) vs ->
  (length h <= fuel + length vs)%nat -> exists l, anc_list (S fuel) h i = Ok l /\ (forall j, In j l <-> anc h j i) /\
    StronglySorted (fun a b => anc h b a) l /\ root_of h (last l i) i.
Proof.
  intros H Ha. induction fuel as [|fuel IH]; intros i vs Hi Hnd Hvs Hlen.
  - exfalso. assert (L : (length (i :: vs) <= length h)%nat).
    { rewrite <- (seq_length (length h) 0). apply NoDup_incl_length.
      - constructor; [|exact Hnd]. intros Hin. rewrite Forall_forall in Hvs. exact (Ha i (Hvs i Hin)).
      - intros v [<-|Hv]; apply in_seq; [lia|]. rewrite Forall_forall in Hvs. apply Hvs in Hv. apply (anc_bound h i v H) in Hv. lia. }
    cbn [length] in *. lia.
  - cbn [anc_list]. destruct (n_par (nd h i)) as [p|] eqn:Ep.
    + destruct (IH p (i :: vs)) as (l & E & S1 & S2 & R).
      * exact (proj2 (hwf_par h H p i Ep)).
      * constructor; [|exact Hnd]. intros Hin. rewrite Forall_forall in Hvs. exact (Ha i (Hvs i Hin)).
      * constructor; [apply anc_parent; exact Ep|]. eapply Forall_impl; [|exact Hvs]. intros v Hv. eapply anc_trans; [apply anc_parent; exact Ep|exact Hv].
      * cbn [length]. lia.
      * cbn [anc_list] in E. rewrite E. cbn [bind]. exists (p :: l). split; [reflexivity|]. split; [|split].
        { intros j. cbn [In]. rewrite S1. split.
          - intros [<-|A]; [apply anc_parent; exact Ep|eapply anc_up; eassumption].
          - intros A. apply anc_up_inv in A. destruct A as (q & Eq & A). rewrite Ep in Eq. injection Eq as <-. destruct A as [->|A]; auto. }
        { constructor; [exact S2|]. apply Forall_forall. intros j Hj. apply S1. exact Hj. }
        replace (last (p :: l) i) with (last l p) by (destruct l as [|z l]; [reflexivity|]; clear; cbn; revert z; induction l as [|w l IHl]; intros z; [reflexivity|apply IHl]).
        destruct R as [R1 R2]. split; [exact R1|]. right. destruct R2 as [->|R2]; [apply anc_parent; exact Ep|eapply anc_up; eassumption].
    + exists []. split; [reflexivity|]. split; [|split; [constructor|]].
      * intros j. split; [intros []|]. intros A. apply anc_up_inv in A. destruct A as (? & E & _). congruence.
      * split; [exact Ep|left; reflexivity].
Qed.
Lemma anc_list_spec h i : hwf h -> acyclic h -> (i < length h)%nat ->
  exists l, anc_list (depth_fuel h) h i = Ok l /\ (forall j, In j l <-> anc h j i) /\ StronglySorted (fun a b => anc h b a) l /\ root_of h (last l i) i.
Proof. intros H Ha Hi. apply (anc_list_aux h H Ha (length h) i []); auto; [constructor|cbn; lia]. Qed.
Lemma walk_gen h i : hwf h -> acyclic h -> (i < length h)%nat ->
  exists l, walk h i false = (l, None) /\ walk h i true = (rev l, None) /\ NoDup l /\ (forall j, In j l <-> anc h i j) /\ StronglySorted (doc_before h) l.
Proof.
  intros H Ha Hi. destruct (walk_total h i 0 H Ha Hi) as (l & W1 & W2 & N & S1 & S2). exists (map snd l). unfold walk. rewrite W1, W2. cbn [bind gen_of_res].
  rewrite map_rev. split; [reflexivity|]. split; [reflexivity|]. split; [exact N|]. split; [|exact S2]. intros j. rewrite in_map_iff. split.
  - intros ([k x] & E & Hx). cbn in E. subst x. apply S1 in Hx. destruct Hx as (n & B & _). eapply below_anc; exact B.
  - intros A. destruct (anc_below h i j A) as (n & B). exists (0 + Z.of_nat n, j). split; [reflexivity|]. apply S1. eauto.
Qed.
