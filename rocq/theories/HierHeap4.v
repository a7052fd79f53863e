(** Proofs: flattening, and the refinement theorem. *)
From Verif Require Export HierHeap3.
From Coq Require Import Arith.

Lemma frame_rev h h' p c : hwf h -> acyclic h -> n_par (nd h c) = None -> c <> p -> ~ anc h c p ->
  n_par (nd h' p) = n_par (nd h p) ->
  (forall j, j <> p -> ~ anc h p j -> j <> c -> ~ anc h c j -> nd h' j = nd h j) ->
  forall j, anc h' p j -> anc h p j \/ j = c \/ anc h c j.
Proof.
  intros H Ha Nc Hne Hn P F.
  assert (G : forall j q, n_par (nd h' j) = Some q -> (q = p \/ anc h p q \/ q = c \/ anc h c q) -> anc h p j \/ j = c \/ anc h c j).
  { intros j q Hj Hq. destruct (Nat.eq_dec j p) as [->|Hjp].
    - exfalso. rewrite P in Hj. destruct Hq as [->|[Hq|[->|Hq]]].
      + apply (Ha p). apply anc_parent. exact Hj.
      + apply (Ha p). eapply anc_down; eassumption.
      + apply Hn. apply anc_parent. exact Hj.
      + apply Hn. eapply anc_down; eassumption.
    - destruct (anc_dec h p j H Ha) as [|N1]; [auto|]. destruct (Nat.eq_dec j c) as [|N2]; [auto|]. destruct (anc_dec h c j H Ha) as [|N3]; [auto|].
      exfalso. rewrite F in Hj by assumption. destruct Hq as [->|[Hq|[->|Hq]]].
      + apply N1. apply anc_parent. exact Hj.
      + apply N1. eapply anc_down; eassumption.
      + apply N3. apply anc_parent. exact Hj.
      + apply N3. eapply anc_down; eassumption. }
  intros j Hj. induction Hj as [j Hj|j q Hj Hq IH]; eapply G; eauto.
Qed.
Lemma post_up h h' p c ts a : hwf h -> acyclic h -> n_par (nd h c) = None -> c <> p -> ~ anc h c p -> post h h' p c ts -> anc h' a p -> anc h a p.
Proof.
  intros H Ha Nc Hne Hn Po. assert (G : forall x, anc h' a x -> x = p \/ anc h x p -> anc h a x).
  { intros x Hx. induction Hx as [x Hx|x q Hx Hq IH]; intros Hxp.
    - assert (E : n_par (nd h' x) = n_par (nd h x)).
      { destruct Hxp as [->|Hxp]; [apply (post_par _ _ _ _ _ Po)|]. rewrite (post_frame _ _ _ _ _ Po x); [reflexivity| | | |].
        - intros ->. exact (Ha p Hxp).
        - intros X. apply (Ha p). eapply anc_trans; eassumption.
        - intros ->. contradiction.
        - intros X. apply Hn. eapply anc_trans; eassumption. }
      apply anc_parent. congruence.
    - assert (E : n_par (nd h' x) = n_par (nd h x)).
      { destruct Hxp as [->|Hxp]; [apply (post_par _ _ _ _ _ Po)|]. rewrite (post_frame _ _ _ _ _ Po x); [reflexivity| | | |].
        - intros ->. exact (Ha p Hxp).
        - intros X. apply (Ha p). eapply anc_trans; eassumption.
        - intros ->. contradiction.
        - intros X. apply Hn. eapply anc_trans; eassumption. }
      rewrite E in Hx. apply (anc_up _ _ _ q); [exact Hx|]. apply IH. right. destruct Hxp as [->|Hxp]; [apply anc_parent; exact Hx|]. eapply anc_trans; [apply anc_parent; exact Hx|exact Hxp]. }
  intros X. apply G; auto.
Qed.

Record fpost (h h' : heap) (p c : nat) (ts' : list tree) : Prop := {
  fpost_wf : hwf h'; fpost_ac : acyclic h'; fpost_len : length h' = length h;
  fpost_f : forall j, n_f (nd h' j) = n_f (nd h j);
  fpost_par : n_par (nd h' p) = n_par (nd h p);
  fpost_root : n_par (nd h' c) = None; fpost_kids : n_kids (nd h' c) = [];
  fpost_frame : forall j, j <> p -> ~ anc h p j -> j <> c -> ~ anc h c j -> nd h' j = nd h j;
  fpost_anc : forall j, anc h p j \/ anc h c j -> anc h' p j;
  fpost_rep : Forall2 (rep h') ts' (n_kids (nd h' p)) }.

Lemma nd_eq h h' j : n_f (nd h' j) = n_f (nd h j) -> n_par (nd h' j) = n_par (nd h j) -> n_kids (nd h' j) = n_kids (nd h j) -> nd h' j = nd h j.
Proof. destruct (nd h' j), (nd h j). cbn. congruence. Qed.
Lemma py_index_last {A} (l : list A) d : py_index (l ++ [d]) (-1) = Ok d.
Proof.
  unfold py_index, zget, zlen. rewrite app_length. cbn [length]. change (-1 <? 0) with true. cbv iota.
  replace (-1 + Z.of_nat (length l + 1)) with (Z.of_nat (length l)) by lia. destruct (Z.ltb_spec (Z.of_nat (length l)) 0); [lia|].
  rewrite Nat2Z.id, nth_error_app2 by lia. rewrite Nat.sub_diag. reflexivity.
Qed.

(** taking the last child d off c *)
Section Pop.
  Variables (h : heap) (p c d : nat) (l : list nat) (ts cts : list tree) (dt : tree).
  Hypothesis Pre : pre h p c ts.
  Hypothesis Ek : n_kids (nd h c) = l ++ [d].
  Hypothesis Rl : Forall2 (rep h) cts l.
  Hypothesis Rd : rep h dt d.
  Let h1 := without h c d.
  Local Lemma pop_in : In d (n_kids (nd h c)).
  Proof. rewrite Ek. apply in_or_app. right. left. reflexivity. Qed.
  Local Lemma pop_dpar : n_par (nd h d) = Some c.
  Proof. apply (kid_par h c d (pre_wf _ _ _ _ Pre) pop_in). Qed.
  Local Lemma pop_nodup : ~ In d l.
  Proof. pose proof (kids_nodup h _ (hwf_sorted h (pre_wf _ _ _ _ Pre) c)) as Hn. rewrite Ek in Hn. apply NoDup_remove_2 in Hn. rewrite app_nil_r in Hn. exact Hn. Qed.
  Lemma pop_facts : hwf h1 /\ acyclic h1 /\ length h1 = length h /\ (forall j, n_f (nd h1 j) = n_f (nd h j)) /\
    (forall j, n_par (nd h1 j) = if (j =? d)%nat then None else n_par (nd h j)) /\
    (forall j, n_kids (nd h1 j) = if (j =? c)%nat then l else n_kids (nd h j)).
  Proof.
    destruct (without_facts h c d (pre_wf _ _ _ _ Pre) pop_in) as (W & L & D & P & K). fold h1 in W, L, D, P, K. split; [exact W|]. split; [|split; [exact L|split; [exact D|split; [exact P|]]]].
    - apply (acyclic_mono h); [|exact (pre_ac _ _ _ _ Pre)]. intros j q. rewrite P. destruct (j =? d)%nat; [discriminate|auto].
    - intros j. rewrite K. destruct (j =? c)%nat; [|reflexivity]. rewrite Ek, filter_app, (filter_not_in d l pop_nodup). cbn [filter]. rewrite Nat.eqb_refl. cbn [negb]. apply app_nil_r.
  Qed.
  Lemma pop_anc_mono a j : anc h1 a j -> anc h a j.
  Proof.
    destruct pop_facts as (_ & _ & _ & _ & P & _). intros X. induction X as [j Hj|j q Hj Hq IH]; rewrite P in Hj; destruct (j =? d)%nat; try discriminate; [apply anc_parent; exact Hj|eapply anc_up; eassumption].
  Qed.
  Lemma pop_dp : d <> p.
  Proof. intros E. apply (pre_nanc _ _ _ _ Pre). apply anc_parent. rewrite <- E. apply pop_dpar. Qed.
  Lemma pop_dc : d <> c.
  Proof. intros E. pose proof pop_dpar as X. rewrite E in X. rewrite (pre_root _ _ _ _ Pre) in X. discriminate. Qed.
  Lemma pop_pre : pre h1 p d ts.
  Proof.
    destruct pop_facts as (W & A & L & D & P & K). pose proof Pre as [H Ha Hp Hc Hne Nc Hn Fi R]. constructor; auto.
    - lia.
    - rewrite L. pose proof (hwf_kid h H c d pop_in). tauto.
    - apply pop_dp.
    - rewrite P, Nat.eqb_refl. reflexivity.
    - intros X. apply pop_anc_mono in X. apply Hn. eapply anc_trans; [apply anc_parent; apply pop_dpar|exact X].
    - apply (data_fits h); [apply D|apply D|]. pose proof (hwf_kid h H c d pop_in) as (_ & Fd & _). unfold fits in *. destruct Fi as (F1 & F2 & F3), Fd as (F4 & F5 & F6). split; [congruence|lia].
    - rewrite K. destruct (Nat.eqb_spec p c); [congruence|].
      assert (G : forall ts' ks, Forall2 (rep h) ts' ks -> (forall x, In x ks -> In x (n_kids (nd h p))) -> Forall2 (rep h1) ts' ks).
      { intros ts' ks F. induction F as [|t x ts' ks Ht F IH]; intros Hin; constructor; [|apply IH; intros; apply Hin; right; assumption].
        apply (rep_frame h h1 H t x Ht). intros j Hj. split; [apply D|]. rewrite K. destruct (Nat.eqb_spec j c) as [Ejc|]; [|reflexivity]. exfalso.
        pose proof (kid_par h p x H (Hin x (or_introl eq_refl))) as Px. destruct Hj as [Hj|Hj]; [congruence|]. rewrite Ejc in Hj. apply anc_up_inv in Hj. destruct Hj as (q & E & _). congruence. }
      apply G; auto.
  Qed.
  Lemma pop_rep_d : rep h1 dt d.
  Proof.
    destruct pop_facts as (W & A & L & D & P & K). pose proof Pre as [H Ha Hp Hc Hne Nc Hn Fi R].
    apply (rep_frame h h1 H dt d Rd). intros j Hj. split; [apply D|]. rewrite K. destruct (Nat.eqb_spec j c) as [Ejc|]; [|reflexivity]. exfalso.
    destruct Hj as [Hj|Hj]; [apply pop_dc; congruence|]. rewrite Ejc in Hj. apply anc_up_inv in Hj. destruct Hj as (q & E & _). congruence.
  Qed.
  Lemma pop_rep_l : Forall2 (rep h1) cts l.
  Proof.
    destruct pop_facts as (W & A & L & D & P & K). pose proof Pre as [H Ha Hp Hc Hne Nc Hn Fi R].
    assert (G : forall ts' ks, Forall2 (rep h) ts' ks -> (forall x, In x ks -> In x l) -> Forall2 (rep h1) ts' ks).
    { intros ts' ks F. induction F as [|t x ts' ks Ht F IH]; intros Hin; constructor; [|apply IH; intros; apply Hin; right; assumption].
      apply (rep_frame h h1 H t x Ht). intros j Hj. split; [apply D|]. rewrite K. destruct (Nat.eqb_spec j c) as [Ejc|]; [|reflexivity]. exfalso.
      assert (Hx : In x (n_kids (nd h c))) by (rewrite Ek; apply in_or_app; left; apply Hin; left; reflexivity).
      pose proof (kid_par h c x H Hx) as Px. destruct Hj as [Hj|Hj]; [congruence|]. rewrite Ejc in Hj. apply anc_up_inv in Hj. destruct Hj as (q & E & _). congruence. }
    apply G; auto.
  Qed.
  (** afterwards d hangs under p; the rest of c is untouched *)
  Variables (h2 : heap) (ts1 : list tree).
  Hypothesis Po : post h1 h2 p d ts1.
  Local Lemma pop_c_root : n_par (nd h1 c) = None.
  Proof. destruct pop_facts as (_ & _ & _ & _ & P & _). rewrite P. destruct (c =? d)%nat; [reflexivity|exact (pre_root _ _ _ _ Pre)]. Qed.
  Local Lemma pop_under_c j : anc h1 c j -> nd h2 j = nd h1 j.
  Proof.
    intros Hj. pose proof Pre as [H Ha Hp Hc Hne Nc Hn Fi R]. pose proof pop_pre as [H1 Ha1 _ _ Hdp Nd Hnd _ _].
    assert (N1 : ~ anc h1 c p) by (intros X; apply Hn; apply pop_anc_mono; exact X).
    apply (post_frame _ _ _ _ _ Po).
    - intros ->. contradiction.
    - intros X. destruct (apart h1 p c j pop_c_root Hne N1 X) as [_ Y]. contradiction.
    - destruct (apart h1 c d j Nd pop_dc) with (2 := Hj) as [Y _]; [|exact Y]. intros X. apply anc_up_inv in X. destruct X as (q & E & _). rewrite pop_c_root in E. discriminate.
    - destruct (apart h1 c d j Nd pop_dc) with (2 := Hj) as [_ Y]; [|exact Y]. intros X. apply anc_up_inv in X. destruct X as (q & E & _). rewrite pop_c_root in E. discriminate.
  Qed.
  Lemma pop_c_same : nd h2 c = nd h1 c.
  Proof.
    pose proof Pre as [H Ha Hp Hc Hne Nc Hn Fi R]. apply (post_frame _ _ _ _ _ Po); [exact Hne| |intros E; exact (pop_dc (eq_sym E))|];
      intros X; apply anc_up_inv in X; destruct X as (q & E & _); rewrite pop_c_root in E; discriminate.
  Qed.
  Lemma pop_nanc2 : ~ anc h2 c p.
  Proof.
    pose proof pop_pre as [H1 Ha1 _ _ Hdp Nd Hnd _ _]. intros X. apply (post_up h1 h2 p d ts1 c H1 Ha1 Nd Hdp Hnd Po) in X. apply (pre_nanc _ _ _ _ Pre). apply pop_anc_mono. exact X.
  Qed.
  Lemma pop_pre2 : pre h2 p c ts1.
  Proof.
    destruct pop_facts as (W & A & L & D & P & K). pose proof Pre as [H Ha Hp Hc Hne Nc Hn Fi R]. pose proof Po as [W2 A2 L2 D2 P2 F2 An2 R2].
    constructor; auto; try lia.
    - rewrite pop_c_same. apply pop_c_root.
    - apply pop_nanc2.
    - apply (data_fits h); [rewrite D2; apply D|rewrite D2; apply D|exact Fi].
  Qed.
  Lemma pop_kids2 : n_kids (nd h2 c) = l.
  Proof. destruct pop_facts as (W & A & L & D & P & K). rewrite pop_c_same, K, Nat.eqb_refl. reflexivity. Qed.
  Lemma pop_rep2 : Forall2 (rep h2) cts l.
  Proof.
    destruct pop_facts as (W & A & L & D & P & K).
    assert (G : forall ts' ks, Forall2 (rep h1) ts' ks -> (forall x, In x ks -> In x l) -> Forall2 (rep h2) ts' ks).
    { intros ts' ks F. induction F as [|t x ts' ks Ht F IH]; intros Hin; constructor; [|apply IH; intros; apply Hin; right; assumption].
      apply (rep_frame h1 h2 W t x Ht). intros j Hj.
      assert (Px : n_par (nd h1 x) = Some c) by (apply (kid_par h1 c x W); rewrite K, Nat.eqb_refl; apply Hin; left; reflexivity).
      rewrite pop_under_c; [auto|]. destruct Hj as [->|Hj]; [apply anc_parent; exact Px|]. eapply anc_trans; [apply anc_parent; exact Px|exact Hj]. }
    apply G; [exact pop_rep_l|auto].
  Qed.
  Lemma pop_anc_c2 j : anc h2 c j -> anc h c j.
  Proof.
    destruct pop_facts as (W & A & L & D & P & K). pose proof pop_pre as [H1 Ha1 _ _ Hdp Nd Hnd _ _]. pose proof Po as [W2 A2 L2 D2 P2 F2 An2 R2]. pose proof pop_pre2 as [_ _ _ _ Hne2 Nc2 Hn2 _ _].
    intros X. apply pop_anc_mono. induction X as [j Hj|j q Hj Hq IH].
    - apply (hwf_par h2 W2) in Hj. destruct Hj as [Hj _]. rewrite pop_c_same in Hj. apply anc_parent. apply (kid_par h1 c j W Hj).
    - apply (anc_up _ _ _ q); [|exact IH]. rewrite <- F2; [exact Hj| | | |].
      + intros ->. apply Hn2. eapply anc_down; eassumption.
      + intros Y. destruct (apart h2 p c j Nc2 Hne2 Hn2 (An2 j (or_introl Y))) as [_ Z]. apply Z. eapply anc_down; eassumption.
      + intros E. destruct (apart h2 p c j Nc2 Hne2 Hn2) as [_ Z]; [apply An2; auto|]. apply Z. eapply anc_down; eassumption.
      + intros Y. destruct (apart h2 p c j Nc2 Hne2 Hn2 (An2 j (or_intror (or_intror Y)))) as [_ Z]. apply Z. eapply anc_down; eassumption.
  Qed.
  Lemma pop_anc_p2 j : anc h2 p j -> anc h p j \/ anc h c j.
  Proof.
    pose proof pop_pre as [H1 Ha1 _ _ Hdp Nd Hnd _ _]. pose proof Po as [W2 A2 L2 D2 P2 F2 An2 R2].
    intros X. apply (frame_rev h1 h2 p d H1 Ha1 Nd Hdp Hnd P2 F2) in X. destruct X as [X|[->|X]].
    - left. apply pop_anc_mono. exact X.
    - right. apply anc_parent. apply pop_dpar.
    - right. eapply anc_trans; [apply anc_parent; apply pop_dpar|apply pop_anc_mono; exact X].
  Qed.
  Lemma pop_keep_p j : anc h p j -> anc h2 p j.
  Proof.
    destruct pop_facts as (W & A & L & D & P & K). pose proof Pre as [H Ha Hp Hc Hne Nc Hn Fi R].
    intros X. apply (post_anc _ _ _ _ _ Po). left. apply (anc_mono h h1 p j); [|exact X]. intros x Hx. rewrite P. destruct (Nat.eqb_spec x d) as [E|]; [|reflexivity]. exfalso.
    destruct (apart h p c x Nc Hne Hn Hx) as [_ Y]. apply Y. rewrite E. apply anc_parent. apply pop_dpar.
  Qed.
  Lemma pop_keep_c j : anc h c j -> anc h2 p j \/ anc h2 c j.
  Proof.
    destruct pop_facts as (W & A & L & D & P & K). pose proof Pre as [H Ha Hp Hc Hne Nc Hn Fi R]. intros X.
    destruct (Nat.eq_dec j d) as [Ejd|Njd]; [left; apply (post_anc _ _ _ _ _ Po); auto|].
    destruct (anc_dec h d j H Ha) as [Y|Y].
    - left. apply (post_anc _ _ _ _ _ Po). right. right. apply (anc_mono h h1 d j); [|exact Y]. intros x Hx. rewrite P. destruct (Nat.eqb_spec x d) as [E|]; [|reflexivity]. exfalso. rewrite E in Hx. exact (Ha d Hx).
    - right. assert (Z : anc h1 c j).
      { clear - X Y Njd P. induction X as [j Hj|j q Hj Hq IH].
        - apply anc_parent. rewrite P. destruct (Nat.eqb_spec j d); [contradiction|exact Hj].
        - apply (anc_up _ _ _ q).
          + rewrite P. destruct (Nat.eqb_spec j d); [contradiction|exact Hj].
          + apply IH; [intros E; apply Y; apply anc_parent; congruence|]. intros Z. apply Y. eapply anc_down; eassumption. }
      apply (anc_mono h1 h2 c j); [|exact Z]. intros x Hx. rewrite pop_under_c by exact Hx. reflexivity.
  Qed.
  Lemma pop_frame j : j <> p -> ~ anc h p j -> j <> c -> ~ anc h c j -> nd h2 j = nd h j.
  Proof.
    destruct pop_facts as (W & A & L & D & P & K). intros N1 N2 N3 N4.
    assert (Njd : j <> d) by (intros E; apply N4; rewrite E; apply anc_parent; apply pop_dpar).
    transitivity (nd h1 j).
    - apply (post_frame _ _ _ _ _ Po); auto; [intros X; apply N2; apply pop_anc_mono; exact X|]. intros X. apply N4. eapply anc_trans; [apply anc_parent; apply pop_dpar|apply pop_anc_mono; exact X].
    - apply nd_eq; [apply D| |].
      + rewrite P. destruct (Nat.eqb_spec j d); [contradiction|reflexivity].
      + rewrite K. destruct (Nat.eqb_spec j c); [contradiction|reflexivity].
  Qed.
  Lemma pop_par2 : n_par (nd h2 p) = n_par (nd h p).
  Proof. destruct pop_facts as (W & A & L & D & P & K). rewrite (post_par _ _ _ _ _ Po), P. destruct (Nat.eqb_spec p d) as [E|]; [|reflexivity]. exfalso. exact (pop_dp (eq_sym E)). Qed.
End Pop.

Lemma flat_ref key n p c : refines key n -> forall cts h ts m, pre h p c ts -> Forall2 (rep h) cts (n_kids (nd h c)) -> (length (n_kids (nd h c)) <= m)%nat ->
  match hfold (fun ks d => hadd n key (n_f (nd h p)) ks d) (rev cts) ts with
  | Ok ts' => exists h', flat_go (fun h d => add_hier1 n key h p d) c m h = (h', Ok tt) /\ fpost h h' p c ts' /\ (n_kids (nd h c) = [] -> h' = h)
  | Err e => exists h', flat_go (fun h d => add_hier1 n key h p d) c m h = (h', Err e) /\ n_kids (nd h c) <> [] /\ kept h h'
  end.
Proof.
  intros IHn cts. induction cts as [|dt cts IH] using rev_ind; intros h ts m Pre Rc Hm.
  - assert (Ek : n_kids (nd h c) = []) by (inversion Rc; reflexivity). cbn [rev hfold]. exists h. split; [destruct m; cbn [flat_go]; rewrite Ek; reflexivity|]. split; [|auto].
    pose proof Pre as [H Ha Hp Hc Hne Nc Hn Fi R]. constructor; auto.
    intros j [X|X]; [exact X|]. exfalso. exact (childless_not_anc h c j H Ek X).
  - rewrite rev_app_distr. cbn [rev app hfold]. fold (hfold (fun ks d => hadd n key (n_f (nd h p)) ks d)).
    apply Forall2_app_inv_l in Rc. destruct Rc as (l & ld & Rl & Rd & Ek). inversion Rd as [|? d ? ld' Rd1 Rd2]; subst. inversion Rd2; subst.
    rewrite Ek, app_length in Hm. cbn [length] in Hm. destruct m as [|m]; [lia|].
    pose proof (kids_pop_spec h c (-1) (pre_wf _ _ _ _ Pre) (pre_c _ _ _ _ Pre)) as Epop. rewrite Ek, py_index_last in Epop.
    assert (Eg : flat_go (fun h d => add_hier1 n key h p d) c (S m) h =
                 obind (add_hier1 n key (without h c d) p d) (fun h2 _ => flat_go (fun h d => add_hier1 n key h p d) c m h2)).
    { cbn [flat_go]. fold (flat_go (fun h d => add_hier1 n key h p d) c). rewrite Epop. destruct (n_kids (nd h c)) eqn:E0; [destruct l; discriminate|]. reflexivity. }
    rewrite Eg. clear Eg Epop. set (h1 := without h c d).
    pose proof (pop_facts h p c d l ts Pre Ek) as (W1 & A1 & L1 & D1 & P1 & K1). fold h1 in W1, A1, L1, D1, P1, K1.
    pose proof (IHn h1 p d ts dt (pop_pre h p c d l ts Pre Ek) (pop_rep_d h p c d l ts dt Pre Ek Rd1)) as IHd. rewrite D1 in IHd.
    assert (Hne0 : n_kids (nd h c) <> []) by (rewrite Ek; destruct l; discriminate).
    destruct (hadd n key (n_f (nd h p)) ts dt) as [ts1|e]; cbn [bind].
    2:{ destruct IHd as (h2 & E & _ & Kp). rewrite E. unfold obind. cbn [fst snd]. exists h2. split; [reflexivity|]. split; [exact Hne0|].
        destruct Kp as (W & A & L & D). split; [exact W|]. split; [exact A|]. split; [lia|]. intros j. rewrite D. apply D1. }
    destruct IHd as (h2 & E & Po). rewrite E. unfold obind. cbn [fst snd].
    pose proof (pop_pre2 h p c d l ts Pre Ek h2 ts1 Po) as Pre2. pose proof (pop_kids2 h p c d l ts Pre Ek h2 ts1 Po) as Ek2. pose proof (pop_rep2 h p c d l ts cts Pre Ek Rl h2 ts1 Po) as R2.
    specialize (IH h2 ts1 m Pre2). rewrite Ek2 in IH. specialize (IH R2 ltac:(lia)).
    rewrite (post_f _ _ _ _ _ Po), D1 in IH.
    destruct (hfold _ (rev cts) ts1) as [ts'|e].
    + destruct IH as (h' & E' & Fp & _). exists h'. split; [exact E'|]. split; [|intros X; contradiction].
      destruct Fp as [W A L D P Rt Kt F An R]. constructor; auto.
      * rewrite L, (post_len _ _ _ _ _ Po). exact L1.
      * intros j. rewrite D, (post_f _ _ _ _ _ Po). apply D1.
      * rewrite P. apply (pop_par2 h p c d l ts Pre Ek h2 ts1 Po).
      * intros j N1 N2 N3 N4. rewrite F; auto.
        -- apply (pop_frame h p c d l ts Pre Ek h2 ts1 Po); assumption.
        -- intros X. apply (pop_anc_p2 h p c d l ts Pre Ek h2 ts1 Po) in X. tauto.
        -- intros X. apply (pop_anc_c2 h p c d l ts Pre Ek h2 ts1 Po) in X. contradiction.
      * intros j [X|X]; apply An; [left; apply (pop_keep_p h p c d l ts Pre Ek h2 ts1 Po); exact X|]. apply (pop_keep_c h p c d l ts Pre Ek h2 ts1 Po). exact X.
    + destruct IH as (h' & E' & _ & Kp). exists h'. split; [exact E'|]. split; [exact Hne0|].
      destruct Kp as (W & A & L & D). split; [exact W|]. split; [exact A|]. split; [rewrite L, (post_len _ _ _ _ _ Po); exact L1|]. intros j. rewrite D, (post_f _ _ _ _ _ Po). apply D1.
Qed.

Theorem refines_all key : forall n, refines key n.
Proof.
  induction n as [|n IH]; intros h p c ts ct Pre Rc; [exists h; split; [reflexivity|]; split; [auto|]; destruct Pre; unfold kept; auto|].
  pose proof Pre as [H Ha Hp Hc Hne Nc Hn Fi R]. rewrite add_hier1_S, Nc. cbn [hadd]. pose proof (rep_f h ct c Rc) as Ef.
  destruct (n_kids (nd h p)) as [|k0 ks1] eqn:Eks; (destruct ts as [|t0 ts0]; [try (inversion R; fail)|try (inversion R; fail)]).
  - (* no children yet *)
    assert (E1 : f_fits_b (t_f ct) (n_f (nd h p)) = true) by (apply f_fits_iff; rewrite <- Ef; exact Fi). rewrite E1.
    assert (E2 : set_parent_ok h c p = true) by (apply set_parent_ok_iff; auto). rewrite E2. cbn [app].
    eexists. split; [reflexivity|].
    destruct (hwf_insert h p c [] [] H Hp Hc Nc Fi Hne) as (W & L & D); [rewrite Eks; reflexivity|constructor|constructor|]. cbn [app] in W, L, D.
    destruct (add_acyclic h p c [] [] H Ha Hp Hc Nc Hne) as [_ A]. specialize (A Hn). cbn [app] in A.
    set (h' := set_kids (set_par h c (Some p)) p [c]) in *.
    assert (K : forall j, n_kids (nd h' j) = if (j =? p)%nat then [c] else n_kids (nd h j)).
    { intros j. unfold h'. rewrite kids_set_kids by (rewrite set_par_length; exact Hp). rewrite kids_set_par. reflexivity. }
    assert (P : forall j, n_par (nd h' j) = if (j =? c)%nat then Some p else n_par (nd h j)).
    { intros j. unfold h'. rewrite par_set_kids. apply par_set_par. exact Hc. }
    clearbody h'. assert (Acp : anc h' p c) by (apply anc_parent; rewrite P, Nat.eqb_refl; reflexivity).
    constructor; auto.
    + rewrite P. destruct (Nat.eqb_spec p c); [congruence|reflexivity].
    + intros j N1 _ N3 _. apply nd_eq; [apply D| |].
      * rewrite P. destruct (Nat.eqb_spec j c); [contradiction|reflexivity].
      * rewrite K. destruct (Nat.eqb_spec j p); [contradiction|reflexivity].
    + intros j [X|[->|X]]; [exfalso; exact (childless_not_anc h p j H Eks X)|exact Acp|].
      eapply anc_trans; [exact Acp|]. apply (anc_mono h h' c j); [|exact X]. intros x Hx. rewrite P. destruct (Nat.eqb_spec x c) as [->|]; [|reflexivity]. exfalso. exact (Ha c Hx).
    + rewrite K, Nat.eqb_refl. constructor; [|constructor]. apply (rep_frame h h' H ct c Rc). intros j Hj. split; [apply D|]. rewrite K. destruct (Nat.eqb_spec j p) as [->|]; [|reflexivity]. exfalso. destruct Hj as [E|Hj]; [congruence|contradiction].
  - pose proof (flat_ref key n p c IH (t_kids ct) h (t0 :: ts0) (length (n_kids (nd h c))) Pre (rep_kids h ct c Rc) (le_n _)) as Fl.
    destruct (hfold _ (rev (t_kids ct)) (t0 :: ts0)) as [ts1|e]; cbn [bind].
    + destruct Fl as (h1 & E1 & Fp & Hsame). rewrite E1. unfold obind. cbn [fst snd].
      pose proof Fp as [W A L D P Rt Kt F An R1].
      assert (Pre1 : pre h1 p c ts1).
      { constructor; auto; try lia; [intros X; exact (childless_not_anc h1 c p W Kt X)|]. apply (data_fits h); [apply D|apply D|exact Fi]. }
      pose proof (place_ref key n h1 p c ts1 IH Pre1 Kt) as Pl. rewrite !D, Ef in Pl.
      destruct (hplace _ key (n_f (nd h p)) ts1 (t_f ct)) as [ts'|e].
      * destruct Pl as (h2 & E2 & Po). exists h2. split; [exact E2|]. destruct Po as [W2 A2 L2 D2 P2 F2 An2 R2]. constructor; auto.
        -- lia.
        -- intros j. rewrite D2. apply D.
        -- rewrite P2. exact P.
        -- intros j N1 N2 N3 N4. rewrite F2; auto; [|intros X; exact (childless_not_anc h1 c j W Kt X)].
           intros X. apply (frame_rev h h1 p c H Ha Nc Hne Hn P F) in X. tauto.
        -- intros j [X|[X|X]]; apply An2; auto.
      * exists h1. split; [exact Pl|]. split; [exact Hsame|]. unfold kept. auto.
    + destruct Fl as (h1 & E1 & N & Kp). rewrite E1. unfold obind. cbn [fst snd]. exists h1. split; [reflexivity|]. split; [intros X; contradiction|exact Kp].
Qed.
