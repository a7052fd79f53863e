(** Proofs: an Ito that does not fit is rejected with ValueError, whatever it carries (C25, C126). *)
From Verif Require Export HierHeap7.
From Verif Require Import AddHier SpecHier HeapFacts HeapFacts2 HeapFacts3 HeapFacts4 HierFacts HierFacts2 HierFacts3 HierHeap HierHeap2 HierHeap3 HierHeap4 HierHeap5 HierHeap6.
From Coq Require Import Arith.

(** [pre] without the condition that c fits p *)
Record pre0 (h : heap) (p c : nat) (ts : list tree) : Prop := {
  pre0_wf : hwf h; pre0_ac : acyclic h; pre0_p : (p < length h)%nat; pre0_c : (c < length h)%nat; pre0_ne : c <> p;
  pre0_root : n_par (nd h c) = None; pre0_nanc : ~ anc h c p;
  pre0_rep : Forall2 (rep h) ts (n_kids (nd h p)) }.

(** taking the last child d off c *)
Section Off.
  Variables (h : heap) (p c d : nat) (l : list nat) (ts cts : list tree) (dt : tree).
  Hypothesis Pre : pre0 h p c ts.
  Hypothesis Ek : n_kids (nd h c) = l ++ [d].
  Hypothesis Rl : Forall2 (rep h) cts l.
  Hypothesis Rd : rep h dt d.
  Let h1 := without h c d.
  Local Lemma off_in : In d (n_kids (nd h c)).
  Proof. rewrite Ek. apply in_or_app. right. left. reflexivity. Qed.
  Local Lemma off_dpar : n_par (nd h d) = Some c.
  Proof. apply (kid_par h c d (pre0_wf _ _ _ _ Pre) off_in). Qed.
  Local Lemma off_nodup : ~ In d l.
  Proof. pose proof (kids_nodup h _ (hwf_sorted h (pre0_wf _ _ _ _ Pre) c)) as Hn. rewrite Ek in Hn. apply NoDup_remove_2 in Hn. rewrite app_nil_r in Hn. exact Hn. Qed.
  Lemma off_facts : hwf h1 /\ acyclic h1 /\ length h1 = length h /\ (forall j, n_f (nd h1 j) = n_f (nd h j)) /\
    (forall j, n_par (nd h1 j) = if (j =? d)%nat then None else n_par (nd h j)) /\
    (forall j, n_kids (nd h1 j) = if (j =? c)%nat then l else n_kids (nd h j)).
  Proof.
    destruct (without_facts h c d (pre0_wf _ _ _ _ Pre) off_in) as (W & L & D & P & K). fold h1 in W, L, D, P, K. split; [exact W|]. split; [|split; [exact L|split; [exact D|split; [exact P|]]]].
    - apply (acyclic_mono h); [|exact (pre0_ac _ _ _ _ Pre)]. intros j q. rewrite P. destruct (j =? d)%nat; [discriminate|auto].
    - intros j. rewrite K. destruct (j =? c)%nat; [|reflexivity]. rewrite Ek, filter_app, (filter_not_in d l off_nodup). cbn [filter]. rewrite Nat.eqb_refl. cbn [negb]. apply app_nil_r.
  Qed.
  Lemma off_anc_mono a j : anc h1 a j -> anc h a j.
  Proof.
    destruct off_facts as (_ & _ & _ & _ & P & _). intros X. induction X as [j Hj|j q Hj Hq IH]; rewrite P in Hj; destruct (j =? d)%nat; try discriminate; [apply anc_parent; exact Hj|eapply anc_up; eassumption].
  Qed.
  Lemma off_dp : d <> p.
  Proof. intros E. apply (pre0_nanc _ _ _ _ Pre). apply anc_parent. rewrite <- E. apply off_dpar. Qed.
  Lemma off_dc : d <> c.
  Proof. intros E. pose proof off_dpar as X. rewrite E in X. rewrite (pre0_root _ _ _ _ Pre) in X. discriminate. Qed.
  Lemma off_pre : pre0 h1 p d ts.
  Proof.
    destruct off_facts as (W & A & L & D & P & K). pose proof Pre as [H Ha Hp Hc Hne Nc Hn R]. constructor; auto.
    - lia.
    - rewrite L. pose proof (hwf_kid h H c d off_in). tauto.
    - apply off_dp.
    - rewrite P, Nat.eqb_refl. reflexivity.
    - intros X. apply off_anc_mono in X. apply Hn. eapply anc_trans; [apply anc_parent; apply off_dpar|exact X].
    - rewrite K. destruct (Nat.eqb_spec p c); [congruence|].
      assert (G : forall ts' ks, Forall2 (rep h) ts' ks -> (forall x, In x ks -> In x (n_kids (nd h p))) -> Forall2 (rep h1) ts' ks).
      { intros ts' ks F. induction F as [|t x ts' ks Ht F IH]; intros Hin; constructor; [|apply IH; intros; apply Hin; right; assumption].
        apply (rep_frame h h1 H t x Ht). intros j Hj. split; [apply D|]. rewrite K. destruct (Nat.eqb_spec j c) as [Ejc|]; [|reflexivity]. exfalso.
        pose proof (kid_par h p x H (Hin x (or_introl eq_refl))) as Px. destruct Hj as [Hj|Hj]; [congruence|]. rewrite Ejc in Hj. apply anc_up_inv in Hj. destruct Hj as (q & E & _). congruence. }
      apply G; auto.
  Qed.
  Lemma off_rep_d : rep h1 dt d.
  Proof.
    destruct off_facts as (W & A & L & D & P & K). pose proof Pre as [H Ha Hp Hc Hne Nc Hn R].
    apply (rep_frame h h1 H dt d Rd). intros j Hj. split; [apply D|]. rewrite K. destruct (Nat.eqb_spec j c) as [Ejc|]; [|reflexivity]. exfalso.
    destruct Hj as [Hj|Hj]; [apply off_dc; congruence|]. rewrite Ejc in Hj. apply anc_up_inv in Hj. destruct Hj as (q & E & _). congruence.
  Qed.
  Lemma off_rep_l : Forall2 (rep h1) cts l.
  Proof.
    destruct off_facts as (W & A & L & D & P & K). pose proof Pre as [H Ha Hp Hc Hne Nc Hn R].
    assert (G : forall ts' ks, Forall2 (rep h) ts' ks -> (forall x, In x ks -> In x l) -> Forall2 (rep h1) ts' ks).
    { intros ts' ks F. induction F as [|t x ts' ks Ht F IH]; intros Hin; constructor; [|apply IH; intros; apply Hin; right; assumption].
      apply (rep_frame h h1 H t x Ht). intros j Hj. split; [apply D|]. rewrite K. destruct (Nat.eqb_spec j c) as [Ejc|]; [|reflexivity]. exfalso.
      assert (Hx : In x (n_kids (nd h c))) by (rewrite Ek; apply in_or_app; left; apply Hin; left; reflexivity).
      pose proof (kid_par h c x H Hx) as Px. destruct Hj as [Hj|Hj]; [congruence|]. rewrite Ejc in Hj. apply anc_up_inv in Hj. destruct Hj as (q & E & _). congruence. }
    apply G; auto.
  Qed.
  (** afterwards d hangs under p; the rest of c is untouched *)
  Variables (h2 : heap) (ts1 : list tree).
  Hypothesis Po : post h1 h2 p d ts1.
  Local Lemma off_c_root : n_par (nd h1 c) = None.
  Proof. destruct off_facts as (_ & _ & _ & _ & P & _). rewrite P. destruct (c =? d)%nat; [reflexivity|exact (pre0_root _ _ _ _ Pre)]. Qed.
  Local Lemma off_under_c j : anc h1 c j -> nd h2 j = nd h1 j.
  Proof.
    intros Hj. pose proof Pre as [H Ha Hp Hc Hne Nc Hn R]. pose proof off_pre as [H1 Ha1 _ _ Hdp Nd Hnd _].
    assert (N1 : ~ anc h1 c p) by (intros X; apply Hn; apply off_anc_mono; exact X).
    apply (post_frame _ _ _ _ _ Po).
    - intros ->. contradiction.
    - intros X. destruct (apart h1 p c j off_c_root Hne N1 X) as [_ Y]. contradiction.
    - destruct (apart h1 c d j Nd off_dc) with (2 := Hj) as [Y _]; [|exact Y]. intros X. apply anc_up_inv in X. destruct X as (q & E & _). rewrite off_c_root in E. discriminate.
    - destruct (apart h1 c d j Nd off_dc) with (2 := Hj) as [_ Y]; [|exact Y]. intros X. apply anc_up_inv in X. destruct X as (q & E & _). rewrite off_c_root in E. discriminate.
  Qed.
  Lemma off_c_same : nd h2 c = nd h1 c.
  Proof.
    pose proof Pre as [H Ha Hp Hc Hne Nc Hn R]. apply (post_frame _ _ _ _ _ Po); [exact Hne| |intros E; exact (off_dc (eq_sym E))|];
      intros X; apply anc_up_inv in X; destruct X as (q & E & _); rewrite off_c_root in E; discriminate.
  Qed.
  Lemma off_nanc2 : ~ anc h2 c p.
  Proof.
    pose proof off_pre as [H1 Ha1 _ _ Hdp Nd Hnd _]. intros X. apply (post_up h1 h2 p d ts1 c H1 Ha1 Nd Hdp Hnd Po) in X. apply (pre0_nanc _ _ _ _ Pre). apply off_anc_mono. exact X.
  Qed.
  Lemma off_pre2 : pre0 h2 p c ts1.
  Proof.
    destruct off_facts as (W & A & L & D & P & K). pose proof Pre as [H Ha Hp Hc Hne Nc Hn R]. pose proof Po as [W2 A2 L2 D2 P2 F2 An2 R2].
    constructor; auto; try lia.
    - rewrite off_c_same. apply off_c_root.
    - apply off_nanc2.
  Qed.
  Lemma off_kids2 : n_kids (nd h2 c) = l.
  Proof. destruct off_facts as (W & A & L & D & P & K). rewrite off_c_same, K, Nat.eqb_refl. reflexivity. Qed.
  Lemma off_rep2 : Forall2 (rep h2) cts l.
  Proof.
    destruct off_facts as (W & A & L & D & P & K).
    assert (G : forall ts' ks, Forall2 (rep h1) ts' ks -> (forall x, In x ks -> In x l) -> Forall2 (rep h2) ts' ks).
    { intros ts' ks F. induction F as [|t x ts' ks Ht F IH]; intros Hin; constructor; [|apply IH; intros; apply Hin; right; assumption].
      apply (rep_frame h1 h2 W t x Ht). intros j Hj.
      assert (Px : n_par (nd h1 x) = Some c) by (apply (kid_par h1 c x W); rewrite K, Nat.eqb_refl; apply Hin; left; reflexivity).
      rewrite off_under_c; [auto|]. destruct Hj as [->|Hj]; [apply anc_parent; exact Px|]. eapply anc_trans; [apply anc_parent; exact Px|exact Hj]. }
    apply G; [exact off_rep_l|auto].
  Qed.
End Off.

(** a step that fits: accepted, or ValueError *)
Lemma fit_step key n h p d ts dt : pre0 h p d ts -> rep h dt d -> fits h d p -> (t_size dt + sizes ts < n)%nat ->
  (exists h' ts', add_hier1 n key h p d = (h', Ok tt) /\ post h h' p d ts' /\ sizes ts' = (t_size dt + sizes ts)%nat)
  \/ snd (add_hier1 n key h p d) = Err ValueError.
Proof.
  intros [H Ha Hp Hc Hne Nc Hn R] Rd Fi Hsz. assert (Pre : pre h p d ts) by (constructor; assumption).
  pose proof (refines_all key n h p d ts dt Pre Rd) as Ref. pose proof (rep_f h dt d Rd) as Ef.
  assert (Hin : inside (t_f dt) (n_f (nd h p))) by (rewrite <- Ef; exact Fi).
  destruct (hadd_spec n key (n_f (nd h p)) ts dt (reps_wf h p ts H R) (rep_twf h H dt d Rd) Hin Hsz) as [(_ & ts' & E & W' & Pm)|(_ & E)]; rewrite E in Ref.
  - left. destruct Ref as (h' & E' & Po). exists h', ts'. split; [exact E'|]. split; [exact Po|]. rewrite sizes_nodes, (Permutation_length Pm), app_length, <- sizes_nodes. f_equal.
    assert (G := sizes_nodes [dt]). unfold sizes, f_nodes in G. cbn in G. rewrite app_nil_r, Nat.add_0_r in G. symmetry. exact G.
  - right. destruct Ref as (h' & E' & _). rewrite E'. reflexivity.
Qed.
Lemma fits_dec h c p : fits h c p \/ ~ fits h c p.
Proof.
  unfold fits. destruct (eqb_str (h_string h c) (h_string h p)) eqn:E.
  - apply eqb_str_eq in E. destruct (Z_le_dec (h_start h p) (h_start h c)); [|right; tauto]. destruct (Z_le_dec (h_stop h c) (h_stop h p)); [left; auto|right; tauto].
  - right. intros (X & _). apply eqb_str_eq in X. congruence.
Qed.
(** ValueError is the only error of ChildItos.add *)
Lemma kids_add_err p : forall cs h, snd (kids_add h p cs) = Ok tt \/ snd (kids_add h p cs) = Err ValueError.
Proof.
  induction cs as [|c cs IH]; intros h; [left; reflexivity|]. cbn [kids_add]. unfold kids_add1.
  destruct (n_par (nd h c)); [right; reflexivity|]. destruct (bfind_start _ _) as [fd i]. destruct fd; [right; reflexivity|].
  destruct (negb _); [right; reflexivity|]. destruct (negb _); [right; reflexivity|]. unfold obind. cbn [fst snd]. apply IH.
Qed.
Lemma do_wrap_err h p c i j : snd (do_wrap h p c i j) = Ok tt \/ snd (do_wrap h p c i j) = Err ValueError.
Proof.
  unfold do_wrap. cbv zeta.
  match goal with |- context [obind ?w _] => assert (G : snd w = Ok tt \/ snd w = Err ValueError) end.
  { destruct (i =? j)%nat; [left; reflexivity|]. unfold kids_del_slice, slice_positions. cbn. apply kids_add_err. }
  unfold obind at 1 3. destruct (if (i =? j)%nat then _ else _) as [h1 [[]|e]]; cbn [fst snd] in *.
  - destruct (set_parent_ok _ c p); [left|right]; reflexivity.
  - right. destruct G as [G|G]; [discriminate|exact G].
Qed.

(** moving the children of c to p, one after the other *)
Lemma flat_err key n p c : (forall h d ts dt, pre0 h p d ts -> rep h dt d -> (t_size dt + sizes ts < n)%nat ->
    ~ fits h d p -> snd (add_hier1 n key h p d) = Err ValueError) ->
  forall cts h ts m, pre0 h p c ts -> Forall2 (rep h) cts (n_kids (nd h c)) -> (length (n_kids (nd h c)) <= m)%nat -> (sizes cts + sizes ts < n)%nat ->
  (exists h' ts', flat_go (fun h d => add_hier1 n key h p d) c m h = (h', Ok tt) /\ pre0 h' p c ts' /\ n_kids (nd h' c) = [] /\
     sizes ts' = (sizes cts + sizes ts)%nat /\ length h' = length h /\ (forall j, n_f (nd h' j) = n_f (nd h j)))
  \/ snd (flat_go (fun h d => add_hier1 n key h p d) c m h) = Err ValueError.
Proof.
  intros Mis cts. induction cts as [|dt cts IH] using rev_ind; intros h ts m Pre Rc Hm Hsz.
  - assert (Ek : n_kids (nd h c) = []) by (inversion Rc; reflexivity). left. exists h, ts. split; [destruct m; cbn [flat_go]; rewrite Ek; reflexivity|].
    split; [exact Pre|]. split; [exact Ek|]. split; [reflexivity|]. split; reflexivity.
  - apply Forall2_app_inv_l in Rc. destruct Rc as (l & ld & Rl & Rd & Ek). inversion Rd as [|? d ? ld' Rd1 Rd2]; subst. inversion Rd2; subst.
    rewrite sizes_app in Hsz. rewrite sizes_cons in Hsz. change (sizes []) with 0%nat in Hsz.
    rewrite Ek, app_length in Hm. cbn [length] in Hm. destruct m as [|m]; [lia|].
    pose proof (kids_pop_spec h c (-1) (pre0_wf _ _ _ _ Pre) (pre0_c _ _ _ _ Pre)) as Epop. rewrite Ek, py_index_last in Epop.
    assert (Eg : flat_go (fun h d => add_hier1 n key h p d) c (S m) h =
                 obind (add_hier1 n key (without h c d) p d) (fun h2 _ => flat_go (fun h d => add_hier1 n key h p d) c m h2)).
    { cbn [flat_go]. fold (flat_go (fun h d => add_hier1 n key h p d) c). rewrite Epop. destruct (n_kids (nd h c)) eqn:E0; [destruct l; discriminate|]. reflexivity. }
    rewrite Eg. clear Eg Epop. set (h1 := without h c d).
    pose proof (off_facts h p c d l ts Pre Ek) as (W1 & A1 & L1 & D1 & P1 & K1). fold h1 in W1, A1, L1, D1, P1, K1.
    pose proof (off_pre h p c d l ts Pre Ek) as Pd. pose proof (off_rep_d h p c d l ts dt Pre Ek Rd1) as Rd'. fold h1 in Pd, Rd'.
    destruct (fits_dec h1 d p) as [Fi|Fi].
    + destruct (fit_step key n h1 p d ts dt Pd Rd' Fi ltac:(lia)) as [(h2 & ts1 & E & Po & Es)|E].
      * rewrite E. unfold obind. cbn [fst snd].
        pose proof (off_pre2 h p c d l ts Pre Ek h2 ts1 Po) as Pre2. pose proof (off_kids2 h p c d l ts Pre Ek h2 ts1 Po) as Ek2. pose proof (off_rep2 h p c d l ts cts Pre Ek Rl h2 ts1 Po) as R2.
        destruct (IH h2 ts1 m Pre2 ltac:(rewrite Ek2; exact R2) ltac:(rewrite Ek2; lia) ltac:(lia)) as [(h' & ts' & E' & Pr' & Kt & Es' & L' & D')|E']; [left|right; exact E'].
        exists h', ts'. split; [exact E'|]. split; [exact Pr'|]. split; [exact Kt|]. split; [rewrite Es', Es, sizes_app, sizes_cons; change (sizes []) with 0%nat; lia|].
        split; [rewrite L', (post_len _ _ _ _ _ Po); exact L1|]. intros j. rewrite D', (post_f _ _ _ _ _ Po). apply D1.
      * right. unfold obind. destruct (add_hier1 n key h1 p d) as [h2 [[]|e]]; cbn [snd] in *; [discriminate|exact E].
    + right. pose proof (Mis h1 d ts dt Pd Rd' ltac:(lia) Fi) as E. unfold obind. destruct (add_hier1 n key h1 p d) as [h2 [[]|e]]; cbn [snd] in *; [discriminate|exact E].
Qed.

(** an Ito that does not fit its new parent: ValueError *)
Theorem misfit_error key : forall n h p c ts tc, pre0 h p c ts -> rep h tc c -> (t_size tc + sizes ts < n)%nat ->
  ~ fits h c p -> snd (add_hier1 n key h p c) = Err ValueError.
Proof.
  induction n as [|n IH]; intros h p c ts tc Pre Rc Hsz Fi; [lia|].
  pose proof Pre as [H Ha Hp Hc Hne Nc Hn R].
  destruct (n_kids (nd h p)) as [|k0 ks0] eqn:Eks.
  - rewrite (misfit_empty key n h p c Eks Nc Fi). reflexivity.
  - pose proof (misfit_rejected key (S n) h p c H Fi) as Rej. rewrite add_hier1_S, Nc, Eks in Rej. rewrite add_hier1_S, Nc, Eks.
    assert (Hs : (S (sizes (t_kids tc)) = t_size tc)%nat) by (destruct tc; reflexivity).
    destruct (flat_err key n p c (fun h d ts dt A B C D => IH h p d ts dt A B C D) (t_kids tc) h ts (length (n_kids (nd h c))) Pre (rep_kids h tc c Rc) (le_n _) ltac:(lia)) as [(h1 & ts1 & E & Pr1 & K1 & Es & L1 & D1)|E].
    2:{ unfold obind. destruct (flat_go _ _ _ _) as [h1 [[]|e]]; cbn [snd] in *; [discriminate|exact E]. }
    rewrite E. unfold obind. cbn [fst snd].
    assert (Fi1 : ~ fits h1 c p) by (intros X; apply Fi; apply (data_fits h1); [symmetry; apply D1|symmetry; apply D1|exact X]).
    pose proof Pr1 as [H1 Ha1 Hp1 Hc1 _ Nc1 Hn1 R1]. rewrite E in Rej. unfold obind in Rej. cbn [fst snd] in Rej. unfold place_go in Rej. cbv zeta in Rej.
    unfold place_go. cbv zeta. destruct (hier_action _ _ _ _ _) as [i| |i j] eqn:Ea; [|reflexivity|].
    + assert (Hi : (i < length (n_kids (nd h1 p)))%nat) by (apply action_bounds in Ea; unfold starts_of, stops_of in *; rewrite ?map_length in *; auto).
      set (k := nth i (n_kids (nd h1 p)) 0%nat). assert (Hkin : In k (n_kids (nd h1 p))) by (apply nth_In; exact Hi).
      pose proof (hwf_kid h1 H1 p k Hkin) as (Pk & Fk & Hkp & Hkl).
      pose proof (Forall2_len _ _ _ R1) as Len. pose proof (reps_nth h1 ts1 _ i R1 ltac:(lia)) as Rk. fold k in Rk. set (t := nth i ts1 dtree) in *.
      assert (St : (t_size t <= sizes ts1)%nat).
      { assert (It : In t ts1) by (apply nth_In; lia). apply in_split in It. destruct It as (u & v & Eu). rewrite Eu, sizes_app, sizes_cons. lia. }
      apply (IH h1 k c (t_kids t) (T (n_f (nd h1 c)) [])).
      * constructor; auto.
        -- intros ->. congruence.
        -- intros X. apply anc_up_inv in X. destruct X as (q & Eq & X). rewrite Pk in Eq. injection Eq as <-. destruct X as [X|X]; [congruence|contradiction].
        -- apply rep_kids. exact Rk.
      * apply rep_unfold. split; [reflexivity|]. rewrite K1. constructor.
      * rewrite t_size_T. change (sizes []) with 0%nat. assert (Ht : S (sizes (t_kids t)) = t_size t) by (clearbody t; clear; destruct t; reflexivity). lia.
      * intros (B1 & B2 & B3). destruct Fk as (B4 & B5 & B6). apply Fi1. split; [congruence|lia].
    + destruct (do_wrap_err h1 p c i j) as [X|X]; [exfalso; exact (Rej X)|exact X].
Qed.
(** ... with fuel in terms of the number of objects *)
Theorem misfit_value key n h p c : hwf h -> acyclic h -> (p < length h)%nat -> (c < length h)%nat -> n_par (nd h c) = None -> c <> p -> ~ anc h c p ->
  ~ fits h c p -> (2 * length h <= n)%nat -> snd (add_hier1 n key h p c) = Err ValueError.
Proof.
  intros H Ha Hp Hc N Hne Hn Fi Hf. destruct (rep_ex h p H Ha Hp) as (tp & Rp & _). destruct (rep_ex h c H Ha Hc) as (tc & Rc & _).
  pose proof (rep_size h tp p H Ha Hp Rp). pose proof (rep_size h tc c H Ha Hc Rc).
  apply (misfit_error key n h p c (t_kids tp) tc); auto.
  - constructor; auto. apply rep_kids. exact Rp.
  - destruct tp as [f ts]. rewrite t_size_T in *. cbn [t_kids]. lia.
Qed.
