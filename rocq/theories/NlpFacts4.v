(** Facts for Nlp.v: running the pipeline. *)
From Verif Require Import NlpDoc PyFacts HeapFacts HeapFacts2 HeapFacts3 HeapFacts4 CombinFacts CombinFacts2 CombinFacts3 CombinFacts4 ArborFacts ArborFacts2 ArborFacts3 ArborFacts4 XmlFacts5 XmlFacts6 NlpFacts NlpFacts2 NlpFacts3.

(** ** a generator that works first and yields then *)
Inductive reach : strm -> heap -> heap -> strm -> Prop :=
| RC_now s h : reach s h h s
| RC_act f k h h1 s1 : reach (k h) (f h) h1 s1 -> reach (Act f k) h h1 s1.
Lemma reach_trans a h b h1 c h2 : reach a h h1 b -> reach b h1 h2 c -> reach a h h2 c.
Proof. induction 1; intros R; [exact R|]. constructor. auto. Qed.
Lemma reach_drain a h h1 b : reach a h h1 b -> drain a h = drain b h1.
Proof. induction 1 as [|f k h h1 s1 R IH]; [reflexivity|exact IH]. Qed.
Lemma reach_for f a h h1 b : reach a h h1 b -> for_each f a h = for_each f b h1.
Proof. induction 1 as [|g k h h1 s1 R IH]; [reflexivity|exact IH]. Qed.
Lemma reach_act {A} (m : heap -> out A) k h h1 a : m h = (h1, Ok a) -> reach (act m k) h h1 (k a).
Proof. intros E. unfold act. replace h1 with (fst (m h)) by (rewrite E; reflexivity). constructor. rewrite E. cbn [snd]. constructor. Qed.
Lemma reach_split limit br zero d i count prior rv a h h1 b : reach a h h1 b ->
  reach (itor_split_loop limit br zero d i count prior rv a) h h1 (itor_split_loop limit br zero d i count prior rv b).
Proof. induction 1 as [|g k h h1 s1 R IH]; [constructor|]. cbn [itor_split_loop]. constructor. exact IH. Qed.
Lemma sfor_plain tr l : sfor (of_list l) (flow tr []) = of_list l.
Proof. induction l as [|x l IH]; [reflexivity|]. cbn [of_list sfor]. change (flow tr [] x) with (Yield x Stop). cbn [sapp]. rewrite IH. reflexivity. Qed.
Lemma reach_sfor_plain tr a h h1 l : reach a h h1 (of_list l) -> reach (sfor a (flow tr [])) h h1 (of_list l).
Proof.
  intros R. assert (G : forall b, reach a h h1 b -> b = of_list l -> reach (sfor a (flow tr [])) h h1 (of_list l)); [|exact (G _ R eq_refl)].
  clear R. intros b R. induction R as [c g|g k g0 h1 s1 R IH]; intros E.
  - rewrite E, sfor_plain. constructor.
  - cbn [sfor]. constructor. apply IH. exact E.
Qed.

(** ** ownership is kept when other roots change *)
Lemma own_frame (S : nat -> Prop) h h' t y : fine h -> own h t y -> (forall x, S x -> n_par (nd h x) = None) -> ~ S y -> (length h <= length h')%nat ->
  (forall j, (j < length h)%nat -> ~ S j -> nd h' j = nd h j) -> own h' t y.
Proof.
  intros [W A] (R & P & L) Hs Ny Hl K. split; [|split; [rewrite K by assumption; exact P|lia]].
  apply (rep_frame h h' W t y R). intros j Hj. assert (j < length h)%nat by (destruct Hj as [->|Hj]; [exact L|apply (anc_bound h y j W) in Hj; lia]).
  rewrite K; auto. intros Sj. destruct Hj as [->|Hj]; [contradiction|]. revert Hj. apply root_not_below. apply Hs. exact Sj.
Qed.
Lemma own_frame_all (S : nat -> Prop) h h' ts l : fine h -> (forall x, S x -> n_par (nd h x) = None) -> Forall (fun y => ~ S y) l -> (length h <= length h')%nat ->
  (forall j, (j < length h)%nat -> ~ S j -> nd h' j = nd h j) -> Forall2 (own h) ts l -> Forall2 (own h') ts l.
Proof. intros Hf Hs N Hl K F. induction F as [|t y ts l O F IH]; [constructor|]. inversion N; subst. constructor; [apply (own_frame S h); assumption|auto]. Qed.
Lemma own_lt h t y : own h t y -> (y < length h)%nat. Proof. intros (_ & _ & L). exact L. Qed.
Lemma own_all_lt h ts l : Forall2 (own h) ts l -> Forall (fun y => (y < length h)%nat) l.
Proof. intros F. induction F as [|t y ts l O F IH]; constructor; [exact (own_lt _ _ _ O)|exact IH]. Qed.

(** a step of the pipeline that turns a root with the tree t into roots with the trees ts; only
    the root itself may change *)
Definition handles (f : nat -> heap -> heap * (list nat * option exn)) (t : tree) (ts : list tree) : Prop :=
  forall h x, fine h -> own h t x -> exists h' l, f x h = (h', (l, None)) /\ fine h' /\ (length h <= length h')%nat /\ Forall2 (own h') ts l /\ NoDup l /\
    Forall (fun c => c = x \/ (length h <= c)%nat) l /\ (forall j, (j < length h)%nat -> j <> x -> nd h' j = nd h j).
Lemma for_each_handles f : forall ts outs, Forall2 (handles f) ts outs -> forall h l, fine h -> Forall2 (own h) ts l -> NoDup l ->
  exists h' l', for_each f (of_list l) h = (h', (l', None)) /\ fine h' /\ (length h <= length h')%nat /\ Forall2 (own h') (concat outs) l' /\ NoDup l' /\
    Forall (fun c => In c l \/ (length h <= c)%nat) l' /\ (forall j, (j < length h)%nat -> ~ In j l -> nd h' j = nd h j).
Proof.
  induction 1 as [|t o ts outs Ht F IH]; intros h l Hf Ho Nd; inversion Ho as [|? x ? l0 Ox Ol]; subst.
  - exists h, []. cbn. split; [reflexivity|]. split; [exact Hf|]. split; [lia|]. split; [constructor|]. split; [constructor|]. split; [constructor|]. auto.
  - inversion Nd as [|? ? Nx Nd']; subst. destruct (Ht h x Hf Ox) as (h1 & l1 & E1 & Hf1 & L1 & O1 & N1 & R1 & K1).
    assert (Ol1 : Forall2 (own h1) ts l0). { apply (own_frame_all (fun j => j = x) h); [exact Hf|intros y ->; apply Ox| |exact L1|exact K1|exact Ol]. apply Forall_forall. intros y Hy ->. contradiction. }
    destruct (IH h1 l0 Hf1 Ol1 Nd') as (h2 & l2 & E2 & Hf2 & L2 & O2 & N2 & R2 & K2). pose proof (own_all_lt _ _ _ Ol) as Ll.
    exists h2, (l1 ++ l2). cbn [of_list for_each]. rewrite E1, E2. split; [reflexivity|]. split; [exact Hf2|]. split; [lia|]. cbn [concat].
    assert (A1 : Forall (fun c => ~ In c l0) l1). { eapply Forall_impl; [|exact R1]. cbn beta. intros c [->|Lc]; [exact Nx|]. intros I. rewrite Forall_forall in Ll. specialize (Ll c I). lia. }
    pose proof (own_all_lt _ _ _ O1) as Ll1.
    split; [|split; [|split]].
    + apply Forall2_app; [|exact O2]. apply (own_frame_all (fun j => In j l0) h1); [exact Hf1| |exact A1|exact L2|exact K2|exact O1]. intros y Hy. destruct (Forall2_in_r _ _ _ y Ol1 Hy) as (t' & _ & Q). apply Q.
    + clear - N1 N2 A1 R2 Ll1. induction l1 as [|c l1 IHl]; [exact N2|]. inversion N1; inversion A1; inversion Ll1; subst. cbn. constructor; [|auto]. intros I. apply in_app_or in I. destruct I as [I|I]; [contradiction|]. rewrite Forall_forall in R2. destruct (R2 c I); [contradiction|lia].
    + apply Forall_app. split; (eapply Forall_impl; [|first [exact R1|exact R2]]); cbn beta; intros c [Q|Q]; [left; left; auto|right; lia|left; right; exact Q|right; lia].
    + intros j Hj Nj. rewrite K2; [apply K1; [exact Hj|]|lia|]; intros Q; apply Nj; [left; auto|right; exact Q].
Qed.

(** ** splitting at boundaries that are already there *)
Section Split.
  Variables (s : pystr) (d : option pystr) (br : retention).
  Hypothesis Hbr : br = RNone \/ br = RAll.
  Definition leaf (a b : Z) : tree := T (FI s a b d None) [].
  Definition keep (t : tree) : list tree := match br with RAll => if t_start t <? t_stop t then [t] else [] | _ => [] end.
  Definition leaf_opt (a b : Z) : list tree := if a <? b then [leaf a b] else [].
  Fixpoint pieces_of (a : Z) (bts : list tree) (b : Z) : list tree :=
    match bts with [] => leaf_opt a b | t :: r => leaf_opt a (t_start t) ++ keep t ++ pieces_of (t_stop t) r b end.
  Definition split_of (a : Z) (bts : list tree) (b : Z) : list tree := match bts with [] => [leaf a b] | _ => pieces_of a bts b end.
  Variables (i : nat) (a0 b0 : Z).
  Definition source (h : heap) : Prop := (i < length h)%nat /\ exists dd, n_f (nd h i) = FI s a0 b0 dd None.
  Lemma source_ext h h' : source h -> extends h h' -> source h'.
  Proof. intros [L (dd & E)] [XL XN]. split; [lia|]. exists dd. rewrite XN by exact L. exact E. Qed.
  Lemma clone_leaf h a b : fine h -> source h -> a0 <= a <= b -> b <= b0 ->
    exists h', split_clone i d (a, b) h = (h', Ok (if a <? b then [length h] else [])) /\ fine h' /\ extends h h' /\ (if a <? b then own h' (leaf a b) (length h) else h' = h).
  Proof.
    intros Hf [L (dd & E)] Ha Hb. pose proof (hwf_span h (proj1 Hf) i) as W. rewrite (split_clone_eq h i d L W h a b (extends_refl h)) by (unfold h_start, h_stop; rewrite E; cbn [f_start f_stop]; lia).
    unfold wide. cbn [fst snd]. destruct (Z.ltb_spec a b) as [Lt|Ge].
    - eexists. split; [reflexivity|]. unfold piece_node, h_string. rewrite E. cbn [f_str f_vf]. destruct (own_new h (FI s a b d None) Hf) as (Hf' & X & O); [|split; [exact Hf'|]; split; [exact X|exact O]]. rewrite E in W. destruct W as [W1 W2]. cbn in W1, W2. split; cbn; lia.
    - exists h. split; [reflexivity|]. split; [exact Hf|]. split; [apply extends_refl|reflexivity].
  Qed.
  Lemma clone_whole h : fine h -> source h -> a0 <= b0 ->
    exists h', clone_of i None None (Some d) false h = (h', Ok (length h)) /\ fine h' /\ extends h h' /\ own h' (leaf a0 b0) (length h).
  Proof.
    intros Hf [L (dd & E)] Hab. pose proof (hwf_span h (proj1 Hf) i) as W. rewrite (whole_clone_eq h i d L W h (extends_refl h)). eexists. split; [reflexivity|]. unfold piece_node, h_string, h_start, h_stop. rewrite E. cbn [f_str f_vf f_start f_stop]. apply own_new; [exact Hf|]. rewrite E in W. exact W.
  Qed.
  Lemma own_start h t x : own h t x -> h_start h x = t_start t /\ h_stop h x = t_stop t.
  Proof. intros (R & _ & _). unfold h_start, h_stop, t_start, t_stop. rewrite (rep_f _ _ _ R). auto. Qed.
  Fixpoint fits_in (a : Z) (bts : list tree) : Prop := match bts with [] => a <= b0 | t :: r => a <= t_start t /\ t_start t <= t_stop t /\ fits_in (t_stop t) r end.
  Lemma fits_in_le bts : forall a, fits_in a bts -> a <= b0.
  Proof. induction bts as [|t r IH]; intros a; cbn; [auto|]. intros (H1 & H2 & H3). specialize (IH _ H3). lia. Qed.
  Lemma own_ext_all h h' ts l : fine h -> extends h h' -> Forall2 (own h) ts l -> Forall2 (own h') ts l.
  Proof. intros Hf X F. induction F as [|t y ts l O F IH]; constructor; [exact (own_ext h h' t y Hf X O)|exact IH]. Qed.
  Lemma NoDup_app_new {A} (l l' : list A) : NoDup l -> NoDup l' -> (forall x, In x l -> ~ In x l') -> NoDup (l ++ l').
  Proof. intros N N' H. induction N as [|x l Nx N IH]; [exact N'|]. cbn. constructor; [|apply IH; intros y Hy; apply H; right; exact Hy]. intros Q. apply in_app_or in Q. destruct Q as [Q|Q]; [contradiction|]. exact (H x (or_introl eq_refl) Q). Qed.
  Lemma split_list : forall bts bs h a count prior rv rts, fine h -> source h -> Forall2 (own h) bts bs -> NoDup bs -> fits_in a bts -> a0 <= a -> a0 <= b0 ->
    (bts = [] -> prior = None -> rv = [] /\ a = a0) ->
    match prior with None => a = a0 | Some p => (p < length h)%nat /\ h_stop h p = a end ->
    Forall2 (own h) rts rv -> NoDup rv -> (forall x, In x rv -> ~ In x bs) ->
    exists h' l, reach (itor_split_loop None br true d i count prior rv (of_list bs)) h h' (of_list (rv ++ l)) /\ fine h' /\ extends h h' /\
      Forall2 (own h') (rts ++ match prior with None => split_of a bts b0 | Some _ => pieces_of a bts b0 end) (rv ++ l) /\ NoDup (rv ++ l) /\ Forall (fun c => In c bs \/ (length h <= c)%nat) l.
  Proof.
    induction bts as [|t bts IH]; intros bs h a count prior rv rts Hf Hs Ho Nd Fi Ha Hab Hz Hp Hr Nr Dis; inversion Ho as [|? x ? bs0 Ox Ob]; subst.
    - cbn [of_list itor_split_loop]. unfold split_end. destruct prior as [p|].
      + destruct Hp as [Lp Ep]. cbn [fits_in] in Fi. destruct (clone_leaf h a b0 Hf Hs ltac:(lia) ltac:(lia)) as (h1 & E1 & Hf1 & X1 & O1).
        set (l1 := if a <? b0 then [length h] else []). exists h1, l1.
        assert (Eb : h_stop h i = b0) by (destruct Hs as [_ (dd & Q)]; unfold h_stop; rewrite Q; reflexivity).
        assert (Rc : reach (act (fun g => split_clone i d (h_stop g p, h_stop g i) g) (fun l => of_list (rv ++ l))) h h1 (of_list (rv ++ l1))).
        { apply (reach_act (fun g => split_clone i d (h_stop g p, h_stop g i) g) (fun l => of_list (rv ++ l)) h h1 l1). rewrite Ep, Eb. exact E1. }
        split; [destruct Hbr as [Qbr|Qbr]; rewrite Qbr; exact Rc|]. split; [exact Hf1|]. split; [exact X1|]. cbn [pieces_of]. unfold leaf_opt, l1.
        assert (Hr1 : Forall2 (own h1) rts rv) by (exact (own_ext_all h h1 rts rv Hf X1 Hr)).
        destruct (a <? b0).
        * split; [apply Forall2_app; [exact Hr1|constructor; [exact O1|constructor]]|]. split; [|constructor; [right; lia|constructor]].
          apply NoDup_app_new; [exact Nr|constructor; [intros []|constructor]|]. intros y Hy [<-|[]]. pose proof (own_all_lt _ _ _ Hr) as Lr. rewrite Forall_forall in Lr. specialize (Lr _ Hy). lia.
        * rewrite !app_nil_r. split; [exact Hr1|]. split; [exact Nr|constructor].
      + destruct (Hz eq_refl eq_refl) as [-> ->]. inversion Hr; subst. cbn [length Nat.eqb andb app]. destruct (clone_whole h Hf Hs Hab) as (h1 & E1 & Hf1 & X1 & O1). exists h1, [length h].
        split; [apply (reach_act (clone_of i None None (Some d) false) (fun j => of_list [j]) h h1 (length h)); exact E1|]. split; [exact Hf1|]. split; [exact X1|]. cbn [split_of]. split; [constructor; [exact O1|constructor]|]. split; [constructor; [intros []|constructor]|constructor; [right; lia|constructor]].
    - destruct Fi as (F1 & F2 & F3). pose proof (fits_in_le _ _ F3) as F4. inversion Nd as [|? ? Nx Nd']; subst.
      destruct (own_start _ _ _ Ox) as [Sx Tx]. destruct (clone_leaf h a (t_start t) Hf Hs ltac:(lia) ltac:(lia)) as (h1 & E1 & Hf1 & X1 & O1).
      set (l1 := if a <? t_start t then [length h] else []) in *. destruct (own_start _ _ _ (own_ext _ _ _ _ Hf X1 Ox)) as [Sx1 Tx1].
      set (l2 := match br with RAll => if t_start t <? t_stop t then [x] else [] | _ => [] end).
      pose proof (own_lt _ _ _ Ox) as Lx.
      assert (St : reach (itor_split_loop None br true d i count prior rv (of_list (x :: bs0))) h h1 (itor_split_loop None br true d i (count + 1) (Some x) (rv ++ l1 ++ l2) (of_list bs0))).
      { cbn [of_list itor_split_loop under_limit].
        apply (reach_act (fun g => obind (split_clone i d (split_piece br g i prior x) g) (fun g1 l => (g1, Ok (l ++ match br with RAll => if h_start g1 x <? h_stop g1 x then [x] else [] | _ => [] end))))
          (fun l => itor_split_loop None br true d i (count + 1) (Some x) (rv ++ l) (of_list bs0)) h h1 (l1 ++ l2)).
        assert (Ep : split_piece br h i prior x = (a, t_start t)).
        { unfold split_piece. destruct prior as [p|]; [destruct Hp as [_ Ep]; destruct Hbr as [Qbr|Qbr]; rewrite Qbr; rewrite Ep, Sx; reflexivity|]. subst a. destruct Hs as [_ (dd & Q)]. assert (Ea : h_start h i = a0) by (unfold h_start; rewrite Q; reflexivity). destruct Hbr as [Qbr|Qbr]; rewrite Qbr; rewrite Ea, Sx; reflexivity. }
        cbv beta. rewrite Ep, E1. unfold obind. cbn [fst snd]. rewrite Sx1, Tx1. reflexivity. }
      assert (Hr1 : Forall2 (own h1) (rts ++ leaf_opt a (t_start t) ++ keep t) (rv ++ l1 ++ l2)).
      { apply Forall2_app; [exact (own_ext_all h h1 rts rv Hf X1 Hr)|]. apply Forall2_app.
        - unfold leaf_opt, l1. destruct (a <? t_start t); [constructor; [exact O1|constructor]|constructor].
        - unfold keep, l2. destruct br; try constructor. destruct (t_start t <? t_stop t); [constructor; [exact (own_ext _ _ _ _ Hf X1 Ox)|constructor]|constructor]. }
      pose proof (own_all_lt _ _ _ Hr) as Lr. rewrite Forall_forall in Lr. pose proof (own_all_lt _ _ _ Ob) as Lb. rewrite Forall_forall in Lb.
      assert (I1 : forall y, In y l1 -> y = length h) by (unfold l1; destruct (a <? t_start t); intros y Hy; [destruct Hy as [<-|[]]; reflexivity|destruct Hy]).
      assert (I2 : forall y, In y l2 -> y = x) by (unfold l2; destruct br; try (intros y []); destruct (t_start t <? t_stop t); intros y Hy; [destruct Hy as [<-|[]]; reflexivity|destruct Hy]).
      assert (Nr1 : NoDup (rv ++ l1 ++ l2)).
      { apply NoDup_app_new; [exact Nr| |].
        - apply NoDup_app_new; [unfold l1; destruct (a <? t_start t); repeat constructor; intros []|unfold l2; destruct br; try constructor; destruct (t_start t <? t_stop t); repeat constructor; intros []|].
          intros y Y1 Y2. apply I1 in Y1. apply I2 in Y2. lia.
        - intros y Hy Q. apply in_app_or in Q. destruct Q as [Q|Q]; [apply I1 in Q; specialize (Lr _ Hy); lia|apply I2 in Q; subst y; exact (Dis x Hy (or_introl eq_refl))]. }
      destruct (IH bs0 h1 (t_stop t) (count + 1) (Some x) (rv ++ l1 ++ l2) (rts ++ leaf_opt a (t_start t) ++ keep t) Hf1 (source_ext _ _ Hs X1) (own_ext_all _ _ _ _ Hf X1 Ob) Nd' F3 ltac:(lia) Hab) as (h2 & l & R2 & Hf2 & X2 & O2 & N2 & L2).
      + intros _ Q. discriminate Q.
      + split; [destruct X1; lia|exact Tx1].
      + exact Hr1.
      + exact Nr1.
      + intros y Hy Q. apply in_app_or in Hy. destruct Hy as [Hy|Hy]; [exact (Dis y Hy (or_intror Q))|]. apply in_app_or in Hy. destruct Hy as [Hy|Hy]; [apply I1 in Hy; specialize (Lb _ Q); lia|apply I2 in Hy; subst y; contradiction].
      + exists h2, (l1 ++ l2 ++ l). rewrite <- !app_assoc in *. split; [exact (reach_trans _ _ _ _ _ _ St R2)|]. split; [exact Hf2|]. split; [exact (extends_trans _ _ _ X1 X2)|]. split; [|split; [exact N2|]].
        * assert (Es : match prior with None => split_of a (t :: bts) b0 | Some _ => pieces_of a (t :: bts) b0 end = leaf_opt a (t_start t) ++ keep t ++ pieces_of (t_stop t) bts b0) by (destruct prior; reflexivity). rewrite Es. exact O2.
        * apply Forall_app. split; [apply Forall_forall; intros y Hy; apply I1 in Hy; right; lia|]. apply Forall_app. split; [apply Forall_forall; intros y Hy; apply I2 in Hy; left; left; auto|]. eapply Forall_impl; [|exact L2]. cbn beta. intros y [Q|Q]; [left; right; exact Q|right; destruct X1; lia].
  Qed.
End Split.
