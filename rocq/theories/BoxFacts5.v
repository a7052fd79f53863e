From Verif Require Export BoxFacts4 ItoStrFacts4.
From Coq Require Import Lia.
Opaque instances.

(** * Boxes from sides *)
Definition side_needs : list (dir * dir) := [(DW, DE); (DN, DS); (DE, DW); (DS, DN)].
Lemma spread_s_mod n i t : spread_sides n (i mod 4) t = spread_sides n i t.
Proof.
  revert i t. induction n as [|n IH]; intros i t; cbn [spread_sides]; [reflexivity|].
  rewrite succ_mod, !four_mod. destruct (as_bdc (four t i PNone)) as [b|]; [|reflexivity]. cbn [bind].
  destruct (bdc_reflect _ _) as [c|]; [|reflexivity]. cbn [bind].
  rewrite <- (IH (S (i mod 4))), succ_mod, IH. reflexivity.
Qed.
Lemma fill_s_mod n i t : fill_sides n (i mod 4) t = fill_sides n i t.
Proof.
  revert i t. induction n as [|n IH]; intros i t; cbn [fill_sides]; [reflexivity|].
  rewrite succ_mod, !four_mod.
  assert (forall u, fill_sides n (S (i mod 4)) u = fill_sides n (S i) u) as F by (intros u; rewrite <- (IH (S (i mod 4))), succ_mod, IH; reflexivity).
  destruct (negb _); [apply F|]. destruct (as_bdc _) as [b|]; [|reflexivity]. cbn [bind].
  destruct (is_none _).
  - destruct (bdc_rotate b 90); [|reflexivity]. cbn [bind]. apply F.
  - destruct (o_rotate (-90) _); [|reflexivity]. cbn [bind]. destruct (as_bdc _); [|reflexivity]. cbn [bind].
    destruct (o_rotate 90 _); [|reflexivity]. cbn [bind]. destruct (from_opt_styles _); [|reflexivity]. cbn [bind]. apply F.
Qed.
Lemma spread_s_step n i t b : (i < 4)%nat -> slots side_needs t -> nth i t PNone = PBdc b -> nth (S i mod 4) t PNone = PNone ->
  exists c, spread_sides (S n) i t = spread_sides n (S i mod 4) (set_at t (S i mod 4) (PBdc c)) /\
    slots side_needs (set_at t (S i mod 4) (PBdc c)) /\ keeps t (set_at t (S i mod 4) (PBdc c)) /\ nth (S i mod 4) (set_at t (S i mod 4) (PBdc c)) PNone = PBdc c.
Proof.
  intros B SL N M. assert (full (nth i side_needs (DN, DN)) (nth i t PNone)) as (b' & E & I & H) by (apply (slot_bdc _ _ _ SL B); congruence).
  rewrite N in E. injection E as <-.
  destruct (mirror_ok (rotate (nth i side_dirs DN) 45) b I) as [_ (c & E & [J _])].
  exists c. split.
  - cbn [spread_sides]. unfold four at 1 2. rewrite (Nat.mod_small i 4) by lia. rewrite N. cbn [as_bdc bind]. rewrite E. cbn [bind].
    rewrite spread_s_mod. reflexivity.
  - apply set_slots; [exact SL|apply Nat.mod_upper_bound; lia|exact M|exact J|].
    four_cases i B; pose proof (mirror_both _ _ _ _ _ I E H) as K; first [exact K|exact (both_swap _ _ _ K)].
Qed.
Lemma both_arm b d1 d2 d : both b (d1, d2) -> d = d1 \/ d = d2 -> arm b d <> None.
Proof. intros [A B] [->| ->]; assumption. Qed.
Lemma fill_s_step n i t : (i < 4)%nat -> slots side_needs t -> nth i t PNone <> PNone ->
  exists t', fill_sides (S n) i t = fill_sides n (S i mod 4) t' /\ slots side_needs t' /\ keeps t t' /\ nth (S i mod 4) t' PNone <> PNone.
Proof.
  intros B SL N. destruct (slot_bdc _ _ _ SL B N) as (b & E & I & H).
  set (cur := (S i mod 4)%nat). assert (cur < 4)%nat as C by (apply Nat.mod_upper_bound; lia).
  set (new := if is_none (nth (S cur mod 4) t PNone) then bdc_rotate b 90
          else do ds1 <- o_rotate (-90) (ds_get (b_ds b) (nth cur side_dirs DN)); do q <- as_bdc (nth (S cur mod 4) t PNone);
               do ds2 <- o_rotate 90 (ds_get (b_ds q) (nth cur side_dirs DN)); from_opt_styles [ds1; ds2]).
  assert (fill_sides (S n) i t = if negb (is_none (nth cur t PNone)) then fill_sides n cur t else do c <- new; fill_sides n cur (set_at t cur (PBdc c))) as U.
  { cbn [fill_sides]. fold cur. unfold four. rewrite (Nat.mod_small i 4), (Nat.mod_small cur 4) by lia. rewrite E. cbn [as_bdc bind].
    assert (forall u, fill_sides n cur u = fill_sides n (S i) u) as F by (intros u; apply fill_s_mod).
    destruct (negb _); [symmetry; apply F|]. unfold new. destruct (is_none (nth (S cur mod 4) t PNone)).
    - destruct (bdc_rotate b 90); [|reflexivity]. cbn [bind]. symmetry. apply F.
    - destruct (o_rotate (-90) _); [|reflexivity]. cbn [bind]. destruct (as_bdc _); [|reflexivity]. cbn [bind].
      destruct (o_rotate 90 _); [|reflexivity]. cbn [bind]. destruct (from_opt_styles _); [|reflexivity]. cbn [bind]. symmetry. apply F. }
  rewrite U. clear U. destruct (is_none (nth cur t PNone)) eqn:M; cbn [negb].
  2:{ exists t. split; [reflexivity|]. split; [exact SL|]. split; [apply keeps_refl|]. intros Q. rewrite Q in M. discriminate. }
  apply is_none_spec in M.
  assert (exists c, new = Ok c /\ In c instances /\ both c (nth cur side_needs (DN, DN))) as (c & Ec & Ic & Hc).
  { unfold new. destruct (is_none (nth (S cur mod 4) t PNone)) eqn:Q.
    - destruct (turn_ok 90 b eq_refl I) as [_ (c & Ec & [J _])]. exists c. split; [exact Ec|]. split; [exact J|].
      unfold cur. clear - B I Ec H. four_cases i B; exact (turn_both _ _ _ _ I Ec H).
    - assert (nth (S cur mod 4) t PNone <> PNone) as Q' by (intros X; rewrite X in Q; discriminate).
      destruct (slot_bdc _ _ _ SL (lt4 _) Q') as (y & Ey & Iy & Hy). rewrite Ey.
      assert (arm b (nth cur side_dirs DN) <> None /\ arm y (nth cur side_dirs DN) <> None) as [A1 A2].
      { unfold cur in *. clear - B H Hy. four_cases i B; (split; [apply (both_arm _ _ _ _ H)|apply (both_arm _ _ _ _ Hy)]); cbn; tauto. }
      destruct (arm_ex _ _ A1) as [s1 A1'], (arm_ex _ _ A2) as [s2 A2']. rewrite (get_some _ _ _ A1'). cbn [o_rotate bind as_bdc].
      rewrite (get_some _ _ _ A2'). cbn [o_rotate bind]. rewrite opt_styles. unfold ds_rotate. cbn [fst snd].
      assert (In (rotate (nth cur side_dirs DN) (-90), rotate (nth cur side_dirs DN) 90) pairs) as P.
      { unfold cur. clear - B. four_cases i B; vm_compute; tauto. }
      destruct (pair_arms _ _ s1 s2 P (table_styles _ _ _ I A1') (table_styles _ _ _ Iy A2')) as (c & Ec & _ & Ic & Hc).
      exists c. split; [exact Ec|]. split; [exact Ic|]. unfold cur in *. clear - Hc B. four_cases i B; first [exact Hc|exact (both_swap _ _ _ Hc)]. }
  rewrite Ec. cbn [bind]. exists (set_at t cur (PBdc c)). split; [reflexivity|].
  destruct (set_slots side_needs t cur c SL C M Ic Hc) as (S' & K & X). split; [exact S'|]. split; [exact K|]. rewrite X. discriminate.
Qed.
Lemma fill_s_ok i t : (i < 4)%nat -> slots side_needs t -> nth i t PNone <> PNone ->
  exists t' c0 c1 c2 c3, fill_sides 3 i t = Ok t' /\ keeps t t' /\ all_full side_needs t' c0 c1 c2 c3.
Proof.
  intros B SL N.
  destruct (fill_s_step 2 i t B SL N) as (t1 & E1 & S1 & K1 & N1).
  destruct (fill_s_step 1 _ t1 (lt4 _) S1 N1) as (t2 & E2 & S2 & K2 & N2).
  destruct (fill_s_step 0 _ t2 (lt4 _) S2 N2) as (t3 & E3 & S3 & K3 & N3).
  assert (keeps t t3) as K by exact (keeps_trans _ _ _ K1 (keeps_trans _ _ _ K2 K3)).
  assert (keeps t1 t3) as K13 by exact (keeps_trans _ _ _ K2 K3).
  destruct (all_some side_needs t3 S3) as (c0 & c1 & c2 & c3 & F).
  { assert (nth i t3 PNone <> PNone) as M0 by (rewrite (K i N); exact N).
    assert (nth (S i mod 4) t3 PNone <> PNone) as M1 by (rewrite (K13 _ N1); exact N1).
    assert (nth (S (S i mod 4) mod 4) t3 PNone <> PNone) as M2 by (rewrite (K3 _ N2); exact N2).
    clear - B M0 M1 M2 N3. four_cases i B; cbn in M0, M1, M2, N3; intros j J; four_cases j J; assumption. }
  exists t3, c0, c1, c2, c3. split; [|split; [exact K|exact F]]. rewrite E1, E2, E3. reflexivity.
Qed.
Lemma spread_s_ok i t b : (i < 4)%nat -> slots side_needs t -> nth i t PNone = PBdc b -> (forall j, i <> j -> nth j t PNone = PNone) ->
  exists t' c0 c1 c2 c3, spread_sides 3 i t = Ok t' /\ keeps t t' /\ all_full side_needs t' c0 c1 c2 c3.
Proof.
  intros B S0 N0 Q0.
  set (i1 := (S i mod 4)%nat). set (i2 := (S i1 mod 4)%nat). set (i3 := (S i2 mod 4)%nat).
  assert (i <> i1 /\ i <> i2 /\ i <> i3 /\ i1 <> i2 /\ i1 <> i3 /\ i2 <> i3) as D.
  { unfold i1, i2, i3. clear - B. four_cases i B; cbn; lia. }
  destruct D as (D1 & D2 & D3 & D4 & D5 & D6).
  destruct (spread_s_step 2 i t b B S0 N0 (Q0 _ D1)) as (c1 & E1 & S1 & K1 & N1). fold i1 in E1, S1, K1, N1.
  assert (nth i2 (set_at t i1 (PBdc c1)) PNone = PNone) as Q1.
  { rewrite setat_nth by (destruct S0 as [L _]; unfold i1; pose proof (lt4 (S i)); lia). apply Nat.eqb_neq in D4. rewrite D4. exact (Q0 _ D2). }
  destruct (spread_s_step 1 i1 _ c1 (lt4 _) S1 N1 Q1) as (c2 & E2 & S2 & K2 & N2). fold i2 in E2, S2, K2, N2.
  set (t2 := set_at (set_at t i1 (PBdc c1)) i2 (PBdc c2)) in *.
  assert (nth i3 t2 PNone = PNone) as Q2.
  { unfold t2. rewrite setat_nth by (destruct S1 as [L _]; unfold i2; pose proof (lt4 (S i1)); lia). apply Nat.eqb_neq in D6. rewrite D6.
    rewrite setat_nth by (destruct S0 as [L _]; unfold i1; pose proof (lt4 (S i)); lia). apply Nat.eqb_neq in D5. rewrite D5. exact (Q0 _ D3). }
  destruct (spread_s_step 0 i2 _ c2 (lt4 _) S2 N2 Q2) as (c3 & E3 & S3 & K3 & N3). fold i3 in E3, S3, K3, N3.
  set (t3 := set_at t2 i3 (PBdc c3)) in *.
  assert (keeps t t3) as K by exact (keeps_trans _ _ _ K1 (keeps_trans _ _ _ K2 K3)).
  assert (nth i t3 PNone <> PNone) as M0 by (rewrite K; rewrite N0; discriminate).
  assert (nth i1 t3 PNone <> PNone) as M1 by (rewrite (keeps_trans _ _ _ K2 K3); rewrite N1; discriminate).
  assert (nth i2 t3 PNone <> PNone) as M2 by (rewrite K3; rewrite N2; discriminate).
  assert (nth i3 t3 PNone <> PNone) as M3 by (rewrite N3; discriminate).
  destruct (all_some side_needs t3 S3) as (x0 & x1 & x2 & x3 & F).
  { clearbody t3. unfold i3, i2, i1 in M1, M2, M3. clear - B M0 M1 M2 M3. four_cases i B; cbn in M0, M1, M2, M3; intros j J; four_cases j J; assumption. }
  exists t3, x0, x1, x2, x3. split; [|split; [exact K|exact F]]. rewrite E1, E2, E3. reflexivity.
Qed.

Lemma gives_cases p d d' : gives p d d' -> p = PNone \/ exists b, p = PBdc b /\ In b instances /\ both b (d, d').
Proof. intros [H|(b & H & I & A & B)]; [now left|right]. exists b. split; [exact H|]. split; [exact I|]. split; assumption. Qed.
Lemma check_arms_ok l v : (forall d p, In (d, p) l -> Bool.eqb (dir_eqb d DW || dir_eqb d DE) v = true ->
    p = PNone \/ exists b, p = PBdc b /\ both b (if v then (DN, DS) else (DW, DE))) -> check_arms l v = Ok tt.
Proof.
  induction l as [|[d p] l IH]; intros H; [reflexivity|]. cbn [check_arms].
  assert (check_arms l v = Ok tt) as R by (apply IH; intros d' p' I; exact (H d' p' (or_intror I))).
  destruct (Bool.eqb _ v) eqn:E; [|exact R]. destruct (H d p (or_introl eq_refl) E) as [-> |(b & -> & A & B)]; [exact R|].
  cbn [is_none negb andb as_bdc bind]. rewrite (proj2 (existsb_false_iff _ _)); [exact R|].
  intros a Ia. assert (arm b a <> None) as N by (destruct v; cbn in A, B, Ia; destruct Ia as [<-|[<-|[]]]; assumption).
  rewrite <- ds_get_arm in N. destruct (ds_get (b_ds b) a); [reflexivity|]. cbn in N. congruence.
Qed.
Lemma corner_of d1 d2 a b : In a instances -> In b instances -> arm a d1 <> None -> arm b d2 <> None -> In (d1, d2) pairs ->
  exists c, from_opt_styles [ds_get (b_ds a) d1; ds_get (b_ds b) d2] = Ok c /\ In c instances /\ spans c d1 a d1 d2 b d2.
Proof.
  intros Ia Ib A B P. destruct (arm_ex _ _ A) as [s1 A1], (arm_ex _ _ B) as [s2 B1].
  rewrite (get_some _ _ _ A1), (get_some _ _ _ B1), opt_styles.
  destruct (pair_arms _ _ s1 s2 P (table_styles _ _ _ Ia A1) (table_styles _ _ _ Ib B1)) as (c & Ec & C & Ic & _).
  exists c. split; [exact Ec|]. split; [exact Ic|]. exists s1, s2. auto.
Qed.
Lemma side_corners_ok t c0 c1 c2 c3 : all_full side_needs t c0 c1 c2 c3 ->
  exists k0 k1 k2 k3, side_corner t 0 = Ok k0 /\ side_corner t 1 = Ok k1 /\ side_corner t 2 = Ok k2 /\ side_corner t 3 = Ok k3 /\
    let x := Frame k3 c0 k0 c3 c1 k2 c2 k1 in in_table x /\ corners_span x.
Proof.
  intros [-> [_ SL]].
  destruct (SL 0%nat ltac:(lia)) as [I0 [A0 B0]], (SL 1%nat ltac:(lia)) as [I1 [A1 B1]], (SL 2%nat ltac:(lia)) as [I2 [A2 B2]], (SL 3%nat ltac:(lia)) as [I3 [A3 B3]].
  cbn [nth fst snd side_needs] in *.
  destruct (corner_of DW DS c0 c1 I0 I1 A0 B1 ltac:(vm_compute; tauto)) as (k0 & E0 & J0 & P0).
  destruct (corner_of DN DW c1 c2 I1 I2 A1 B2 ltac:(vm_compute; tauto)) as (k1 & E1 & J1 & P1).
  destruct (corner_of DE DN c2 c3 I2 I3 A2 B3 ltac:(vm_compute; tauto)) as (k2 & E2 & J2 & P2).
  destruct (corner_of DS DE c3 c0 I3 I0 A3 B0 ltac:(vm_compute; tauto)) as (k3 & E3 & J3 & P3).
  exists k0, k1, k2, k3. split; [exact E0|]. split; [exact E1|]. split; [exact E2|]. split; [exact E3|].
  cbv zeta. split; [unfold in_table; cbn; tauto|]. unfold corners_span. cbn. auto.
Qed.
Lemma gives_slot p d d' : gives p d d' -> slot (d, d') p.
Proof. intros G. destruct (gives_cases _ _ _ G) as [-> |(b & -> & H)]; [exact I|exact H]. Qed.
Lemma slot_swap p d d' : slot (d, d') p -> slot (d', d) p.
Proof. destruct p as [|s|b]; cbn; [trivial|trivial|]. intros [I H]. split; [exact I|exact (both_swap _ _ _ H)]. Qed.
Lemma slot_none_or d p : slot d p -> p = PNone \/ exists b, p = PBdc b /\ In b instances /\ both b d.
Proof. destruct p as [|s|b]; cbn; intros H; [now left|destruct H|right; exists b; auto]. Qed.
Theorem sides_spec n w e s : gives n DW DE -> gives w DN DS -> gives e DN DS -> gives s DW DE ->
  ~ (n = PNone /\ w = PNone /\ e = PNone /\ s = PNone) ->
  exists x, from_sides n w e s = Ok (drawn_frame x) /\ in_table x /\ corners_span x /\
    kept n (f_n x) /\ kept w (f_w x) /\ kept e (f_e x) /\ kept s (f_s x).
Proof.
  intros Gn Gw Ge Gs NN. set (t := [n; e; s; w]).
  assert (slots side_needs t) as SL.
  { split; [reflexivity|]. intros i B. four_cases i B; cbn [nth t side_needs]; first [apply gives_slot; assumption|apply slot_swap, gives_slot; assumption]. }
  unfold from_sides. fold t.
  destruct (first_index (fun p => negb (is_none p)) t 0) as [k|] eqn:K.
  2:{ exfalso. apply NN. pose proof (first_index_none _ _ _ K) as F.
      assert (forall p, In p t -> p = PNone) as G by (intros p Ip; apply is_none_spec; specialize (F p Ip); cbn beta in F; destruct (is_none p); [reflexivity|discriminate F]).
      split; [apply G; now left|]. split; [apply G; right; right; right; now left|]. split; [apply G; right; now left|]. apply G. right. right. now left. }
  destruct (first_index_spec _ _ _ _ PNone K) as [KB KN]. rewrite Nat.sub_0_r in KN. cbn [length t] in KB.
  assert (nth k t PNone <> PNone) as KN' by (intros X; rewrite X in KN; discriminate).
  assert (check_sides t = Ok tt) as CS.
  { assert (forall p, In p t -> forall q, p <> PStr q) as G.
    { intros p Ip q ->. destruct (In_nth t (PStr q) PNone Ip) as (i & B & E). cbn in B. pose proof (proj2 SL i B) as X. rewrite E in X. exact X. }
    clearbody t. clear - G. induction t as [|p t IH]; [reflexivity|]. assert (check_sides t = Ok tt) as R by (apply IH; intros q Iq; apply G; now right).
    destruct p as [|q|b]; cbn [check_sides]; [exact R| |exact R]. destruct (G (PStr q) (or_introl eq_refl) q eq_refl). }
  rewrite CS. cbn [bind].
  assert (check_arms (combine side_dirs t) false = Ok tt) as C1.
  { apply check_arms_ok. intros d p Ip E. cbn in Ip. destruct Ip as [[= <- <-]|[[= <- <-]|[[= <- <-]|[[= <- <-]|[]]]]]; cbn in E; try discriminate.
    - destruct (gives_cases _ _ _ Gn) as [H|(b & H & _ & B)]; [now left|right; exists b; auto].
    - destruct (gives_cases _ _ _ Gs) as [H|(b & H & _ & B)]; [now left|right; exists b; auto]. }
  assert (check_arms (combine side_dirs t) true = Ok tt) as C2.
  { apply check_arms_ok. intros d p Ip E. cbn in Ip. destruct Ip as [[= <- <-]|[[= <- <-]|[[= <- <-]|[[= <- <-]|[]]]]]; cbn in E; try discriminate.
    - destruct (gives_cases _ _ _ Ge) as [H|(b & H & _ & B)]; [now left|right; exists b; auto].
    - destruct (gives_cases _ _ _ Gw) as [H|(b & H & _ & B)]; [now left|right; exists b; auto]. }
  assert (exists t' c0 c1 c2 c3, (if (length (filter is_none t) =? 3)%nat then spread_sides 3 k t
      else do _ <- check_arms (combine side_dirs t) false; do _ <- check_arms (combine side_dirs t) true; fill_sides 3 k t) = Ok t' /\ keeps t t' /\ all_full side_needs t' c0 c1 c2 c3)
    as (t' & c0 & c1 & c2 & c3 & E' & KP & FU).
  { rewrite C1, C2. cbn [bind]. destruct (Nat.eqb_spec (length (filter is_none t)) 3) as [O|O].
    - assert (k < 4)%nat as K4 by lia. destruct (slot_bdc _ _ _ SL K4 KN') as (b & Eb & _). apply (spread_s_ok k t b); [lia|exact SL|exact Eb|].
      intros j J. destruct (lt_dec j 4) as [Jb|Jb]; [|unfold t; apply nth_overflow; cbn; lia].
      destruct (is_none (nth j t PNone)) eqn:Q; [apply is_none_spec; exact Q|]. exfalso. clear - O KN KB J Jb Q. unfold t in *.
      four_cases k KB; four_cases j Jb; try congruence; cbn [nth] in KN, Q; apply Bool.negb_true_iff in KN; cbn [filter] in O; rewrite KN, Q in O;
        repeat (match type of O with context [is_none ?p] => destruct (is_none p) end); cbn in O; discriminate.
    - apply fill_s_ok; [lia|exact SL|exact KN']. }
  rewrite E'. cbn [bind]. destruct (side_corners_ok t' c0 c1 c2 c3 FU) as (k0 & k1 & k2 & k3 & E0 & E1 & E2 & E3 & T & SP).
  rewrite E0, E1, E2, E3. cbn [bind]. exists (Frame k3 c0 k0 c3 c1 k2 c2 k1). destruct FU as [-> _].
  split; [reflexivity|]. split; [exact T|]. split; [exact SP|]. cbn [f_n f_w f_e f_s]. clear - KP. unfold t in KP.
  assert (forall i, (i < 4)%nat -> kept (nth i [n; e; s; w] PNone) (nth i [c0; c1; c2; c3] c0)) as G.
  { intros i B. destruct (nth i [n; e; s; w] PNone) as [|q|b] eqn:E.
    - now left.
    - right. pose proof (KP i) as X. rewrite E in X. assert (PStr q <> PNone) as Y by discriminate. specialize (X Y). four_cases i B; discriminate.
    - right. pose proof (KP i) as X. rewrite E in X. assert (PBdc b <> PNone) as Y by discriminate. specialize (X Y). rewrite <- X. four_cases i B; reflexivity. }
  split; [exact (G 0%nat ltac:(lia))|]. split; [exact (G 3%nat ltac:(lia))|]. split; [exact (G 1%nat ltac:(lia))|]. exact (G 2%nat ltac:(lia)).
Qed.
Lemma meet_sym a d b d' : meet a d b d' -> meet b d' a d.
Proof. intros (s & A & B). exists s. auto. Qed.
Lemma corner_meet c d a e d' b e' : d <> d' -> spans c d a d d' b d' -> level a d e -> level b d' e' -> joinable d a e d' b e' -> meet a e c d /\ meet c d' b e'.
Proof.
  intros N (s & s' & A & B & C) La Lb J. apply (span_meet c d a e d' b e' N); [|exact J]. exists s, s'. unfold level in *. rewrite <- La, <- Lb. auto.
Qed.
Theorem sides_joined x : corners_span x ->
  level (f_n x) DW DE -> level (f_s x) DW DE -> level (f_w x) DN DS -> level (f_e x) DN DS ->
  joinable DW (f_n x) DE DS (f_e x) DN -> joinable DN (f_e x) DS DW (f_s x) DE ->
  joinable DE (f_s x) DW DN (f_w x) DS -> joinable DS (f_w x) DN DE (f_n x) DW -> joined x.
Proof.
  intros (P0 & P1 & P2 & P3) Ln Ls Lw Le J0 J1 J2 J3.
  assert (DW <> DS) as N0 by discriminate. assert (DN <> DW) as N1 by discriminate.
  assert (DE <> DN) as N2 by discriminate. assert (DS <> DE) as N3 by discriminate.
  destruct (corner_meet _ _ _ _ _ _ _ N0 P0 Ln (eq_sym Le) J0) as [M0 M1].
  destruct (corner_meet _ _ _ _ _ _ _ N1 P1 Le Ls J1) as [M2 M3].
  destruct (corner_meet _ _ _ _ _ _ _ N2 P2 (eq_sym Ls) Lw J2) as [M4 M5].
  destruct (corner_meet _ _ _ _ _ _ _ N3 P3 (eq_sym Lw) (eq_sym Ln) J3) as [M6 M7].
  unfold joined. auto 10 using meet_sym.
Qed.

(** * Rows *)
Lemma rep_repeat c n : rep_str [c] n = repeat c n.
Proof. induction n as [|n IH]; [reflexivity|]. cbn. rewrite IH. reflexivity. Qed.
Lemma max_fold r n : fold_left Nat.max r n = Nat.max n (fold_right Nat.max 0%nat r).
Proof. revert n. induction r as [|x r IH]; intros n; cbn; [lia|]. rewrite IH. lia. Qed.
Lemma widest_ge l s : In s l -> (length s <= widest l)%nat.
Proof. induction l as [|x l IH]; intros []; cbn [widest fold_right]; fold (widest l); [subst; lia|]. specialize (IH H). lia. Qed.
Lemma widest_hit l : l <> [] -> exists s, In s l /\ length s = widest l.
Proof.
  induction l as [|x l IH]; [congruence|]. intros _. cbn [widest fold_right]. fold (widest l).
  destruct l as [|y l]; [exists x; split; [now left|symmetry; apply Nat.max_0_r]|]. destruct (IH ltac:(discriminate)) as (s & I & E).
  destruct (Nat.max_spec (length x) (widest (y :: l))) as [[_ M]|[_ M]]; rewrite M; [exists s; split; [now right|exact E]|exists x; split; [now left|reflexivity]].
Qed.
Lemma center_row w e text m : (length text <= m)%nat -> row (w ++ [32] ++ center text m ++ [32] ++ e) w e text m.
Proof.
  intros L. unfold center. set (pad := (m - length text)%nat). exists (pad / 2)%nat, (pad - pad / 2)%nat. rewrite !rep_repeat, <- !app_assoc.
  split; [reflexivity|]. pose proof (Nat.div_mod pad 2 ltac:(lia)) as D. pose proof (Nat.mod_upper_bound pad 2 ltac:(lia)) as U. unfold pad in *. lia.
Qed.
Lemma filter_all {A} (f : A -> bool) l : (forall x, In x l -> f x = true) -> filter f l = l.
Proof. induction l as [|x l IH]; intros H; [reflexivity|]. cbn. rewrite (H x (or_introl eq_refl)), IH; [reflexivity|]. intros y I. apply H. now right. Qed.
Lemma from_srcs_lines srcs : Forall fwf srcs -> map ito_str (flat_map (fun s => str_splitlines s false None) srcs) = src_lines srcs.
Proof.
  induction 1 as [|s r W _ IH]; [reflexivity|]. cbn [flat_map src_lines]. rewrite map_app, IH. f_equal. exact (str_splitlines_eq s false None W).
Qed.

Lemma map_ext_len (l : list fito) printable : (forall c t, In t (map ito_str l) -> In c t -> printable c = true) ->
  map (fun i => length (filter printable (ito_str i))) l = map (@length Z) (map ito_str l).
Proof.
  intros H. rewrite map_map. apply map_ext_in. intros i I. rewrite filter_all; [reflexivity|]. intros c C. apply (H c (ito_str i)); [exact (in_map ito_str _ _ I)|exact C].
Qed.
Lemma fold_max_widest (l : list pystr) : fold_right Nat.max 0%nat (map (@length Z) l) = widest l.
Proof. induction l as [|x l IH]; [reflexivity|]. cbn [map fold_right widest]. rewrite IH. reflexivity. Qed.
Theorem box_rows printable b srcs : Forall fwf srcs -> src_lines srcs <> [] ->
  (forall c t, In t (src_lines srcs) -> In c t -> printable c = true) ->
  let m := widest (src_lines srcs) in
  exists rows, from_srcs printable b srcs = Ok ([bx_nw b ++ rep_str (bx_n b) (m + 2) ++ bx_ne b] ++ rows ++ [bx_sw b ++ rep_str (bx_s b) (m + 2) ++ bx_se b]) /\
    Forall2 (fun r t => row r (bx_w b) (bx_e b) t m) rows (src_lines srcs).
Proof.
  intros W N P m. unfold from_srcs, from_lines. pose proof (from_srcs_lines srcs W) as E.
  set (l := flat_map (fun s => str_splitlines s false None) srcs) in *. clearbody l. unfold m. clear m. rewrite <- E in N, P |- *. clear E W.
  rewrite (map_ext_len l printable P).
  assert (forall t, In t (map ito_str l) -> (length t <= widest (map ito_str l))%nat) as G by (intros t; apply widest_ge).
  rewrite <- fold_max_widest in *. destruct l as [|i l]; [destruct (N eq_refl)|]. cbn [map]. rewrite max_fold.
  set (M := Nat.max (length (ito_str i)) (fold_right Nat.max 0%nat (map (@length Z) (map ito_str l)))).
  change (fold_right Nat.max 0%nat (length (ito_str i) :: map (@length Z) (map ito_str l))) with M.
  change (fold_right Nat.max 0%nat (map (@length Z) (map ito_str (i :: l)))) with M in G. clearbody M.
  eexists. split; [reflexivity|]. change (ito_str i :: map ito_str l) with (map ito_str (i :: l)). change (ito_str i :: map ito_str l) with (map ito_str (i :: l)) in G. clear - G.
  match goal with |- Forall2 _ ?a _ => change a with (map (fun l0 => bx_w b ++ [32] ++ center (ito_str l0) M ++ [32] ++ bx_e b) (i :: l)) end.
  induction (i :: l) as [|x r IH]; [constructor|]. cbn [map]. constructor; [apply center_row, G; now left|]. apply IH. intros t I. apply G. now right.
Qed.
Lemma box_no_lines printable b srcs : Forall fwf srcs -> src_lines srcs = [] -> from_srcs printable b srcs = Err ValueError.
Proof.
  intros W N. unfold from_srcs, from_lines. rewrite <- (from_srcs_lines srcs W) in N. apply map_eq_nil in N. rewrite N. reflexivity.
Qed.
Lemma row_len r w e t m : length w = 1%nat -> length e = 1%nat -> row r w e t m -> length r = (m + 4)%nat.
Proof. intros Lw Le (a & b & -> & E & _). rewrite !app_length, !repeat_length, Lw, Le. cbn. lia. Qed.
Lemma corners_bad_char l s : (1 <= length l <= 4)%nat -> In (PStr s) l -> (forall b, In b instances -> s <> [b_char b]) -> from_corners l = Err ValueError.
Proof.
  intros B I N. unfold from_corners. replace ((length l =? 0)%nat || (4 <? length l)%nat) with false.
  2:{ symmetry. apply orb_false_iff. split; [apply Nat.eqb_neq; lia|apply Nat.ltb_ge; lia]. }
  enough (map_res corner_bdc l = Err ValueError) as E by (rewrite E; reflexivity). clear B. induction l as [|p l IH]; [destruct I|].
  change (map_res corner_bdc (p :: l)) with (do y <- corner_bdc p; do ys <- map_res corner_bdc l; Ok (y :: ys)). destruct I as [->|I].
  - cbn [corner_bdc]. rewrite (from_char_err s N). reflexivity.
  - rewrite (IH I). destruct p as [|q|b]; cbn [corner_bdc bind]; try reflexivity. unfold from_char. destruct (find _ _); reflexivity.
Qed.
