(** Proofs: add_hierarchical keeps every heap well-formed unless it raises; no matter
    whether the parent chain is a cycle. *)
From Verif Require Export HierHeap6.
From Coq Require Import Arith.

Lemma kids_seg h p : hwf h -> seg_ok (starts_of h (n_kids (nd h p))) (stops_of h (n_kids (nd h p))).
Proof.
  intros H. unfold seg_ok, starts_of, stops_of. rewrite !map_length. split; [reflexivity|]. split.
  - intros i Hi. fold (starts_of h (n_kids (nd h p))) (stops_of h (n_kids (nd h p))). rewrite key_starts, key_stops by exact Hi. pose proof (h_span h (nth i (n_kids (nd h p)) 0%nat) H). lia.
  - intros i j Hij. fold (starts_of h (n_kids (nd h p))) (stops_of h (n_kids (nd h p))). rewrite !key_starts, key_stops by lia. exact (sorted_nth h _ i j (hwf_sorted h H p) Hij).
Qed.
(** what is common to all steps *)
Definition went (h h' : heap) (c : nat) : Prop :=
  hwf h' /\ length h' = length h /\ same_f h h' /\ forall x, x <> c -> n_par (nd h x) = None -> n_par (nd h' x) = None.
Lemma went_trans h h1 h2 c : went h h1 c -> went h1 h2 c -> went h h2 c.
Proof.
  intros (_ & L1 & D1 & N1) (W2 & L2 & D2 & N2). split; [exact W2|]. split; [lia|]. split; [exact (same_f_trans _ _ _ D1 D2)|]. auto.
Qed.

Lemma accepted_wf key : forall n h p c h', hwf h -> (p < length h)%nat -> (c < length h)%nat -> add_hier1 n key h p c = (h', Ok tt) -> went h h' c.
Proof.
  induction n as [|n IH]; intros h p c h' H Hp Hc E; [discriminate|]. rewrite add_hier1_S in E. destruct (n_par (nd h c)) eqn:Nc; [discriminate|].
  destruct (n_kids (nd h p)) as [|k0 ks0] eqn:Eks.
  - destruct (set_parent_ok h c p) eqn:Ep; [|discriminate]. injection E as <-. apply set_parent_ok_iff in Ep. destruct Ep as [Fi Hne].
    destruct (hwf_insert h p c [] [] H Hp Hc Nc Fi Hne Eks (Forall_nil _) (Forall_nil _)) as (W & L & D).
    split; [exact W|]. split; [exact L|]. split; [exact D|]. intros x Hx Nx. rewrite par_set_kids, par_set_par by exact Hc. destruct (Nat.eqb_spec x c); [contradiction|exact Nx].
  - clear Eks k0 ks0.
    assert (Fl : forall m g g1, hwf g -> length g = length h -> n_par (nd g c) = None -> flat_go (fun h d => add_hier1 n key h p d) c m g = (g1, Ok tt) -> went g g1 c /\ n_par (nd g1 c) = None /\ n_kids (nd g1 c) = []).
    { induction m as [|m IHm]; intros g g1 Wg Lg Ng Eg; cbn [flat_go] in Eg.
      - destruct (n_kids (nd g c)) eqn:Ek; [|discriminate]. injection Eg as <-. split; [|auto]. split; [exact Wg|]. split; [reflexivity|]. split; [intros j; reflexivity|auto].
      - destruct (n_kids (nd g c)) as [|k1 ks1] eqn:Ek.
        + injection Eg as <-. split; [|auto]. split; [exact Wg|]. split; [reflexivity|]. split; [intros j; reflexivity|auto].
        + fold (flat_go (fun h d => add_hier1 n key h p d) c) in Eg. unfold kids_pop, kids_del_int in Eg. destruct (py_pos _ _) as [i|e] eqn:Epos; [|discriminate].
          apply py_pos_ok in Epos. unfold obind in Eg. cbn [fst snd] in Eg.
          destruct (kids_del_at_spec g c [i] Wg ltac:(lia) (Forall_cons i (P:=fun k => (k < length (n_kids (nd g c)))%nat) Epos (Forall_nil _))) as (W1 & L1 & D1 & _ & P1 & _). set (d := nth i (n_kids (nd g c)) 0%nat) in *.
          pose proof (hwf_kid g Wg c d (nth_In _ _ Epos)) as (Pd & _ & _ & Ld).
          assert (Hdc : d <> c) by (intros X; rewrite X in Pd; congruence).
          set (g0 := kids_del_at g c [i]) in *. assert (N0 : forall x, n_par (nd g x) = None -> n_par (nd g0 x) = None) by (intros x Nx; rewrite P1; destruct (existsb _ _); [reflexivity|exact Nx]).
          destruct (add_hier1 n key g0 p d) as [g2 [[]|e]] eqn:E2; [|discriminate].
          assert (Lp : (p < length g0)%nat) by (rewrite L1, Lg; exact Hp). assert (Ld' : (d < length g0)%nat) by (rewrite L1; exact Ld).
          destruct (IH g0 p d g2 W1 Lp Ld' E2) as (W2 & L2 & D2 & N2).
          destruct (IHm g2 g1 W2 ltac:(lia) (N2 c (not_eq_sym Hdc) (N0 c Ng)) Eg) as ((W3 & L3 & D3 & N3) & N4 & K4).
          split; [|auto]. split; [exact W3|]. split; [lia|]. split; [exact (same_f_trans _ _ _ D1 (same_f_trans _ _ _ D2 D3))|].
          intros x Hx Nx. apply N3; [exact Hx|]. apply N2; [|apply N0; exact Nx]. intros ->. congruence. }
    unfold obind in E. destruct (flat_go _ c _ h) as [h1 [[]|e]] eqn:Ef; [|discriminate]. destruct (Fl _ _ _ H eq_refl Nc Ef) as (G1 & N1 & K1). clear Fl Ef. cbn [fst snd] in E.
    pose proof G1 as (W1 & L1 & D1 & _). unfold place_go in E. cbv zeta in E. apply (went_trans h h1); [exact G1|]. clear G1.
    set (ks := n_kids (nd h1 p)) in *.
    pose proof (h_span h1 c W1) as Hsp.
    pose proof (hier_action_ok _ _ (h_start h1 c) (h_stop h1 c) (fun i => key_deeper key (n_f (nd h1 c)) (n_f (nd h1 (nth i ks 0%nat)))) (kids_seg h1 p W1) ltac:(lia)) as Hok.
    fold ks in Hok. destruct (hier_action _ _ _ _ _) as [i| |i j]; [|discriminate|]; cbn [act_ok] in Hok; unfold starts_of at 1 in Hok; rewrite ?map_length in Hok.
    + destruct Hok as (Hi & _). assert (Hk : In (nth i ks 0%nat) ks) by (apply nth_In; exact Hi). pose proof (hwf_kid h1 W1 p _ Hk) as (_ & _ & _ & Lk).
      rewrite <- L1 in Hc. exact (IH _ _ _ _ W1 Lk Hc E).
    + destruct Hok as (Hij & O1 & O2 & O3 & _). unfold starts_of at 1 in O3. rewrite map_length in O3. assert (E' : do_wrap h1 p c i j = (h', Ok tt)) by exact E. clear E.
      assert (Fc : fits h1 c p /\ c <> p).
      { unfold do_wrap in E'. cbv zeta in E'. fold ks in E'.
        match type of E' with obind ?w _ = _ => assert (G : same_f h1 (fst w)) end.
        { destruct (i =? j)%nat; [intros q; reflexivity|]. unfold kids_del_slice. destruct (slice_positions _ _ _ _) as [pos|e]; [|intros q; reflexivity]. unfold obind. destruct (del_at_f h1 p pos) as [D2 D3].
          assert (K2 : kids_fit (kids_del_at h1 p pos)) by (apply (kids_fit_mono h1); [exact D2|auto|intros q k Hk; apply (hwf_kid h1 W1 q k Hk)]).
          destruct (kids_add_f c (firstn (j - i) (skipn i ks)) _ K2) as [D4 _]. exact (same_f_trans _ _ _ D2 D4). }
        unfold obind at 1 in E'. destruct (if (i =? j)%nat then _ else _) as [h2 [[]|e]]; [|discriminate]. cbn [fst] in G. destruct (set_parent_ok _ c p) eqn:Ep; [|discriminate].
        rewrite set_kids_par_ok in Ep. apply set_parent_ok_iff in Ep. destruct Ep as [Fi Hne]. split; [apply (same_f_fits h1 h2 c p G); exact Fi|exact Hne]. }
      destruct Fc as [Fc Hne]. rewrite <- L1 in Hp, Hc.
      assert (Hmfit : Forall (fun x => fits h1 x c) (firstn (j - i) (skipn i ks))).
      { apply Forall_forall. intros x Hx. destruct (In_mid_nth _ i j 0%nat x Hij Hx) as (k & Hk' & <-).
        specialize (O2 k Hk'). rewrite key_starts, key_stops in O2 by lia.
        assert (Hkin : In (nth k ks 0%nat) ks) by (apply nth_In; lia). pose proof (hwf_kid h1 W1 p _ Hkin) as (_ & Fk & _). destruct Fk as (F1 & _), Fc as (F2 & _). split; [congruence|]. lia. }
      destruct (do_wrap_spec h1 p c i j W1 Hp Hc Hne N1 K1 Fc Hij Hmfit) as (h2 & E2 & Hwr). rewrite E' in E2. injection E2 as <-.
      fold ks in Hwr. pose proof (split3 ks i j Hij) as Ek.
      assert (Hl : Forall (fun x => h_before h1 x c) (firstn i ks)).
      { apply Forall_forall. intros x Hx. destruct (In_firstn_nth ks i 0%nat x ltac:(lia) Hx) as (k & Hk' & <-). specialize (O1 k Hk'). rewrite key_starts, key_stops in O1 by lia. exact O1. }
      assert (Hr : Forall (h_before h1 c) (skipn j ks)).
      { apply Forall_forall. intros x Hx. destruct (In_skipn_nth _ j 0%nat x Hx) as (k & Hk' & <-). specialize (O3 k ltac:(lia)). rewrite key_starts in O3 by lia. exact O3. }
      split; [exact (wrap_hwf h1 h' p c _ _ _ W1 Hp Hc Hne N1 K1 Ek Fc Hl Hmfit Hr Hwr)|].
      destruct Hwr as (L2 & D2 & _ & P2). split; [exact L2|]. split; [exact D2|]. intros x Hx Nx. rewrite P2. destruct (Nat.eqb_spec x c); [contradiction|].
      destruct (memb x _) eqn:Em; [|exact Nx]. exfalso. apply memb_In in Em. assert (Hin : In x ks) by (rewrite Ek; apply in_or_app; right; apply in_or_app; left; exact Em).
      apply (hwf_kid h1 W1 p) in Hin. destruct Hin as [Hin _]. congruence.
Qed.
Lemma accepted_all key n p : forall cs h h', hwf h -> (p < length h)%nat -> Forall (fun c => (c < length h)%nat) cs -> add_hier n key h p cs = (h', Ok tt) -> hwf h' /\ length h' = length h /\ same_f h h'.
Proof.
  induction cs as [|c cs IH]; intros h h' H Hp Hcs E; cbn [add_hier] in E.
  - injection E as <-. split; [exact H|]. split; [reflexivity|intros j; reflexivity].
  - inversion Hcs as [|? ? Hc Hcs']; subst. unfold obind in E. destruct (add_hier1 n key h p c) as [h1 [[]|e]] eqn:E1; [|discriminate].
    destruct (accepted_wf key n h p c h1 H Hp Hc E1) as (W1 & L1 & D1 & _). rewrite <- L1 in Hp, Hcs'. destruct (IH h1 h' W1 Hp Hcs' E) as (W2 & L2 & D2).
    split; [exact W2|]. split; [lia|]. exact (same_f_trans _ _ _ D1 D2).
Qed.
