(** Facts for C131: from_gaps with return_zero_widths, and taking the complement twice. *)
From Verif Require Export SpecGaps CombinFacts3.

Lemma touching_late e : forall sps a, Forall (fun n => e <= snd n) (a :: sps) -> touching e (a :: sps) = [].
Proof.
  induction sps as [|b sps IH]; intros a H; [reflexivity|]. cbn [touching]. inversion H as [|? ? Ha H']; subst.
  destruct (Z.ltb_spec (snd a) e); [lia|]. rewrite andb_false_r. apply IH. exact H'.
Qed.

Section GapsZ.
  Variables (basis : pystr) (off s e : Z) (desc : option pystr).
  Hypothesis Hs : 0 <= s.
  Hypothesis He : e <= zlen basis.

  Lemma gaps_loop_empties : forall sps ngs last,
    Forall2 (ng_abs basis off) ngs sps -> ascending (last :: sps) -> s <= snd last ->
    Forall (fun n => fst n <= snd n) (last :: sps) ->
    let gs := fst (gaps_loop basis off e desc true last ngs) in
    snd (gaps_loop basis off e desc true last ngs) = None /\
    map f_start (filter empty_ito gs) = touching e (last :: sps) /\
    StronglySorted (fun x y => f_stop x <= f_start y) gs /\
    Forall (fun g => g = FI basis (f_start g) (f_stop g) desc None /\ snd last <= f_start g <= f_stop g /\ f_stop g <= e) gs.
  Proof.
    induction sps as [|cur sps IH]; intros ngs last HN HA Hl HW; inversion HN as [|ng ? ngs' ? Hng HN']; subst; cbv zeta.
    - cbn [gaps_loop touching]. destruct (Z.ltb_spec (snd last) e) as [Hlt|Hge].
      + rewrite ito_of_str_in by lia. cbn [fst snd filter]. unfold empty_ito at 1. cbn [f_start f_stop].
        destruct (Z.eqb_spec (snd last) e); [lia|]. split; [reflexivity|]. split; [reflexivity|].
        split; [repeat constructor|]. constructor; [|constructor]. cbn [f_start f_stop]. split; [reflexivity|lia].
      + cbn. repeat split; constructor.
    - inversion HA as [|? ? HA' HF]; subst. inversion HF as [|? ? [H1 H2] HF']; subst.
      inversion HW as [|? ? HW0 HW']; subst. inversion HW' as [|? ? HW1 HW2]; subst.
      assert (HC : Forall (fun n => snd cur <= snd n) sps).
      { inversion HA' as [|? ? _ HF2]; subst. eapply Forall_impl; [|exact HF2]. cbn beta. tauto. }
      cbn [gaps_loop]. destruct (Z.ltb_spec (snd last) e) as [Hlt|Hge].
      2:{ cbn [fst snd filter map]. split; [reflexivity|]. split; [|split; constructor]. symmetry. apply touching_late.
          constructor; [lia|]. constructor; [lia|]. eapply Forall_impl; [|exact HC]. cbn beta. intros; lia. }
      apply ng_abs_ok in Hng. rewrite Hng.
      destruct (IH ngs' cur HN' HA' ltac:(lia) HW') as (E0 & E1 & E2 & E3). cbv zeta in *.
      destruct (Z.ltb_spec (fst cur) (fst last)); [lia|].
      assert (E3' : Forall (fun g => g = FI basis (f_start g) (f_stop g) desc None /\ snd last <= f_start g <= f_stop g /\ f_stop g <= e)
                      (fst (gaps_loop basis off e desc true cur ngs'))).
      { eapply Forall_impl; [|exact E3]. cbn beta. intros g (? & ? & ?). split; [assumption|lia]. }
      cbn [touching] in E1 |- *. fold (touching e (cur :: sps)) in *.
      destruct (Z.eqb_spec (snd last) (fst cur)) as [Eq|Nq].
      + destruct (Z.ltb_spec (fst cur) (snd last)); [lia|]. destruct (Z.eqb_spec (fst cur) (snd last)); [|lia].
        destruct (Z.ltb_spec (snd last) e); [|lia]. cbn [andb].
        rewrite ito_of_str_in by lia. cbn [gyield fst snd filter]. unfold empty_ito at 1. cbn [f_start f_stop].
        destruct (Z.eqb_spec (snd last) (fst cur)); [|lia]. cbn [map f_start]. split; [exact E0|]. split; [f_equal; exact E1|].
        split.
        * constructor; [exact E2|]. eapply Forall_impl; [|exact E3]. cbn beta. cbn [f_stop]. intros g (_ & ? & _). lia.
        * constructor; [|exact E3']. cbn [f_start f_stop]. split; [reflexivity|lia].
      + cbn [andb]. destruct (Z.ltb_spec (fst cur) (snd last)) as [Ho|Ho].
        { split; [exact E0|]. split; [exact E1|]. split; [exact E2|exact E3']. }
        destruct (Z.eqb_spec (fst cur) (snd last)); [lia|]. destruct (Z.leb_spec e (fst cur)) as [Hend|Hend].
        * rewrite ito_of_str_in by lia. cbn [fst snd filter]. unfold empty_ito at 1. cbn [f_start f_stop].
          destruct (Z.eqb_spec (snd last) e); [lia|]. split; [reflexivity|]. split.
          { symmetry. apply touching_late. constructor; [lia|]. eapply Forall_impl; [|exact HC]. cbn beta. intros; lia. }
          split; [repeat constructor|]. constructor; [|constructor]. cbn [f_start f_stop]. split; [reflexivity|lia].
        * rewrite ito_of_str_in by lia. cbn [gyield fst snd filter]. unfold empty_ito at 1. cbn [f_start f_stop].
          destruct (Z.eqb_spec (snd last) (fst cur)); [lia|]. split; [exact E0|]. split; [exact E1|]. split.
          { constructor; [exact E2|]. eapply Forall_impl; [|exact E3]. cbn beta. cbn [f_stop]. intros g (_ & ? & _). lia. }
          constructor; [|exact E3']. cbn [f_start f_stop]. split; [reflexivity|lia].
  Qed.
End GapsZ.

(** apart from the empty ones the Itos are those given without the flag: no condition on the non-gaps' order *)
Lemma from_gaps_zw0 src ngs desc : u_wf src ->
  (forall ng sp, In ng ngs -> ng_span (u_string src) (u_offset src) ng = Ok sp -> 0 <= snd sp) ->
  snd (from_gaps src ngs desc true) = snd (from_gaps src ngs desc false) /\
  filter (fun g => negb (empty_ito g)) (fst (from_gaps src ngs desc true)) = filter (fun g => negb (empty_ito g)) (fst (from_gaps src ngs desc false)).
Proof.
  intros H HN. destruct (u_window src None None H) as (_ & _ & _ & _ & _ & _ & H0 & HL & _).
  unfold from_gaps. rewrite <- (u_text_len src H).
  destruct ngs as [|ng ngs]; [split; reflexivity|].
  destruct (ng_span (u_string src) (u_offset src) ng) as [last|er] eqn:En; [|split; reflexivity].
  assert (Hl : 0 <= snd last) by (apply (HN ng); [left; reflexivity|exact En]).
  assert (X : forall ngs last, 0 <= snd last -> (forall n sp, In n ngs -> ng_span (u_string src) (u_offset src) n = Ok sp -> 0 <= snd sp) ->
    let a := gaps_loop (u_string src) (u_offset src) (u_offset src + zlen (u_text src)) desc true last ngs in
    let b := gaps_loop (u_string src) (u_offset src) (u_offset src + zlen (u_text src)) desc false last ngs in
    snd a = snd b /\ filter (fun g => negb (empty_ito g)) (fst a) = filter (fun g => negb (empty_ito g)) (fst b)).
  { clear. intros ngs. induction ngs as [|n ngs IH]; intros last Hl HN; cbv zeta; cbn [gaps_loop].
    - destruct (snd last <? _); split; reflexivity.
    - destruct (snd last <? _); [|split; reflexivity].
      destruct (ng_span (u_string src) (u_offset src) n) as [cur|er] eqn:En; [|split; reflexivity].
      assert (Hc : 0 <= snd cur) by (apply (HN n); [left; reflexivity|exact En]).
      destruct (IH cur Hc) as [I1 I2]. { intros; eapply HN; [right|]; eassumption. } cbv zeta in *.
      destruct (fst cur <? fst last); [split; reflexivity|]. destruct (fst cur <? snd last); [split; assumption|].
      destruct (Z.eqb_spec (fst cur) (snd last)) as [Ee|Ne].
      + cbn [gyield fst snd filter]. rewrite Ee.
        assert (EM : forall z, empty_ito (ito_of_str (u_string src) (Some z) (Some z) desc) = true).
        { intros z. unfold empty_ito, ito_of_str, from_indices. cbn [f_start f_stop fst snd]. apply Z.eqb_eq. lia. }
        rewrite EM. cbn [negb]. split; assumption.
      + destruct (_ <=? fst cur); [split; reflexivity|]. cbn [gyield fst snd filter]. rewrite I1, I2. split; reflexivity. }
  destruct (X ngs last Hl) as [X1 X2]. { intros; eapply HN; [right|]; eassumption. } cbv zeta in *.
  destruct (u_offset src <? fst last); [cbn [gyield fst snd filter]; rewrite X1, X2; split; reflexivity|split; assumption].
Qed.

Theorem from_gaps_zw src ngs desc : u_wf src ->
  (forall ng sp, In ng ngs -> ng_abs (u_string src) (u_offset src) ng sp -> 0 <= snd sp) ->
  snd (from_gaps src ngs desc true) = snd (from_gaps src ngs desc false) /\
  filter (fun g => negb (empty_ito g)) (fst (from_gaps src ngs desc true)) = filter (fun g => negb (empty_ito g)) (fst (from_gaps src ngs desc false)).
Proof. intros H HN. apply from_gaps_zw0; [exact H|]. intros ng sp I E. apply (HN ng sp I), ng_abs_ok, E. Qed.

Lemma map_filter_none {A B} (p : A -> bool) (f : A -> B) l : Forall (fun x => p x = false) l -> map f (filter p l) = [].
Proof. induction 1 as [|x l Hx _ IH]; [reflexivity|]. cbn [filter]. rewrite Hx. exact IH. Qed.

Theorem from_gaps_zero src ngs sps desc : u_wf src ->
  Forall2 (ng_abs (u_string src) (u_offset src)) ngs sps ->
  let s := u_offset src in let e := u_offset src + zlen (u_text src) in
  gap_domain s e sps ->
  exists gs, from_gaps src ngs desc true = (gs, None) /\
    gaps_of s e sps (filter (fun g => negb (empty_ito g)) gs) /\
    map f_start (filter empty_ito gs) = touching e sps /\
    StronglySorted (fun x y => f_stop x <= f_start y) gs /\
    Forall (fun g => g = FI (u_string src) (f_start g) (f_stop g) desc None /\ s <= f_start g <= f_stop g /\ f_stop g <= e) gs.
Proof.
  intros H HN. cbv zeta. intros HD. pose proof HD as (HA & HB & HC).
  destruct (u_window src None None H) as (_ & _ & _ & _ & _ & _ & H0 & HL & _).
  pose proof (zlen_nonneg (u_text src)) as HZ.
  destruct (from_gaps_ok src ngs sps desc H HN HD) as (gs0 & E0 & G & GF).
  assert (HNN : forall ng sp, In ng ngs -> ng_span (u_string src) (u_offset src) ng = Ok sp -> 0 <= snd sp).
  { intros ng sp Hin Hsp. clear -HN HB H0 Hin Hsp. revert sps HN HB. induction ngs as [|n ngs IH]; intros sps HN HB; [destruct Hin|].
    inversion HN as [|? s1 ? sps' Hn HN']; subst. inversion HB as [|? ? Hb HB']; subst.
    destruct Hin as [->|Hin]; [|exact (IH Hin sps' HN' HB')]. apply ng_abs_ok in Hn. rewrite Hn in Hsp. injection Hsp as <-. lia. }
  destruct (from_gaps_zw0 src ngs desc H HNN) as [Z1 Z2]. rewrite E0 in Z1, Z2. cbn [fst snd] in Z1, Z2.
  assert (K : filter (fun g => negb (empty_ito g)) gs0 = gs0).
  { destruct G as (_ & G2 & _). clear -G2. induction G2 as [|g l Hg _ IH]; [reflexivity|]. cbn [filter]. unfold empty_ito.
    destruct (Z.eqb_spec (f_start g) (f_stop g)); [lia|]. cbn [negb]. f_equal. exact IH. }
  rewrite K in Z2.
  destruct (from_gaps src ngs desc true) as [gs er] eqn:E. cbn [fst snd] in Z1, Z2. subst er. exists gs. split; [reflexivity|].
  split; [rewrite Z2; exact G|].
  unfold from_gaps in E. rewrite <- (u_text_len src H) in E.
  set (s := u_offset src) in *. set (e := s + zlen (u_text src)) in *.
  destruct HN as [|ng last ngs sps Hng HN].
  - destruct (Z.ltb_spec s e); [rewrite ito_of_str_in in E by lia|]; injection E as <-.
    + cbn [filter touching]. unfold empty_ito. cbn [f_start f_stop]. destruct (Z.eqb_spec s e); [lia|]. split; [reflexivity|].
      split; [repeat constructor|]. constructor; [|constructor]. cbn [f_start f_stop]. split; [reflexivity|lia].
    + split; [reflexivity|]. split; constructor.
  - apply ng_abs_ok in Hng. fold s in E, Hng. rewrite Hng in E.
    assert (HW : Forall (fun n => fst n <= snd n) (last :: sps)).
    { eapply Forall_impl; [|exact HB]. cbn beta. tauto. }
    inversion HB as [|? ? [HB1 HB2] HB']; subst.
    destruct (gaps_loop_empties (u_string src) s s e desc H0 ltac:(lia) sps ngs last HN HA HB2 HW) as (L0 & L1 & L2 & L3). cbv zeta in *.
    assert (L3' : Forall (fun g => g = FI (u_string src) (f_start g) (f_stop g) desc None /\ s <= f_start g <= f_stop g /\ f_stop g <= e)
                    (fst (gaps_loop (u_string src) s e desc true last ngs))).
    { eapply Forall_impl; [|exact L3]. cbn beta. intros g (? & ? & ?). split; [assumption|lia]. }
    destruct (Z.ltb_spec s (fst last)) as [Hlt|Hge].
    + assert (s < e). { destruct (Z.eq_dec s e) as [Ese|]; [|lia]. specialize (HC Ese). cbn in HC. inversion HC; subst. lia. }
      rewrite ito_of_str_in in E by lia. unfold gyield in E. injection E as <- _. cbn [filter]. unfold empty_ito at 1. cbn [f_start f_stop].
      destruct (Z.eqb_spec s (Z.min (fst last) e)); [lia|]. split; [exact L1|]. split.
      * constructor; [exact L2|]. eapply Forall_impl; [|exact L3]. cbn beta. cbn [f_stop]. intros g (_ & ? & _). lia.
      * constructor; [|exact L3']. cbn [f_start f_stop]. split; [reflexivity|lia].
    + rewrite E in L1, L2, L3'. cbn [fst] in *. split; [exact L1|]. split; assumption.
Qed.

(** -- the complement of the complement -- *)
Lemma gaps_domain s e sps gs : s <= e -> gaps_of s e sps gs -> gap_domain s e (map (fun g => (f_start g, f_stop g)) gs).
Proof.
  intros Hse (G1 & G2 & _ & _). rewrite Forall_forall in G2. split; [|split].
  - unfold ascending. rewrite SS_map. cbn [fst snd]. apply (SS_impl (fun x y => f_stop x <= f_start y)); [|exact G1].
    intros x y Hx Hy Hxy. pose proof (G2 x Hx). pose proof (G2 y Hy). lia.
  - rewrite Forall_map. apply Forall_forall. intros g Hg. specialize (G2 g Hg). cbn [fst snd]. lia.
  - intros E. apply Forall_forall. intros n Hn. destruct gs as [|g gs]; cbn in Hn; [destruct Hn|]. destruct Hn as [<-|[]].
    specialize (G2 g (or_introl eq_refl)). cbn [fst]. lia.
Qed.
Lemma gaps_maximal s e sps gs : Forall (fun n => fst n < snd n) sps -> gaps_of s e sps gs ->
  StronglySorted (fun x y => f_stop x < f_start y) gs.
Proof.
  intros Hn (G1 & G2 & G3 & G4). rewrite Forall_forall in Hn, G2, G4.
  apply (SS_impl (fun x y => f_stop x <= f_start y)); [|exact G1]. intros x y Hx Hy Hxy.
  destruct (Z.eq_dec (f_stop x) (f_start y)) as [Eq|]; [exfalso|lia].
  pose proof (G2 x Hx). pose proof (G2 y Hy). destruct (G4 x Hx) as [_ [Ee|(n & Hin & En)]]; [lia|].
  pose proof (Hn n Hin). apply (proj1 (G3 (f_start y) ltac:(lia))).
  - exists y. split; [exact Hy|]. unfold in_f. lia.
  - exists n. split; [exact Hin|lia].
Qed.
Lemma gaps_twice s e sps gs gs2 : gaps_of s e sps gs -> gaps_of s e (map (fun g => (f_start g, f_stop g)) gs) gs2 ->
  (forall k, s <= k < e -> ((exists g, In g gs2 /\ in_f k g) <-> covered sps k)).
Proof.
  intros (_ & _ & G3 & G4) (_ & _ & K3 & _) k Hk. rewrite (K3 k Hk).
  assert (C : covered (map (fun g => (f_start g, f_stop g)) gs) k <-> exists g, In g gs /\ in_f k g).
  { unfold covered, in_f. split.
    - intros (n & Hn & Hkn). apply in_map_iff in Hn. destruct Hn as (g & <- & Hg). exists g. split; assumption.
    - intros (g & Hg & Hkg). exists (f_start g, f_stop g). split; [apply in_map_iff; exists g; split; [reflexivity|exact Hg]|exact Hkg]. }
  rewrite C, (G3 k Hk).
  assert (D : covered sps k \/ ~ covered sps k).
  { unfold covered. clear. induction sps as [|n sps IH]; [right; intros (m & [] & _)|].
    destruct IH as [(m & Hm & Hk)|IH]; [left; exists m; split; [right; exact Hm|exact Hk]|].
    destruct (Z_le_dec (fst n) k) as [Ha|Ha]; [|right; intros (m & [<-|Hm] & Hk); [lia|apply IH; eauto]].
    destruct (Z_lt_dec k (snd n)) as [Hb|Hb]; [left; exists n; split; [left; reflexivity|lia]|].
    right. intros (m & [<-|Hm] & Hk); [lia|apply IH; eauto]. }
  tauto.
Qed.
Theorem from_gaps_twice src ngs sps desc desc2 : u_wf src ->
  Forall2 (ng_abs (u_string src) (u_offset src)) ngs sps ->
  let s := u_offset src in let e := u_offset src + zlen (u_text src) in
  gap_domain s e sps ->
  exists gs gs2, from_gaps src ngs desc false = (gs, None) /\ from_gaps src (map NIto gs) desc2 false = (gs2, None) /\
    (forall k, s <= k < e -> ((exists g, In g gs2 /\ in_f k g) <-> covered sps k)) /\
    Forall (fun g => s <= f_start g < f_stop g /\ f_stop g <= e) gs2 /\
    StronglySorted (fun x y => f_stop x < f_start y) gs2.
Proof.
  intros H HN. cbv zeta. intros HD. pose proof (zlen_nonneg (u_text src)) as HZ.
  destruct (from_gaps_ok src ngs sps desc H HN HD) as (gs & E & G & GF).
  assert (HN2 : Forall2 (ng_abs (u_string src) (u_offset src)) (map NIto gs) (map (fun g => (f_start g, f_stop g)) gs)).
  { clear -GF. induction GF as [|g gs Hg _ IH]; cbn [map]; constructor; [|exact IH]. split; [rewrite Hg at 1; reflexivity|reflexivity]. }
  destruct (from_gaps_ok src _ _ desc2 H HN2 (gaps_domain (u_offset src) (u_offset src + zlen (u_text src)) sps gs ltac:(lia) G)) as (gs2 & E2 & G' & _).
  exists gs, gs2. split; [exact E|]. split; [exact E2|]. split; [exact (gaps_twice _ _ _ _ _ G G')|]. split; [exact (proj1 (proj2 G'))|].
  refine (gaps_maximal _ _ _ _ _ G'). destruct G as (_ & G2 & _). clear -G2. rewrite Forall_map. eapply Forall_impl; [|exact G2].
  cbn beta. cbn [fst snd]. intros; lia.
Qed.
Lemma kids_add_length : forall cs h p, length (fst (kids_add h p cs)) = length h.
Proof.
  induction cs as [|c cs IH]; intros h p; [reflexivity|]. cbn [kids_add].
  assert (L : length (fst (kids_add1 h p c)) = length h).
  { unfold kids_add1. destruct (n_par (nd h c)); [reflexivity|]. destruct (bfind_start _ _) as [fd k]. destruct fd; [reflexivity|].
    destruct (negb _); [reflexivity|]. destruct (negb _); [reflexivity|]. cbn [fst]. rewrite set_kids_length, set_par_length. reflexivity. }
  unfold obind. destruct (kids_add1 h p c) as [h1 [u|er]]; cbn [fst snd] in *; [rewrite IH|]; exact L.
Qed.
Theorem invert_twice h i desc desc2 : hwf h -> (i < length h)%nat ->
  exists h1 r1 h2 r2, invert_children h i desc = (h1, Ok r1) /\ invert_children h1 r1 desc2 = (h2, Ok r2) /\ hwf h2 /\
    n_f (nd h2 r2) = n_f (nd h i) /\ n_par (nd h2 r2) = None /\
    (forall k, h_start h i <= k < h_stop h i -> (covered (kid_spans h2 r2) k <-> covered (kid_spans h i) k)) /\
    StronglySorted (fun x y => snd x < fst y) (kid_spans h2 r2).
Proof.
  intros H Hi. destruct (invert_spec h i desc H Hi) as (h1 & r1 & E1 & X1 & H1 & R1 & P1 & F1 & G1 & L1).
  assert (R1' : (r1 < length h1)%nat).
  { destruct (Nat.ltb_spec r1 (length h1)); [assumption|exfalso].
    unfold invert_children, depth_fuel in E1. rewrite clone_false in E1. unfold obind at 1 in E1. cbn [fst snd] in E1.
    assert (Er : r1 = length h).
    { repeat match goal with E : context [if ?b then _ else _] |- _ => destruct b; [injection E as <- <-; reflexivity|] end.
      destruct (from_gaps _ _ _ _) as [gs [er|]]; [discriminate|]. destruct (new_nodes _ gs) as [h3 cs]. unfold obind in E1.
      destruct (kids_add h3 (length h) cs) as [h4 [u|er]]; [injection E1; congruence|discriminate]. }
    subst r1. pose proof (proj1 X1). destruct (Nat.eq_dec (length h1) (length h)) as [El|]; [|lia].
    assert (LL : (length h < length h1)%nat); [|lia].
    clear - E1. repeat match goal with E : context [if ?b then _ else _] |- _ => destruct b; [injection E as <-; rewrite app_length; cbn; lia|] end.
    destruct (from_gaps _ _ _ _) as [gs [er|]]; [discriminate|]. destruct (new_nodes _ gs) as [h3 cs] eqn:En. unfold obind in E1.
    pose proof (kids_add_length cs h3 (length h)) as KL. destruct (kids_add h3 (length h) cs) as [h4 [u|er]]; cbn [fst snd] in E1; [|discriminate].
    injection E1 as <-. cbn [fst] in KL. rewrite KL. unfold new_nodes in En. injection En as <- _. rewrite !app_length. cbn. lia. }
  destruct (invert_spec h1 r1 desc2 H1 R1') as (h2 & r2 & E2 & X2 & H2 & R2 & P2 & F2 & G2 & L2).
  exists h1, r1, h2, r2. split; [exact E1|]. split; [exact E2|]. split; [exact H2|]. split; [congruence|]. split; [exact P2|].
  assert (Eb : h_start h1 r1 = h_start h i /\ h_stop h1 r1 = h_stop h i) by (unfold h_start, h_stop; rewrite F1; split; reflexivity).
  destruct Eb as [Ea Eb]. rewrite Ea, Eb in G2.
  assert (EK : kid_spans h1 r1 = map (fun g => (f_start g, f_stop g)) (map (fun g => n_f (nd h1 g)) (n_kids (nd h1 r1)))).
  { unfold kid_spans. rewrite map_map. reflexivity. }
  rewrite EK in G2. split.
  - intros k Hk. rewrite <- (gaps_twice _ _ _ _ _ G1 G2 k Hk). unfold covered, kid_spans, in_f. split.
    + intros (n & Hn & Hkn). apply in_map_iff in Hn. destruct Hn as (c & <- & Hc). exists (n_f (nd h2 c)). split; [apply in_map_iff; exists c; split; [reflexivity|exact Hc]|exact Hkn].
    + intros (g & Hg & Hkg). apply in_map_iff in Hg. destruct Hg as (c & <- & Hc). exists (h_start h2 c, h_stop h2 c). split; [apply in_map_iff; exists c; split; [reflexivity|exact Hc]|exact Hkg].
  - unfold kid_spans. rewrite SS_map. cbn [fst snd].
    assert (M : StronglySorted (fun x y => f_stop x < f_start y) (map (fun g => n_f (nd h2 g)) (n_kids (nd h2 r2)))).
    { refine (gaps_maximal _ _ _ _ _ G2). destruct G1 as (_ & Q & _). rewrite Forall_map. eapply Forall_impl; [|exact Q]. cbn beta. cbn [fst snd]. intros; lia. }
    rewrite SS_map in M. exact M.
Qed.
