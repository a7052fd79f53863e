(** Proofs about Combin.v, part 1: equality, gaps, join. *)
From Verif Require Export SpecCombin UtilFacts2 HierHeap6.

(** what next_ng_span makes of a non-gap *)
Lemma ng_abs_ok basis off n s : ng_abs basis off n s <-> ng_span basis off n = Ok s.
Proof.
  destruct n as [[a b]|f]; cbn [ng_abs ng_span]; unfold offset; cbn [fst snd].
  - destruct (Z.eqb_spec off 0) as [->|N].
    + rewrite !Z.add_0_r. split; [intros [-> _]; reflexivity|intros [= <-]; auto].
    + destruct (Z.ltb_spec (a + off) 0), (Z.ltb_spec (b + off) 0); cbn [orb]; (split; [intros [-> [?|?]]; try reflexivity; lia|try discriminate]).
      intros [= <-]. auto.
  - destruct (eqb_str (f_str f) basis) eqn:E.
    + apply eqb_str_eq in E. split; [intros [_ ->]; reflexivity|intros [= <-]; auto].
    + split; [intros [E' _]; apply eqb_str_eq in E'; congruence|discriminate].
Qed.

(** -- equality -- *)
Lemma key_eqb_spec f g : key_eqb f g = true <-> f = g.
Proof.
  unfold key_eqb. rewrite !andb_true_iff, !Z.eqb_eq, eqb_str_eq.
  assert (O1 : eqb_oz (f_vf f) (f_vf g) = true <-> f_vf f = f_vf g).
  { unfold eqb_oz. destruct (f_vf f), (f_vf g); try (split; congruence). rewrite Z.eqb_eq. split; congruence. }
  assert (O2 : eqb_ostr (f_desc f) (f_desc g) = true <-> f_desc f = f_desc g).
  { unfold eqb_ostr. destruct (f_desc f), (f_desc g); try (split; congruence). rewrite eqb_str_eq. split; congruence. }
  rewrite O1, O2. destruct f, g; cbn. split; [intros ((((-> & ->) & ->) & ->) & ->); reflexivity|intros [= -> -> -> -> ->]; auto].
Qed.
Lemma op_eq_char sub : (forall x, sub x x = true) -> (forall x y, sub x y = true -> sub y x = true -> x = y) ->
  forall a b, (c_id a = c_id b -> a = b) -> (op_eq sub a b = true <-> c_cls a = c_cls b /\ c_f a = c_f b).
Proof.
  intros Hr Ha a b Hid. unfold op_eq, ito_eq.
  destruct (Nat.eqb_spec (c_cls a) (c_cls b)) as [Ec|Ec]; cbn [negb andb].
  - destruct (Nat.eqb_spec (c_id a) (c_id b)) as [Ei|Ei].
    + rewrite (Hid Ei). split; auto.
    + rewrite Ec, Hr. cbn [negb]. rewrite key_eqb_spec. split; [auto|tauto].
  - destruct (sub (c_cls b) (c_cls a)) eqn:Es.
    + destruct (Nat.eqb_spec (c_id b) (c_id a)) as [Ei|Ei].
      * exfalso. apply Ec. rewrite (Hid (eq_sym Ei)). reflexivity.
      * destruct (sub (c_cls a) (c_cls b)) eqn:Es2; [exfalso; apply Ec; apply Ha; assumption|].
        cbn [negb]. split; [discriminate|tauto].
    + destruct (Nat.eqb_spec (c_id a) (c_id b)) as [Ei|Ei].
      * exfalso. apply Ec. rewrite (Hid Ei). reflexivity.
      * cbn [negb]. split; [discriminate|tauto].
Qed.

(** -- gaps -- *)
Lemma ito_of_str_in s a b d : 0 <= a <= b -> b <= zlen s -> ito_of_str s (Some a) (Some b) d = FI s a b d None.
Proof. intros. unfold ito_of_str. rewrite from_indices_id by lia. reflexivity. Qed.

Section Gaps.
  Variables (basis : pystr) (off s e : Z) (desc : option pystr).
  Hypothesis Hs : 0 <= s.
  Hypothesis He : e <= zlen basis.

  Definition mk a b := FI basis a b desc None.

  Lemma gaps_loop_ok : forall sps ngs last,
    Forall2 (ng_abs basis off) ngs sps -> ascending (last :: sps) -> s <= snd last ->
    Forall (fun n => fst n <= snd n) (last :: sps) ->
    exists gs, gaps_loop basis off e desc false last ngs = (gs, None) /\
      Forall (fun g => g = mk (f_start g) (f_stop g)) gs /\
      StronglySorted (fun x y => f_stop x <= f_start y) gs /\
      Forall (fun g => snd last <= f_start g < f_stop g /\ f_stop g <= e) gs /\
      (forall k, snd last <= k < e -> ((exists g, In g gs /\ in_f k g) <-> ~ covered sps k)) /\
      Forall (fun g => (exists n, In n (last :: sps) /\ snd n = f_start g) /\
                       (f_stop g = e \/ exists n, In n sps /\ fst n = f_stop g)) gs.
  Proof.
    induction sps as [|cur sps IH]; intros ngs last HN HA Hl HW; inversion HN as [|ng ? ngs' ? Hng HN']; subst.
    - cbn [gaps_loop]. destruct (Z.ltb_spec (snd last) e) as [Hlt|Hge].
      + rewrite ito_of_str_in by lia. eexists. split; [reflexivity|].
        split; [repeat constructor|]. split; [repeat constructor|].
        split; [repeat constructor; cbn; lia|]. split.
        * intros k Hk. split; [intros _ (n & [] & _)|]. intros _. eexists. split; [left; reflexivity|].
          unfold in_f; cbn. lia.
        * constructor; [|constructor]. cbn [f_start f_stop mk]. split; [exists last; split; [left|]; reflexivity|left; reflexivity].
      + exists []. split; [reflexivity|]. split; [constructor|]. split; [constructor|]. split; [constructor|].
        split; [intros k Hk; lia|constructor].
    - cbn [gaps_loop]. destruct (Z.ltb_spec (snd last) e) as [Hlt|Hge].
      2:{ exists []. split; [reflexivity|]. split; [constructor|]. split; [constructor|]. split; [constructor|].
          split; [intros k Hk; lia|constructor]. }
      apply ng_abs_ok in Hng. rewrite Hng.
      inversion HA as [|? ? HA' HF]; subst. inversion HF as [|? ? [H1 H2] HF']; subst.
      inversion HW as [|? ? HW0 HW']; subst. inversion HW' as [|? ? HW1 HW2]; subst.
      destruct (IH ngs' cur HN' HA' ltac:(lia) HW') as (gs & E & G0 & G1 & G2 & G3 & G4).
      assert (HC : forall n, In n sps -> fst cur <= fst n /\ snd cur <= snd n).
      { inversion HA' as [|? ? _ HF2]; subst. rewrite Forall_forall in HF2. exact HF2. }
      (* what the rest gives, seen from [last] *)
      assert (cov : forall k, covered (cur :: sps) k <-> (fst cur <= k < snd cur \/ covered sps k)).
      { intros k. unfold covered. split.
        - intros (n & [<-|Hn] & Hk); [left; exact Hk|right; eauto].
        - intros [Hk|(n & Hn & Hk)]; [exists cur; split; [left; reflexivity|exact Hk]|exists n; split; [right; exact Hn|exact Hk]]. }
      destruct (Z.ltb_spec (fst cur) (fst last)); [lia|].
      assert (rest4 : Forall (fun g => (exists n, In n (last :: cur :: sps) /\ snd n = f_start g) /\
                       (f_stop g = e \/ exists n, In n (cur :: sps) /\ fst n = f_stop g)) gs).
      { eapply Forall_impl; [|exact G4]. cbn beta. intros g [(n & Hn & En) Ho]. split; [exists n; split; [right; exact Hn|exact En]|].
        destruct Ho as [Ho|(m & Hm & Em)]; [left; exact Ho|right; exists m; split; [right; exact Hm|exact Em]]. }
      assert (rest2 : Forall (fun g => snd last <= f_start g < f_stop g /\ f_stop g <= e) gs).
      { eapply Forall_impl; [|exact G2]. cbn beta. intros g Hg. lia. }
      destruct (Z_le_gt_dec (fst cur) (snd last)) as [Hadj|Hgap].
      + (* overlapping or adjacent *)
        exists gs.
        assert (EQ : (if fst cur <? snd last then gaps_loop basis off e desc false cur ngs'
                      else if fst cur =? snd last then gaps_loop basis off e desc false cur ngs'
                      else if e <=? fst cur then ([ito_of_str basis (Some (snd last)) (Some e) desc], None)
                      else gyield (ito_of_str basis (Some (snd last)) (Some (fst cur)) desc) (gaps_loop basis off e desc false cur ngs')) = (gs, None)).
        { destruct (Z.ltb_spec (fst cur) (snd last)); [exact E|]. destruct (Z.eqb_spec (fst cur) (snd last)); [exact E|lia]. }
        split; [exact EQ|]. split; [exact G0|]. split; [exact G1|]. split; [exact rest2|]. split; [|exact rest4].
        intros k Hk. rewrite cov. destruct (Z_lt_dec k (snd cur)) as [Hin|Hout].
        * split; [|intros HX; exfalso; apply HX; left; lia].
          intros (g & Hg & Hig) _. rewrite Forall_forall in G2. specialize (G2 g Hg). unfold in_f in Hig. lia.
        * rewrite G3 by lia. split; [intros HX [?|?]; [lia|contradiction]|tauto].
      + destruct (Z.ltb_spec (fst cur) (snd last)) as [Hq1|Hq1]; [lia|]. destruct (Z.eqb_spec (fst cur) (snd last)) as [Hq2|Hq2]; [lia|].
        destruct (Z.leb_spec e (fst cur)) as [Hend|Hend].
        * rewrite ito_of_str_in by lia. eexists. split; [reflexivity|].
          split; [repeat constructor|]. split; [repeat constructor|]. split; [repeat constructor; cbn; lia|]. split.
          -- intros k Hk. split.
             ++ intros _ (n & Hn & Hkn). destruct Hn as [<-|Hn]; [lia|]. pose proof (HC n Hn). lia.
             ++ intros _. eexists. split; [left; reflexivity|]. unfold in_f; cbn. lia.
          -- constructor; [|constructor]. cbn [f_start f_stop]. split; [exists last; split; [left|]; reflexivity|left; reflexivity].
        * rewrite E. rewrite ito_of_str_in by lia. unfold gyield; cbn [fst snd].
          eexists. split; [reflexivity|]. split; [constructor; [reflexivity|exact G0]|]. split; [|split; [|split]].
          -- constructor; [exact G1|]. eapply Forall_impl; [|exact G2]. cbn beta. cbn [f_stop]. intros g Hg. lia.
          -- constructor; [cbn; lia|exact rest2].
          -- intros k Hk. rewrite cov. split.
             ++ intros (g & [<-|Hg] & Hig) HX; unfold in_f in Hig; cbn [f_start f_stop] in Hig.
                ** destruct HX as [?|(n & Hn & Hkn)]; [lia|]. pose proof (HC n Hn). lia.
                ** rewrite Forall_forall in G2. pose proof (G2 g Hg). destruct HX as [?|HX]; [lia|].
                   apply (proj1 (G3 k ltac:(lia))); [exists g; split; [exact Hg|exact Hig]|exact HX].
             ++ intros HX. destruct (Z_lt_dec k (fst cur)) as [Hb|Hb].
                ** eexists. split; [left; reflexivity|]. unfold in_f; cbn. lia.
                ** destruct (Z_lt_dec k (snd cur)) as [Hb2|Hb2]; [exfalso; apply HX; left; lia|].
                   destruct (proj2 (G3 k ltac:(lia)) ltac:(tauto)) as (g & Hg & Hig). exists g. split; [right; exact Hg|exact Hig].
          -- constructor; [|exact rest4]. cbn [f_start f_stop]. split; [exists last; split; [left; reflexivity|reflexivity]|].
             right. exists cur. split; [left; reflexivity|reflexivity].
  Qed.
End Gaps.

Theorem from_gaps_ok src ngs sps desc : u_wf src ->
  Forall2 (ng_abs (u_string src) (u_offset src)) ngs sps ->
  let s := u_offset src in let e := u_offset src + zlen (u_text src) in
  gap_domain s e sps ->
  exists gs, from_gaps src ngs desc false = (gs, None) /\ gaps_of s e sps gs /\
    Forall (fun g => g = FI (u_string src) (f_start g) (f_stop g) desc None) gs.
Proof.
  intros H HN. cbv zeta. destruct (u_window src None None H) as (_ & _ & _ & _ & _ & _ & H0 & HL & _).
  pose proof (zlen_nonneg (u_text src)) as HZ. intros (HA & HB & HC).
  unfold from_gaps. rewrite <- (u_text_len src H).
  set (s := u_offset src) in *. set (e := s + zlen (u_text src)) in *.
  destruct HN as [|ng last ngs sps Hng HN].
  - destruct (Z.ltb_spec s e).
    + rewrite ito_of_str_in by lia. eexists. split; [reflexivity|]. split; [|repeat constructor].
      split; [repeat constructor|]. split; [repeat constructor; cbn; lia|]. split.
      * intros k Hk. split; [intros _ (n & [] & _)|]. intros _. eexists. split; [left; reflexivity|]. unfold in_f; cbn; lia.
      * constructor; [|constructor]. cbn [f_start f_stop]. split; left; reflexivity.
    + exists []. split; [reflexivity|]. split; [|constructor]. split; [constructor|]. split; [constructor|].
      split; [intros; lia|constructor].
  - apply ng_abs_ok in Hng. fold s. rewrite Hng.
    assert (HW : Forall (fun n => fst n <= snd n) (last :: sps)).
    { eapply Forall_impl; [|exact HB]. cbn beta. tauto. }
    inversion HB as [|? ? [HB1 HB2] HB']; subst.
    destruct (gaps_loop_ok (u_string src) s s e desc H0 ltac:(lia) sps ngs last HN HA HB2 HW) as (gs & E & G0 & G1 & G2 & G3 & G4).
    rewrite E.
    assert (HF : forall n, In n sps -> fst last <= fst n /\ snd last <= snd n).
    { inversion HA as [|? ? _ HF]; subst. rewrite Forall_forall in HF. exact HF. }
    destruct (Z.ltb_spec s (fst last)) as [Hlt|Hge].
    + assert (s < e). { destruct (Z.eq_dec s e) as [Ese|]; [|lia]. specialize (HC Ese). cbn in HC. inversion HC; subst. lia. }
      rewrite ito_of_str_in by lia. unfold gyield; cbn [fst snd]. eexists. split; [reflexivity|].
      split; [|constructor; [reflexivity|exact G0]].
      split; [|split; [|split]].
      * constructor; [exact G1|]. eapply Forall_impl; [|exact G2]. cbn beta; cbn [f_stop]. intros; lia.
      * constructor; [cbn; lia|]. eapply Forall_impl; [|exact G2]. cbn beta. intros; lia.
      * intros k Hk. split.
        -- intros (g & [<-|Hg] & Hig) (n & Hn & Hkn); unfold in_f in Hig; cbn [f_start f_stop] in Hig.
           ++ destruct Hn as [<-|Hn]; [lia|]. pose proof (HF n Hn). lia.
           ++ rewrite Forall_forall in G2. pose proof (G2 g Hg). destruct Hn as [<-|Hn]; [lia|].
              apply (proj1 (G3 k ltac:(lia))); [exists g; split; [exact Hg|exact Hig]|exists n; split; [exact Hn|exact Hkn]].
        -- intros HX. destruct (Z_lt_dec k (fst last)) as [Hb|Hb].
           ++ eexists. split; [left; reflexivity|]. unfold in_f; cbn. lia.
           ++ destruct (Z_lt_dec k (snd last)) as [Hb2|Hb2].
              ** exfalso. apply HX. exists last. split; [left; reflexivity|lia].
              ** destruct (proj2 (G3 k ltac:(lia))) as (g & Hg & Hig).
                 { intros (n & Hn & Hkn). apply HX. exists n. split; [right; exact Hn|exact Hkn]. }
                 exists g. split; [right; exact Hg|exact Hig].
      * constructor.
        -- cbn [f_start f_stop]. split; [left; reflexivity|].
           destruct (Z.le_gt_cases e (fst last)); [left; lia|right; exists last; split; [left; reflexivity|lia]].
        -- eapply Forall_impl; [|exact G4]. cbn beta. intros g [(n & Hn & En) Ho]. split; [right; exists n; auto|].
           destruct Ho as [?|(m & Hm & Em)]; [left; assumption|right; exists m; split; [right; exact Hm|exact Em]].
    + exists gs. split; [reflexivity|]. split; [|exact G0]. split; [exact G1|]. split; [|split].
      * eapply Forall_impl; [|exact G2]. cbn beta. intros; lia.
      * intros k Hk. destruct (Z_lt_dec k (snd last)) as [Hb|Hb].
        -- split.
           ++ intros (g & Hg & Hig) _. rewrite Forall_forall in G2. pose proof (G2 g Hg). unfold in_f in Hig. lia.
           ++ intros HX. exfalso. apply HX. exists last. split; [left; reflexivity|lia].
        -- rewrite G3 by lia. split.
           ++ intros HX (n & [<-|Hn] & Hkn); [lia|]. apply HX. exists n; auto.
           ++ intros HX (n & Hn & Hkn). apply HX. exists n. split; [right; exact Hn|exact Hkn].
      * eapply Forall_impl; [|exact G4]. cbn beta. intros g [(n & Hn & En) Ho]. split; [right; exists n; auto|].
        destruct Ho as [?|(m & Hm & Em)]; [left; assumption|right; exists m; split; [right; exact Hm|exact Em]].
Qed.

Lemma last_ne {A} (l : list A) d d' : l <> [] -> List.last l d = List.last l d'.
Proof. induction l as [|x [|y l] IH]; intros H; [congruence|reflexivity|]. apply IH. discriminate. Qed.
(** an out-of-order non-gap met before the end raises *)
Lemma gaps_loop_unordered basis off e desc zw : forall sps ngs last x,
  Forall2 (ng_abs basis off) ngs (sps ++ [x]) -> StronglySorted (fun a b => fst a <= fst b) (last :: sps) ->
  Forall (fun n => fst n <= snd n < e) (last :: sps) -> fst x < fst (List.last sps last) ->
  forall more, snd (gaps_loop basis off e desc zw last (ngs ++ more)) = Some ValueError.
Proof.
  induction sps as [|cur sps IH]; intros ngs last x HN HA HE Hx more; inversion HN as [|ng ? ngs' ? Hng HN']; subst; apply ng_abs_ok in Hng.
  - inversion HN'; subst. cbn [List.last] in Hx. inversion HE as [|? ? HE1 _]; subst. cbn [app gaps_loop].
    destruct (Z.ltb_spec (snd last) e); [|lia]. rewrite Hng. destruct (Z.ltb_spec (fst x) (fst last)); [reflexivity|lia].
  - inversion HE as [|? ? HE1 HE']; subst. inversion HA as [|? ? HA' HF]; subst.
    cbn [app gaps_loop]. destruct (Z.ltb_spec (snd last) e); [|lia]. rewrite Hng.
    inversion HF as [|? ? HF1 _]; subst. inversion HE' as [|? ? HE2 _]; subst.
    destruct (Z.ltb_spec (fst cur) (fst last)); [lia|].
    assert (Hx' : fst x < fst (List.last sps cur)).
    { destruct sps as [|z sps]; [exact Hx|]. rewrite (last_ne (z :: sps) cur last) by discriminate.
      cbn [List.last] in Hx |- *. exact Hx. }
    specialize (IH ngs' cur x HN' HA' HE' Hx' more).
    destruct (fst cur <? snd last); [exact IH|]. destruct (fst cur =? snd last); [destruct zw; [cbn [gyield snd]|]; exact IH|].
    destruct (Z.leb_spec e (fst cur)); [lia|]. cbn [gyield snd]. exact IH.
Qed.
Theorem from_gaps_unordered src ngs sps x desc zw more : u_wf src ->
  Forall2 (ng_abs (u_string src) (u_offset src)) ngs (sps ++ [x]) -> sps <> [] ->
  StronglySorted (fun a b => fst a <= fst b) sps ->
  Forall (fun n => fst n <= snd n < u_offset src + zlen (u_text src)) sps ->
  fst x < fst (List.last sps x) ->
  snd (from_gaps src (ngs ++ more) desc zw) = Some ValueError.
Proof.
  intros H HN Hne HA HE Hx. destruct sps as [|l sps]; [congruence|]. cbn [app] in HN.
  inversion HN as [|ng ? ngs' ? Hng HN']; subst. apply ng_abs_ok in Hng.
  unfold from_gaps. rewrite <- (u_text_len src H). cbn [app]. rewrite Hng.
  assert (E : snd (gaps_loop (u_string src) (u_offset src) (u_offset src + zlen (u_text src)) desc zw l (ngs' ++ more)) = Some ValueError).
  { apply (gaps_loop_unordered _ _ _ _ _ sps ngs' l x HN' HA HE).
    destruct sps as [|z sps]; [exact Hx|].
    rewrite (last_ne (z :: sps) l x) by discriminate. exact Hx. }
  destruct (u_offset src <? fst l); [cbn [gyield snd]|]; exact E.
Qed.

(** zero widths: dropping the empty Itos gives the answer without them *)
Lemma gaps_loop_zw basis off e desc : forall ngs last,
  let keep g := f_start g <? f_stop g in
  0 <= snd last -> e <= zlen basis ->
  (forall ng s, In ng ngs -> ng_span basis off ng = Ok s -> 0 <= snd s) ->
  snd (gaps_loop basis off e desc true last ngs) = snd (gaps_loop basis off e desc false last ngs) /\
  filter keep (fst (gaps_loop basis off e desc true last ngs)) = fst (gaps_loop basis off e desc false last ngs).
Proof.
  induction ngs as [|ng ngs IH]; intros last; cbv zeta; intros H0 He HN; cbn [gaps_loop].
  - destruct (Z.ltb_spec (snd last) e); [|auto]. rewrite ito_of_str_in by lia. cbn.
    split; [reflexivity|]. destruct (Z.ltb_spec (snd last) e); [reflexivity|lia].
  - destruct (Z.ltb_spec (snd last) e); [|auto].
    destruct (ng_span basis off ng) as [cur|er] eqn:En; [|auto].
    assert (Hc : 0 <= snd cur) by (apply (HN ng); [left; reflexivity|exact En]).
    destruct (IH cur Hc He) as [I1 I2]. { intros; eapply HN; [right|]; eassumption. }
    destruct (fst cur <? fst last); [auto|].
    destruct (Z.ltb_spec (fst cur) (snd last)); [auto|].
    destruct (Z.eqb_spec (fst cur) (snd last)) as [Ee|].
    + cbn [gyield fst snd filter]. rewrite Ee, ito_of_str_in by lia. cbn [f_start f_stop].
      rewrite Z.ltb_irrefl. auto.
    + destruct (Z.leb_spec e (fst cur)).
      * rewrite ito_of_str_in by lia. cbn. split; [reflexivity|]. destruct (Z.ltb_spec (snd last) e); [reflexivity|lia].
      * cbn [gyield fst snd filter]. rewrite ito_of_str_in by lia. cbn [f_start f_stop].
        destruct (Z.ltb_spec (snd last) (fst cur)); [|lia]. rewrite I1, I2. auto.
Qed.

(** -- join -- *)
Lemma extent_spec s : forall itos a b,
  (Forall (fun x => f_str x = s) itos /\ exists a' b', extent s a b itos = Ok (a', b') /\
     a' <= a /\ b <= b' /\ Forall (fun x => a' <= f_start x /\ f_stop x <= b') itos /\
     (a' = a \/ exists x, In x itos /\ f_start x = a') /\ (b' = b \/ exists x, In x itos /\ f_stop x = b')) \/
  ((exists x, In x itos /\ f_str x <> s) /\ extent s a b itos = Err ValueError).
Proof.
  induction itos as [|x itos IH]; intros a b; cbn [extent].
  - left. split; [constructor|]. exists a, b. repeat split; try lia; auto.
  - destruct (eqb_str s (f_str x)) eqn:E.
    + apply eqb_str_eq in E. destruct (IH (Z.min a (f_start x)) (Z.max b (f_stop x))) as [[HF (a' & b' & E' & H1 & H2 & H3 & H4 & H5)]|[(y & Hy & Hn) E']].
      * left. split; [constructor; auto|]. exists a', b'. split; [exact E'|]. split; [lia|]. split; [lia|].
        split; [constructor; [lia|exact H3]|]. split.
        -- destruct H4 as [H4|(y & Hy & Ey)]; [|right; exists y; split; [right|]; auto].
           destruct (Z.le_gt_cases a (f_start x)); [left; lia|right; exists x; split; [left; reflexivity|lia]].
        -- destruct H5 as [H5|(y & Hy & Ey)]; [|right; exists y; split; [right|]; auto].
           destruct (Z.le_gt_cases (f_stop x) b); [left; lia|right; exists x; split; [left; reflexivity|lia]].
      * right. split; [exists y; split; [right|]; auto|exact E'].
    + apply eqb_str_neq in E. right. split; [exists x; split; [left; reflexivity|congruence]|reflexivity].
Qed.

Theorem join_spec itos desc : Forall fwf itos -> itos <> [] ->
  (exists s, Forall (fun x => f_str x = s) itos /\
     exists j, ito_join itos desc = Ok j /\ f_str j = s /\ f_desc j = desc /\ f_vf j = None /\ fwf j /\ spans_inputs itos j) \/
  ((exists x y, In x itos /\ In y itos /\ f_str x <> f_str y) /\ ito_join itos desc = Err ValueError).
Proof.
  intros HW Hne. destruct itos as [|x itos]; [congruence|]. unfold ito_join.
  destruct (extent_spec (f_str x) itos (f_start x) (f_stop x)) as [[HF (a' & b' & E & H1 & H2 & H3 & H4 & H5)]|[(y & Hy & Hn) E]]; rewrite E; cbn [bind fst snd].
  - left. exists (f_str x). split; [constructor; auto|].
    assert (HB : 0 <= a' /\ a' <= b' /\ b' <= zlen (f_str x)).
    { inversion HW as [|? ? [Hw1 Hw2] HW']; subst. rewrite Forall_forall in HW', HF.
      split; [|split]; [destruct H4 as [->|(y & Hy & <-)]; [lia|destruct (HW' y Hy); lia]|lia|].
      destruct H5 as [->|(y & Hy & <-)]; [lia|]. destruct (HW' y Hy) as [_ ?]. rewrite (HF y Hy) in *. lia. }
    eexists. split; [reflexivity|]. rewrite ito_of_str_in by lia. cbn [f_str f_desc f_vf].
    split; [reflexivity|]. split; [reflexivity|]. split; [reflexivity|]. split; [split; cbn; lia|].
    unfold spans_inputs. cbn [f_start f_stop]. split; [constructor; [lia|exact H3]|]. split.
    + destruct H4 as [H4|(y & Hy & Ey)]; [exists x; split; [left; reflexivity|lia]|exists y; split; [right; exact Hy|exact Ey]].
    + destruct H5 as [H5|(y & Hy & Ey)]; [exists x; split; [left; reflexivity|lia]|exists y; split; [right; exact Hy|exact Ey]].
  - right. split; [exists x, y; split; [left; reflexivity|]; split; [right; exact Hy|congruence]|reflexivity].
Qed.
Theorem join_perm l l' desc : Forall fwf l -> Permutation l l' -> ito_join l desc = ito_join l' desc.
Proof.
  intros HW HP. destruct l as [|x l]; [apply Permutation_nil in HP; subst; reflexivity|].
  assert (HW' : Forall fwf l') by (eapply Permutation_Forall; eassumption).
  assert (Hne : l' <> []) by (intros ->; apply Permutation_sym, Permutation_nil in HP; discriminate).
  destruct (join_spec (x :: l) desc HW ltac:(discriminate)) as [(s & HF & j & E & Hs & Hd & Hv & _ & S1 & (a1 & A1 & A2) & (b1 & B1 & B2))|[(a & b & Ha & Hb & Hab) E]];
  destruct (join_spec l' desc HW' Hne) as [(s' & HF' & j' & E' & Hs' & Hd' & Hv' & _ & S1' & (a1' & A1' & A2') & (b1' & B1' & B2'))|[(a' & b' & Ha' & Hb' & Hab') E']]; rewrite E, E'.
  - f_equal. rewrite Forall_forall in S1, S1', HF, HF'.
    assert (I : forall z, In z (x :: l) <-> In z l') by (intros z; split; intros Hz; [eapply Permutation_in; eassumption|eapply Permutation_in; [apply Permutation_sym|]; eassumption]).
    pose proof (S1 a1' (proj2 (I _) A1')). pose proof (S1' a1 (proj1 (I _) A1)).
    pose proof (S1 b1' (proj2 (I _) B1')). pose proof (S1' b1 (proj1 (I _) B1)).
    assert (s = s') by (rewrite <- (HF a1 A1); apply HF'; apply I; exact A1).
    destruct j as [j1 j2 j3 j4 j5], j' as [k1 k2 k3 k4 k5]; cbn [f_str f_start f_stop f_desc f_vf] in *; subst. f_equal; lia.
  - exfalso. rewrite Forall_forall in HF. apply Hab'.
    rewrite (HF a'), (HF b'); [reflexivity| |]; (eapply Permutation_in; [apply Permutation_sym; exact HP|assumption]).
  - exfalso. rewrite Forall_forall in HF'. apply Hab.
    rewrite (HF' a), (HF' b); [reflexivity| |]; (eapply Permutation_in; [exact HP|assumption]).
  - reflexivity.
Qed.
