(** Facts for C30: from_gaps on any non-gaps whose starts ascend, and when it raises. *)
From Verif Require Export SpecGaps CombinFacts.

Lemma gap_after_nil e a b : ~ gap_after e [] a b.
Proof. intros (l1 & n & l2 & E & _). destruct l1; discriminate. Qed.
Lemma gap_after_cons e x l a b : gap_after e (x :: l) a b <->
  snd x < e /\ ((a = snd x /\ b = Z.min e (match l with [] => e | c :: _ => fst c end) /\ a < b) \/ gap_after e l a b).
Proof.
  split.
  - intros (l1 & n & l2 & E & HF & H). destruct l1 as [|y l1]; cbn [app] in E; injection E as -> ->.
    + inversion HF; subst. split; [assumption|]. left. exact H.
    + cbn [app] in HF. inversion HF; subst. split; [assumption|]. right. exists l1, n, l2. auto.
  - intros [Hx [H|(l1 & n & l2 & -> & HF & H)]].
    + exists [], x, l. split; [reflexivity|]. split; [constructor; [exact Hx|constructor]|exact H].
    + exists (x :: l1), n, l2. split; [reflexivity|]. split; [cbn [app]; constructor; assumption|exact H].
Qed.
Lemma disordered_nil e : ~ disordered e [].
Proof. intros (l1 & a & b & l2 & E & _). destruct l1; discriminate. Qed.
Lemma disordered_one e x : ~ disordered e [x].
Proof. intros (l1 & a & b & l2 & E & _). destruct l1 as [|y [|z l1]]; discriminate. Qed.
Lemma disordered_cons e x y l : disordered e (x :: y :: l) <-> snd x < e /\ (fst y < fst x \/ disordered e (y :: l)).
Proof.
  split.
  - intros (l1 & a & b & l2 & E & HF & H). destruct l1 as [|z l1]; cbn [app] in E.
    + injection E as -> -> ->. inversion HF; subst. auto.
    + injection E as -> E. cbn [app] in HF. inversion HF; subst. split; [assumption|]. right. exists l1, a, b, l2. auto.
  - intros [Hx [H|(l1 & a & b & l2 & E & HF & H)]].
    + exists [], x, y, l. split; [reflexivity|]. split; [constructor; [exact Hx|constructor]|exact H].
    + exists (x :: l1), a, b, l2. rewrite E. split; [reflexivity|]. split; [cbn [app]; constructor; assumption|exact H].
Qed.
Lemma gap_after_bounds e : forall l a b, Forall (fun n => fst n <= snd n) l -> StronglySorted (fun x y => fst x <= fst y) l ->
  gap_after e l a b -> forall x, (match l with [] => x | c :: _ => fst c end) <= a /\ a < b /\ b <= e.
Proof.
  induction l as [|c l IH]; intros a b HW HS H x; [exfalso; exact (gap_after_nil _ _ _ H)|].
  apply gap_after_cons in H. destruct H as [Hc H]. inversion HW; subst. inversion HS as [|? ? HS' HF]; subst.
  destruct H as [(-> & -> & H)|H]; [lia|].
  destruct (IH a b ltac:(assumption) HS' H (fst c)) as (H1' & H2' & H3').
  destruct l as [|d l]; [exfalso; exact (gap_after_nil _ _ _ H)|]. inversion HF; subst. lia.
Qed.

Section Loop.
  Variables (basis : pystr) (off e : Z) (desc : option pystr).
  Hypothesis He : e <= zlen basis.
  Definition piece_at a b := FI basis a b desc None.

  (** when the loop raises *)
  Lemma gaps_loop_error zw : forall sps ngs last, Forall2 (ng_abs basis off) ngs sps -> Forall (fun n => fst n <= snd n) (last :: sps) ->
    (snd (gaps_loop basis off e desc zw last ngs) = Some ValueError /\ disordered e (last :: sps)) \/
    (snd (gaps_loop basis off e desc zw last ngs) = None /\ ~ disordered e (last :: sps)).
  Proof.
    induction sps as [|cur sps IH]; intros ngs last HN HW; inversion HN as [|ng ? ngs' ? Hng HN']; subst; cbn [gaps_loop].
    - right. split; [|apply disordered_one]. destruct (snd last <? e); reflexivity.
    - inversion HW as [|? ? HW1 HW2]; subst. rewrite disordered_cons. destruct (Z.ltb_spec (snd last) e) as [Hl|Hl].
      2:{ right. split; [reflexivity|lia]. }
      apply ng_abs_ok in Hng. rewrite Hng. destruct (Z.ltb_spec (fst cur) (fst last)) as [Hc|Hc].
      { left. split; [reflexivity|auto]. }
      assert (R : (snd (gaps_loop basis off e desc zw cur ngs') = Some ValueError /\ (snd last < e /\ (fst cur < fst last \/ disordered e (cur :: sps)))) \/
                  (snd (gaps_loop basis off e desc zw cur ngs') = None /\ ~ (snd last < e /\ (fst cur < fst last \/ disordered e (cur :: sps))))).
      { destruct (IH ngs' cur HN' HW2) as [[E D]|[E D]]; [left|right]; (split; [exact E|]); [auto|intros [_ [?|?]]; [lia|contradiction]]. }
      destruct (fst cur <? snd last); [exact R|]. destruct (fst cur =? snd last).
      { destruct zw; [cbn [gyield snd]|]; exact R. }
      destruct (Z.leb_spec e (fst cur)) as [Hq|Hq].
      + right. split; [reflexivity|]. intros [_ [?|D]]; [lia|]. destruct D as (l1 & a & b & l2 & E & HF & H).
        inversion HW2 as [|? ? HW3 _]; subst.
        assert (snd cur < e). { destruct l1 as [|z l1]; cbn [app] in E; injection E as -> _; inversion HF; assumption. } lia.
      + cbn [gyield snd]. exact R.
  Qed.

  (** what it yields when the starts ascend *)
  Lemma gaps_loop_any : forall sps ngs last, Forall2 (ng_abs basis off) ngs sps -> Forall (fun n => 0 <= fst n <= snd n) (last :: sps) ->
    StronglySorted (fun x y => fst x <= fst y) (last :: sps) ->
    exists gs, gaps_loop basis off e desc false last ngs = (gs, None) /\
      Forall (fun g => g = piece_at (f_start g) (f_stop g)) gs /\
      StronglySorted (fun x y => f_stop x <= f_start y) gs /\
      (forall a b, In (piece_at a b) gs <-> gap_after e (last :: sps) a b).
  Proof.
    induction sps as [|cur sps IH]; intros ngs last HN HW HS; inversion HN as [|ng ? ngs' ? Hng HN']; subst;
      inversion HW as [|? ? HW1 HW2]; subst; cbn [gaps_loop].
    - destruct (Z.ltb_spec (snd last) e) as [Hl|Hl].
      + rewrite ito_of_str_in by lia. eexists. split; [reflexivity|]. split; [constructor; [reflexivity|constructor]|].
        split; [constructor; constructor|]. intros a b. rewrite gap_after_cons. split.
        * intros [E|[]]. injection E as <- <-. split; [assumption|left]. lia.
        * intros [_ [(-> & -> & _)|H]]; [|exfalso; exact (gap_after_nil _ _ _ H)]. left. unfold piece_at. f_equal. lia.
      + exists []. split; [reflexivity|]. split; [constructor|]. split; [constructor|]. intros a b. rewrite gap_after_cons.
        split; [intros []|lia].
    - inversion HS as [|? ? HS' HF]; subst. inversion HF as [|? ? Hlc HF']; subst. inversion HW2 as [|? ? HWc HW3]; subst.
      destruct (Z.ltb_spec (snd last) e) as [Hl|Hl].
      2:{ exists []. split; [reflexivity|]. split; [constructor|]. split; [constructor|]. intros a b. rewrite gap_after_cons.
          split; [intros []|lia]. }
      apply ng_abs_ok in Hng. rewrite Hng. destruct (Z.ltb_spec (fst cur) (fst last)); [lia|].
      destruct (IH ngs' cur HN' HW2 HS') as (gs & E & G0 & G1 & G2).
      destruct (Z_le_gt_dec (fst cur) (snd last)) as [Hadj|Hgap].
      + exists gs. split; [destruct (Z.ltb_spec (fst cur) (snd last)); [exact E|]; destruct (Z.eqb_spec (fst cur) (snd last)); [exact E|lia]|].
        split; [exact G0|]. split; [exact G1|]. intros a b. rewrite G2, (gap_after_cons e last).
        split; [auto|]. intros [_ [(-> & -> & Hab)|Hr]]; [lia|exact Hr].
      + destruct (Z.ltb_spec (fst cur) (snd last)); [lia|]. destruct (Z.eqb_spec (fst cur) (snd last)); [lia|].
        destruct (Z.leb_spec e (fst cur)) as [Hq|Hq].
        * rewrite ito_of_str_in by lia. eexists. split; [reflexivity|]. split; [constructor; [reflexivity|constructor]|].
          split; [constructor; constructor|]. intros a b. rewrite gap_after_cons. split.
          -- intros [E'|[]]. injection E' as <- <-. split; [assumption|left]. lia.
          -- intros [_ [(-> & -> & _)|Hr]].
             ++ left. unfold piece_at. f_equal. lia.
             ++ exfalso. apply gap_after_cons in Hr. lia.
        * rewrite E, ito_of_str_in by lia. unfold gyield; cbn [fst snd]. eexists. split; [reflexivity|].
          split; [constructor; [reflexivity|exact G0]|]. split.
          -- constructor; [exact G1|]. rewrite Forall_forall. intros g Hg. cbn [f_stop].
             rewrite Forall_forall in G0. pose proof (G0 g Hg) as Eg. rewrite Eg in Hg. apply G2 in Hg.
             assert (HW4 : Forall (fun n => fst n <= snd n) (cur :: sps)).
             { eapply Forall_impl; [|exact HW2]. cbn beta. intros; lia. }
             exact (proj1 (gap_after_bounds e _ _ _ HW4 HS' Hg 0)).
          -- intros a b. rewrite gap_after_cons. split.
             ++ intros [E'|Hg]; [injection E' as <- <-; split; [assumption|left; lia]|apply G2 in Hg; auto].
             ++ intros [_ [(-> & -> & _)|Hr]]; [left; unfold piece_at; f_equal; lia|right; apply G2; exact Hr].
  Qed.
End Loop.

Theorem from_gaps_error src ngs sps desc zw : u_wf src ->
  Forall2 (ng_abs (u_string src) (u_offset src)) ngs sps -> Forall (fun n => fst n <= snd n) sps ->
  let e := u_offset src + zlen (u_text src) in
  (snd (from_gaps src ngs desc zw) = Some ValueError /\ disordered e sps) \/
  (snd (from_gaps src ngs desc zw) = None /\ ~ disordered e sps).
Proof.
  intros H HN HW. cbv zeta. unfold from_gaps. rewrite <- (u_text_len src H).
  destruct HN as [|ng last ngs sps Hng HN].
  - right. split; [destruct (_ <? _); reflexivity|apply disordered_nil].
  - apply ng_abs_ok in Hng. rewrite Hng.
    pose proof (gaps_loop_error (u_string src) (u_offset src) (u_offset src + zlen (u_text src)) desc zw sps ngs last HN HW) as R.
    destruct (_ <? fst last); [cbn [gyield snd]|]; exact R.
Qed.

Theorem from_gaps_any src ngs sps desc : u_wf src ->
  Forall2 (ng_abs (u_string src) (u_offset src)) ngs sps -> Forall (fun n => 0 <= fst n <= snd n) sps ->
  StronglySorted (fun x y => fst x <= fst y) sps ->
  let s := u_offset src in let e := u_offset src + zlen (u_text src) in
  exists gs, from_gaps src ngs desc false = (gs, None) /\
    Forall (fun g => g = FI (u_string src) (f_start g) (f_stop g) desc None) gs /\
    StronglySorted (fun x y => f_stop x <= f_start y) gs /\
    (forall a b, In (FI (u_string src) a b desc None) gs <-> gap_before s e sps a b \/ gap_after e sps a b).
Proof.
  intros H HN HW HS. cbv zeta. destruct (u_window src None None H) as (_ & _ & _ & _ & _ & _ & H0 & HL & _).
  pose proof (zlen_nonneg (u_text src)) as HZ. unfold from_gaps. rewrite <- (u_text_len src H).
  set (s := u_offset src) in *. set (e := s + zlen (u_text src)) in *.
  destruct HN as [|ng last ngs sps Hng HN].
  - destruct (Z.ltb_spec s e).
    + rewrite ito_of_str_in by lia. eexists. split; [reflexivity|]. split; [constructor; [reflexivity|constructor]|].
      split; [constructor; constructor|]. intros a b. split.
      * intros [E|[]]. injection E as <- <-. left. split; [reflexivity|]. auto.
      * intros [(-> & -> & _)|Hq1]; [left; reflexivity|exfalso; exact (gap_after_nil _ _ _ Hq1)].
    + exists []. split; [reflexivity|]. split; [constructor|]. split; [constructor|]. intros a b. split; [intros []|].
      intros [(_ & _ & ?)|Hq1]; [lia|exact (gap_after_nil _ _ _ Hq1)].
  - apply ng_abs_ok in Hng. fold s. rewrite Hng.
    destruct (gaps_loop_any (u_string src) s e desc ltac:(lia) sps ngs last HN HW HS) as (gs & E & G0 & G1 & G2).
    rewrite E. inversion HW as [|? ? HW1 HW2]; subst.
    destruct (Z.ltb_spec s (fst last)) as [Hlt|Hge].
    + rewrite ito_of_str_in by lia. unfold gyield; cbn [fst snd]. eexists. split; [reflexivity|].
      split; [constructor; [reflexivity|exact G0]|]. split.
      * constructor; [exact G1|]. rewrite Forall_forall. intros g Hg. cbn [f_stop].
        rewrite Forall_forall in G0. pose proof (G0 g Hg) as Eg. rewrite Eg in Hg. apply G2 in Hg.
        assert (HW4 : Forall (fun n => fst n <= snd n) (last :: sps)).
        { eapply Forall_impl; [|exact HW]. cbn beta. intros; lia. }
        pose proof (proj1 (gap_after_bounds e _ _ _ HW4 HS Hg 0)). cbn in *. lia.
      * intros a b. cbn [In]. split.
        -- intros [E'|Hg]; [injection E' as <- <-; left; split; [reflexivity|auto]|right; apply G2; exact Hg].
        -- intros [(-> & -> & _)|Hg]; [left; reflexivity|right; apply G2; exact Hg].
    + exists gs. split; [reflexivity|]. split; [exact G0|]. split; [exact G1|]. intros a b. split.
      * intros Hg. right. apply G2. exact Hg.
      * intros [(_ & _ & ?)|Hg]; [lia|apply G2; exact Hg].
Qed.

(** nothing uncovered is left out *)
Lemma gap_after_covers e : forall l x k, Forall (fun n => fst n <= snd n) (x :: l) -> StronglySorted (fun a b => fst a <= fst b) (x :: l) ->
  fst x <= k < e -> ~ covered (x :: l) k -> exists a b, gap_after e (x :: l) a b /\ a <= k < b.
Proof.
  induction l as [|y l IH]; intros x k HW HS Hk HC; inversion HW as [|? ? HW1 HW2]; subst.
  - assert (snd x <= k). { destruct (Z.le_gt_cases (snd x) k); [assumption|]. exfalso. apply HC. exists x. split; [left; reflexivity|lia]. }
    exists (snd x), e. split; [|lia]. apply gap_after_cons. split; [lia|]. left. lia.
  - inversion HS as [|? ? HS' HF]; subst. inversion HF as [|? ? Hxy HF']; subst.
    assert (snd x <= k). { destruct (Z.le_gt_cases (snd x) k); [assumption|]. exfalso. apply HC. exists x. split; [left; reflexivity|lia]. }
    destruct (Z_lt_dec k (fst y)) as [Hky|Hky].
    + exists (snd x), (Z.min e (fst y)). split; [|lia]. apply gap_after_cons. split; [lia|]. left. lia.
    + destruct (IH y k HW2 HS' ltac:(lia)) as (a & b & Hab & Hin).
      { intros (n & Hn & Hkn). apply HC. exists n. split; [right; exact Hn|exact Hkn]. }
      exists a, b. split; [|exact Hin]. apply gap_after_cons. split; [lia|]. right. exact Hab.
Qed.
Lemma sorted_app {A} (R : A -> A -> Prop) : forall l1 l2, StronglySorted R (l1 ++ l2) ->
  (forall x y, In x l1 -> In y l2 -> R x y) /\ StronglySorted R l2.
Proof.
  induction l1 as [|z l1 IH]; intros l2 H; cbn [app] in H; [split; [intros x y []|exact H]|].
  inversion H as [|? ? H1 H2]; subst. destruct (IH l2 H1) as [I1 I2]. split; [|exact I2].
  intros x y [<-|Hx] Hy; [|exact (I1 x y Hx Hy)]. rewrite Forall_forall in H2. apply H2. apply in_or_app. auto.
Qed.
Theorem from_gaps_right_when src ngs sps desc : u_wf src ->
  Forall2 (ng_abs (u_string src) (u_offset src)) ngs sps ->
  let s := u_offset src in let e := u_offset src + zlen (u_text src) in
  Forall (fun n => 0 <= fst n <= snd n /\ s <= snd n) sps -> s < e ->
  StronglySorted (fun x y => fst x <= fst y) sps ->
  exists gs, from_gaps src ngs desc false = (gs, None) /\
    (forall k, s <= k < e -> ~ covered sps k -> exists g, In g gs /\ in_f k g) /\
    (gaps_of s e sps gs <-> ~ outreached e sps).
Proof.
  intros H HN. cbv zeta. intros HW Hse HS. set (s := u_offset src) in *. set (e := s + zlen (u_text src)) in *.
  assert (HW0 : Forall (fun n => 0 <= fst n <= snd n) sps) by (eapply Forall_impl; [|exact HW]; cbn beta; tauto).
  assert (HW1 : Forall (fun n => fst n <= snd n) sps) by (eapply Forall_impl; [|exact HW]; cbn beta; lia).
  destruct (from_gaps_any src ngs sps desc H HN HW0 HS) as (gs & E & G0 & G1 & G2). fold s e in G2.
  exists gs. split; [exact E|].
  assert (MISS : forall k, s <= k < e -> ~ covered sps k -> exists g, In g gs /\ in_f k g).
  { intros k Hk HC. destruct sps as [|c sps].
    - exists (FI (u_string src) s e desc None). split; [apply G2; left; split; [reflexivity|split; [reflexivity|assumption]]|]. unfold in_f; cbn; lia.
    - destruct (Z_lt_dec k (fst c)) as [Hc|Hc].
      + exists (FI (u_string src) s (Z.min (fst c) e) desc None). split; [apply G2; left; split; [reflexivity|split; [reflexivity|lia]]|]. unfold in_f; cbn; lia.
      + destruct (gap_after_covers e sps c k HW1 HS ltac:(lia) HC) as (a & b & Hab & Hin).
        exists (FI (u_string src) a b desc None). split; [apply G2; right; exact Hab|]. unfold in_f; cbn; lia. }
  split; [exact MISS|].
  assert (IN : forall g, In g gs -> gap_before s e sps (f_start g) (f_stop g) \/ gap_after e sps (f_start g) (f_stop g)).
  { intros g Hg. apply G2. rewrite Forall_forall in G0. rewrite (G0 g Hg) in Hg. exact Hg. }
  split.
  - intros (_ & _ & HG & _) (l1 & b & l2 & Es & HF & Hb & a & Ha & Hab).
    assert (Hbe : snd b < e). { rewrite Forall_app in HF. destruct HF as [_ HF]. inversion HF; assumption. }
    assert (Hbs : s <= snd b). { rewrite Es, Forall_app in HW. destruct HW as [_ HW]. inversion HW; lia. }
    assert (Hbw : fst b <= snd b). { rewrite Es, Forall_app in HW1. destruct HW1 as [_ HW1]. inversion HW1; lia. }
    assert (Hfa : fst a <= fst b). { rewrite Es in HS. apply (proj1 (sorted_app _ _ _ HS)); [exact Ha|left; reflexivity]. }
    apply (proj1 (HG (snd b) ltac:(lia))).
    + exists (FI (u_string src) (snd b) (Z.min e (match l2 with [] => e | c :: _ => fst c end)) desc None).
      assert (snd b < Z.min e (match l2 with [] => e | c :: _ => fst c end)) by (destruct l2; lia).
      split; [|unfold in_f; cbn; lia]. apply G2. right. exists l1, b, l2. auto.
    + exists a. split; [rewrite Es; apply in_or_app; auto|lia].
  - intros HO. split; [exact G1|]. split; [|split].
    + rewrite Forall_forall. intros g Hg. destruct (IN g Hg) as [(E1 & E2)|(l1 & n & l2 & Es & HF & E1 & E2 & E3)].
      * destruct sps; lia.
      * assert (s <= snd n). { rewrite Es, Forall_app in HW. destruct HW as [_ HW]. inversion HW; lia. } lia.
    + intros k Hk. split; [|apply MISS; exact Hk]. intros (g & Hg & Hkg) (n & Hn & Hkn). unfold in_f in Hkg.
      destruct (IN g Hg) as [(E1 & E2)|(l1 & m & l2 & Es & HF & E1 & E2 & E3)].
      * destruct sps as [|c sps]; [destruct Hn|]. destruct E2 as [E2 E3]. inversion HS as [|? ? _ HF]; subst. rewrite Forall_forall in HF.
        destruct Hn as [<-|Hn]; [lia|]. pose proof (HF n Hn). cbn in *. lia.
      * rewrite Es in Hn, HS. apply in_app_or in Hn. destruct Hn as [Hn|[<-|Hn]]; [|lia|].
        -- apply HO. exists l1, m, l2. split; [exact Es|]. split; [exact HF|]. split; [destruct l2; [trivial|lia]|]. exists n. split; [exact Hn|lia].
        -- destruct l2 as [|c l2]; [destruct Hn|]. apply sorted_app in HS. destruct HS as [_ HS]. inversion HS as [|? ? HS2 _]; subst.
           inversion HS2 as [|? ? _ HF2]; subst. rewrite Forall_forall in HF2. destruct Hn as [<-|Hn]; [lia|]. pose proof (HF2 n Hn). cbn in *. lia.
    + rewrite Forall_forall. intros g Hg. destruct (IN g Hg) as [(E1 & E2)|(l1 & m & l2 & Es & HF & E1 & E2 & E3)].
      * split; [left; exact E1|]. destruct sps as [|c sps]; [left; lia|]. destruct (Z.le_gt_cases e (fst c)); [left; lia|].
        right. exists c. split; [left; reflexivity|lia].
      * split; [right; exists m; split; [rewrite Es; apply in_or_app; right; left; reflexivity|lia]|].
        destruct l2 as [|c l2]; [left; lia|]. destruct (Z.le_gt_cases e (fst c)); [left; lia|].
        right. exists c. split; [rewrite Es; apply in_or_app; right; right; left; reflexivity|lia].
Qed.
