(** Facts for Table.v: the chunk around a table. *)
From Verif Require Import SpecTable SpecXml PyFacts NlpFacts NlpFacts2 NlpFacts7 NlpFacts9 TableFacts TableFacts2 TableFacts4 TableFacts5 TableFacts6 TableFacts8.

Lemma head_flat {A B} (F : A -> list B) l w ws : flat_map F l = w :: ws -> exists x ws', In x l /\ F x = w :: ws'.
Proof.
  induction l as [|x l IH]; [discriminate|]. cbn [flat_map]. destruct (F x) as [|v vs] eqn:E.
  - intros H. destruct (IH H) as (y & ws' & Hy & Ey). exists y, ws'. split; [right; exact Hy|exact Ey].
  - intros [= -> _]. exists x, vs. split; [left; reflexivity|exact E].
Qed.
(** the repetition goes on as long as it can *)
Inductive chain (f : state -> list state) : state -> state -> Prop :=
| chain_stop x : filter (fun y => fst x <? fst y) (f x) = [] -> chain f x x
| chain_step x y w : In y (f x) -> fst x < fst y -> chain f y w -> chain f x w.
Lemma chain_le f x w : chain f x w -> fst x <= fst w. Proof. induction 1; lia. Qed.
Section Rep.
  Variables (f : state -> list state) (e : Z) (c : list (pystr * span)).
  Hypothesis Hf : forall p y, 0 <= p <= e -> In y (f (p, c)) -> 0 <= fst y <= e /\ snd y = c.
  Lemma rep_chain : forall fuel p, 0 <= p <= e -> e - p < Z.of_nat fuel -> exists w ws, zrep true f fuel 0 None (p, c) = w :: ws /\ chain f (p, c) w.
  Proof.
    induction fuel as [|fuel IH]; intros p Hp Lf; [lia|]. cbn [zrep pred option_map]. destruct (filter (fun y => fst (p, c) <? fst y) (f (p, c))) as [|y ys] eqn:E.
    - exists (p, c), []. split; [reflexivity|]. apply chain_stop. exact E.
    - assert (Hy : In y (filter (fun y => fst (p, c) <? fst y) (f (p, c)))) by (rewrite E; left; reflexivity). apply filter_In in Hy. destruct Hy as [Hy Ly]. cbn [fst] in Ly. destruct (Hf p y Hp Hy) as [By Cy]. destruct y as [q d]. cbn [fst snd] in *. subst d.
      destruct (IH q By ltac:(lia)) as (w & ws & Ew & Cw). cbn [flat_map]. rewrite Ew. exists w. eexists. split; [reflexivity|]. apply (chain_step f (p, c) (q, c) w Hy); [cbn [fst]; lia|exact Cw].
  Qed.
  Lemma plus_chain p w ws : 0 <= p <= e -> zrep true f (S (Z.to_nat (e - p))) 1 None (p, c) = w :: ws -> exists q, In (q, c) (f (p, c)) /\ p < q <= e /\ chain f (q, c) w.
  Proof.
    intros Hp. cbn [zrep pred option_map]. rewrite app_nil_r. destruct (filter (fun y => fst (p, c) <? fst y) (f (p, c))) as [|y ys] eqn:E; [discriminate|].
    assert (Hy : In y (filter (fun y => fst (p, c) <? fst y) (f (p, c)))) by (rewrite E; left; reflexivity). apply filter_In in Hy. destruct Hy as [Hy Ly]. cbn [fst] in Ly. destruct (Hf p y Hp Hy) as [By Cy]. destruct y as [q d]. cbn [fst snd] in *. subst d.
    destruct (rep_chain (Z.to_nat (e - p)) q By ltac:(lia)) as (w' & ws' & Ew & Cw). cbn [flat_map]. rewrite Ew. intros [= -> _]. exists q. split; [exact Hy|]. split; [lia|exact Cw].
  Qed.
End Rep.

Lemma zget_written s e p u v c : written s e p (u ++ c :: v) -> zget s (p + zlen u) = Some c.
Proof.
  intros (H0 & H1 & H2). pose proof (zlen_nonneg u) as Lu. pose proof (zlen_nonneg v) as Lv. rewrite zlen_app, zlen_cons in *.
  rewrite <- (zget_zsub s p (p + (zlen u + (1 + zlen v)))) by lia. rewrite H2, zget_app2 by lia. rewrite Z.sub_diag. reflexivity.
Qed.
Lemma written_in s e p u q : written s e p u -> p <= q < p + zlen u -> exists v c w, u = v ++ c :: w /\ zlen v = q - p /\ zget s q = Some c.
Proof.
  intros W Hq. destruct (zget_some u (q - p) ltac:(lia)) as [c Hc]. unfold zget in Hc. destruct (Z.ltb_spec (q - p) 0); [lia|]. destruct (nth_error_split _ _ Hc) as (v & w & -> & Ev). exists v, c, w. assert (L : zlen v = q - p) by (unfold zlen; lia). split; [reflexivity|]. split; [exact L|]. pose proof (zget_written s e p v w c W) as G. rewrite L in G. replace (p + (q - p)) with q in G by lia. exact G.
Qed.
Lemma runs_lang (f : Z -> bool) g least u : lang (ZRep g least None (ZCls f)) u <-> Forall (fun c => f c = true) u /\ (least <= length u)%nat.
Proof.
  split.
  - intros (us & -> & F & L & _). assert (Q : Forall (fun c => f c = true) (concat us) /\ length (concat us) = length us).
    { clear L. induction F as [|v us [_ (c & -> & Hc)] F [IH IL]]; [split; [constructor|reflexivity]|]. cbn [concat app length]. split; [constructor; assumption|rewrite IL; reflexivity]. }
    destruct Q as [Q ->]. auto.
  - intros [F L]. exists (map (fun c => [c]) u). rewrite map_length. split; [clear F L; induction u as [|c u IH]; [reflexivity|]; cbn; f_equal; exact IH|]. split; [|auto]. apply Forall_map. eapply Forall_impl; [|exact F]. cbn beta. intros c Hc. split; [discriminate|]. exists c. auto.
Qed.
Section Step.
  Variables (s : pystr) (e : Z).
  Hypothesis He : e <= zlen s.
  Lemma run_sound x y : 0 <= fst x <= e -> In y (zways (ZPlusL (ZCls not_nl)) s e x) -> exists k, y = (k, snd x) /\ fst x < k <= e /\ forall q, fst x <= q < k -> zget s q <> Some 10.
  Proof.
    intros Hx Hy. destruct (simple_reads s e (fun _ => True) He (fun _ _ _ _ _ => Logic.I) (ZPlusL (ZCls not_nl)) eq_refl x y Hx Hy) as (u & Lu & W & ->). apply runs_lang in Lu. destruct Lu as [F L]. exists (fst x + zlen u). pose proof (written_end _ _ _ _ W). split; [reflexivity|]. split; [unfold zlen in *; lia|]. intros q Hq. destruct (written_in _ _ _ _ _ W Hq) as (v & c & w & -> & _ & ->). apply Forall_app in F. destruct F as [_ F]. inversion F as [|? ? N _]; subst. intros [= ->]. discriminate N.
  Qed.
  Lemma run_complete x k : 0 <= fst x -> fst x < k <= e -> (forall q, fst x <= q < k -> zget s q <> Some 10) -> In (k, snd x) (zways (ZPlusL (ZCls not_nl)) s e x).
  Proof.
    intros Hx Hk N. set (u := zsub s (fst x) k). assert (L : zlen u = k - fst x) by (subst u; rewrite zsub_len; lia). replace k with (fst x + zlen u) by lia.
    assert (W : written s e (fst x) u). { split; [lia|]. split; [lia|]. rewrite L. subst u. f_equal. lia. }
    refine (simple_writes s e (fun _ => True) He (fun _ _ _ _ _ => Logic.I) (ZPlusL (ZCls not_nl)) eq_refl u x _ Hx W). apply runs_lang. split; [|unfold zlen in L; lia]. apply Forall_forall. intros c Hc. apply in_split in Hc. destruct Hc as (v & w & E). rewrite E in W. pose proof (zget_written _ _ _ _ _ _ W) as G. pose proof (zlen_nonneg v). rewrite E, zlen_app, zlen_cons in L. pose proof (zlen_nonneg w). specialize (N (fst x + zlen v) ltac:(lia)). rewrite G in N. unfold not_nl. destruct (Z.eqb_spec c 10); [congruence|reflexivity].
  Qed.
  (** the part of a line after its indentation *)
  Definition line_from (p k : Z) : Prop := (exists d, zget s p = Some d /\ not_blank d = true) /\ p + 2 <= k <= e /\ forall q, p + 1 <= q < k -> zget s q <> Some 10.
  Lemma head_sound p c y : 0 <= p <= e -> In y (zways (ZSeq (ZCls not_blank) (ZPlusL (ZCls not_nl))) s e (p, c)) -> exists k, y = (k, c) /\ line_from p k.
  Proof.
    intros Hp Hy. rewrite seq_ways in Hy. apply in_flat_map in Hy. destruct Hy as (z & Hz & Hy). cbn [zways fst snd] in Hz. destruct (char_is not_blank s e p) eqn:E; [|destruct Hz]. destruct Hz as [<-|[]]. apply char_is_spec in E. destruct E as [E1 E2]. destruct (run_sound (p + 1, c) y ltac:(cbn [fst]; lia) Hy) as (k & -> & B & N). cbn [fst snd] in *. exists k. split; [reflexivity|]. split; [exact (E2 ltac:(lia))|]. split; [lia|exact N].
  Qed.
  Lemma head_complete p c k : 0 <= p -> line_from p k -> In (k, c) (zways (ZSeq (ZCls not_blank) (ZPlusL (ZCls not_nl))) s e (p, c)).
  Proof.
    intros Hp ((d & Hd & Nd) & B & N). rewrite seq_ways. apply in_flat_map. exists (p + 1, c). split; [cbn [zways fst snd]; rewrite (char_is_at not_blank s e p d); [left; reflexivity|lia|exact Hd|exact Nd]|]. apply (run_complete (p + 1, c) k); [cbn [fst]; lia|cbn [fst]; lia|exact N].
  Qed.
  Lemma assoc_ways a b r x y : In y (zways (ZSeq a (ZSeq b r)) s e x) <-> exists z, In z (zways (ZSeq a b) s e x) /\ In y (zways r s e z).
  Proof.
    rewrite !seq_ways. split.
    - intros H. apply in_flat_map in H. destruct H as (z & Hz & H). rewrite seq_ways in H. apply in_flat_map in H. destruct H as (w & Hw & H). exists w. split; [|exact H]. apply in_flat_map. exists z. auto.
    - intros (w & Hw & H). apply in_flat_map in Hw. destruct Hw as (z & Hz & Hw). apply in_flat_map. exists z. split; [exact Hz|]. rewrite seq_ways. apply in_flat_map. exists w. auto.
  Qed.
  Lemma nl_sound k c y : 0 <= k <= e -> In y (zways nl_rx s e (k, c)) -> y = (k + 1, c) /\ zget s k = Some 10 /\ k < e.
  Proof.
    intros Hk Hy. destruct (simple_reads s e (fun _ => True) He (fun _ _ _ _ _ => Logic.I) nl_rx eq_refl (k, c) y Hk Hy) as (u & -> & W & ->). cbn [fst snd] in *. split; [reflexivity|]. split; [pose proof (zget_written s e k [] [] 10 W) as G; change (zlen (@nil Z)) with 0 in G; rewrite Z.add_0_r in G; exact G|]. destruct W as (_ & W & _). change (zlen [10]) with 1 in W. lia.
  Qed.
  Lemma nl_complete k c : 0 <= k < e -> zget s k = Some 10 -> zways nl_rx s e (k, c) = [(k + 1, c)].
  Proof. intros Hk G. unfold nl_rx. cbn [zways fst snd]. rewrite str_written; [reflexivity|lia|]. split; [lia|]. change (zlen [10]) with 1. split; [lia|exact (zsub_single s k 10 G)]. Qed.
  Section Ind.
    Variables (i0 : Z) (g : pystr) (c : list (pystr * span)).
    Hypothesis Wi : written s e i0 g.
    Hypothesis Kc : KI i0 g c.
    Lemma body_sound p y : 0 <= p <= e -> In y (zways line_body s e (p, c)) -> exists k, written s e p g /\ line_from (p + zlen g) k /\ snd y = c /\ (fst y = k + 1 /\ zget s k = Some 10 /\ k < e \/ fst y = k /\ (k = e \/ k + 1 = e /\ zget s k = Some 10)).
    Proof.
      intros Hp Hy. unfold line_body in Hy. cbn [ZSeqs fold_right] in Hy. rewrite seq_ways in Hy. apply in_flat_map in Hy. destruct Hy as (z & Hz & Hy). destruct (zp_ref s e i0 g Wi (p, c) z Hp Kc Hz) as (ps & -> & _ & W & ->). cbn [text_of flat_map snd caps_of app fst] in *. rewrite !app_nil_r in *. pose proof (written_end _ _ _ _ W) as B. pose proof (zlen_nonneg g) as L.
      clear Hz. apply assoc_ways in Hy. destruct Hy as (z & Hz & Hy). destruct (head_sound (p + zlen g) c z ltac:(lia) Hz) as (k & -> & Lk). clear Hz. exists k. split; [exact W|]. split; [exact Lk|]. destruct Lk as (_ & Bk & _). rewrite seq_ways in Hy. apply in_flat_map in Hy. destruct Hy as (z & Hz & Hy). apply nil_ways in Hy. subst y.
      change (zways (ZAlt nl_rx ZEnd) s e (k, c)) with (zways nl_rx s e (k, c) ++ zways ZEnd s e (k, c)) in Hz. apply in_app_or in Hz. destruct Hz as [Hz|Hz].
      - destruct (nl_sound k c z ltac:(lia) Hz) as (-> & Q1 & Q2). cbn [fst snd]. auto.
      - cbn [zways fst snd] in Hz. destruct ((k =? e) || ((k + 1 =? e) && char_is (Z.eqb 10) s e k)) eqn:E; [|destruct Hz]. destruct Hz as [<-|[]]. cbn [fst snd]. split; [reflexivity|]. right. split; [reflexivity|]. apply orb_true_iff in E. destruct E as [E|E]; [left; lia|]. apply andb_true_iff in E. destruct E as [E1 E2]. right. split; [lia|]. apply char_is_spec in E2. destruct E2 as [_ E2]. destruct (E2 ltac:(lia)) as (d & -> & Ed). f_equal. lia.
    Qed.
    Lemma body_complete p k : 0 <= p -> written s e p g -> line_from (p + zlen g) k -> (k = e \/ zget s k = Some 10) -> exists y, In y (zways line_body s e (p, c)) /\ p < fst y.
    Proof.
      intros Hp W Lk En. pose proof (zlen_nonneg g) as L. pose proof (written_end _ _ _ _ W) as B. pose proof Lk as (_ & Bk & _). assert (Q : exists y, In y (zways (ZAlt nl_rx ZEnd) s e (k, c)) /\ k <= fst y).
      { change (zways (ZAlt nl_rx ZEnd) s e (k, c)) with (zways nl_rx s e (k, c) ++ zways ZEnd s e (k, c)). destruct (Z.eq_dec k e) as [->|Ne].
        - exists (e, c). split; [|cbn; lia]. apply in_or_app. right. cbn [zways fst]. rewrite Z.eqb_refl. left. reflexivity.
        - destruct En as [En|En]; [lia|]. exists (k + 1, c). split; [|cbn; lia]. apply in_or_app. left. rewrite nl_complete; [left; reflexivity|lia|exact En]. }
      destruct Q as (y & Hy & Ly). exists y. split; [|lia]. unfold line_body. cbn [ZSeqs fold_right]. rewrite seq_ways. apply in_flat_map. exists (p + zlen g, c). split.
      - cbn [zways fst snd]. rewrite Kc. replace (zsub s i0 (i0 + zlen g)) with g by (symmetry; exact (proj2 (proj2 Wi))). rewrite (str_written s e g p Hp W). left. f_equal. lia.
      - apply assoc_ways. exists (k, c). split; [apply head_complete; [lia|exact Lk]|]. rewrite seq_ways. apply in_flat_map. exists y. split; [exact Hy|].
        assert (By : 0 <= fst y <= e). { clear - Hy Bk Hp L He. change (zways (ZAlt nl_rx ZEnd) s e (k, c)) with (zways nl_rx s e (k, c) ++ zways ZEnd s e (k, c)) in Hy. apply in_app_or in Hy. destruct Hy as [Hy|Hy]; [destruct (nl_sound k c y ltac:(lia) Hy) as (-> & _ & Q); cbn [fst]; lia|]. cbn [zways fst] in Hy. destruct (_ || _) in Hy; [|destruct Hy]. destruct Hy as [<-|[]]. cbn [fst]. lia. }
        cbn [zways]. rewrite str_written; [|lia|apply written_nil; lia]. left. change (zlen (@nil Z)) with 0. rewrite Z.add_0_r. destruct y; reflexivity.
    Qed.
  End Ind.
End Step.
