(** Facts for Table.v: the chunks of a style with indentation; the itorators. *)
From Verif Require Import SpecTable SpecXml PyFacts HeapFacts HeapFacts2 HeapFacts3 HeapFacts4 CombinFacts CombinFacts2 CombinFacts3 CombinFacts4 ArborFacts ArborFacts2 ArborFacts3 ArborFacts4 XmlFacts5 XmlFacts6
  NlpFacts NlpFacts2 NlpFacts3 NlpFacts4 NlpFacts5 NlpFacts7 NlpFacts9 TableFacts TableFacts2 TableFacts3 TableFacts4 TableFacts5 TableFacts6 TableFacts7.
From Coq Require Import Sorted.

(** ** chunks *)
Definition line_body : trx := ZSeqs [ZRef t_indent; ZCls not_blank; ZPlusL (ZCls not_nl); ZAlt nl_rx ZEnd].
Definition first_line : trx := ZSeqs [ZCls not_blank; ZPlusL (ZCls not_nl); nl_rx].
Definition chunk_tail : trx := ZSeqs [ZCls not_blank; ZPlusL (ZCls not_nl); nl_rx; ZPlus line_body].
Definition plain_chips (ps : list chip) : Prop := Forall (fun p => fst p = None) ps.
Lemma plain_caps ps : forall i, plain_chips ps -> caps_of i ps = [].
Proof. induction ps as [|[d u] ps IH]; intros i F; [reflexivity|]. inversion F as [|? ? E F']; subst. cbn [fst] in E. subst d. cbn [caps_of app]. apply IH. exact F'. Qed.
Section Chunk.
  Variables (s : pystr) (e : Z).
  Hypothesis He : e <= zlen s.
  Section K_.
    Variables (i0 : Z) (ind : pystr).
    Hypothesis Wi : written s e i0 ind.
    Definition KI (c : list (pystr * span)) : Prop := last_span t_indent c = Some (i0, i0 + zlen ind).
    Lemma KI_ok c i ps : clean ps -> KI c -> KI (c ++ caps_of i ps). Proof. intros C H. unfold KI. rewrite last_clean by exact C. exact H. Qed.
    Lemma zp_ref : zp s e KI (ZRef t_indent) (fun ps => ps = [(None, ind)]).
    Proof.
      intros x v Hx Kx Hv. cbn [zways] in Hv. rewrite Kx in Hv. destruct Wi as (W0 & W1 & W2). rewrite W2 in Hv. destruct (str_at ind s e (fst x)) eqn:E; [|destruct Hv]. destruct Hv as [<-|[]]. exists [(None, ind)]. split; [reflexivity|]. split; [constructor; [discriminate|constructor]|].
      cbn [text_of flat_map snd caps_of app]. rewrite !app_nil_r. split; [|f_equal; lia]. unfold str_at in E. apply andb_true_iff in E. destruct E as [E1 E2]. apply eqb_str_eq in E2. split; [lia|]. split; [lia|exact E2].
    Qed.
    Lemma zp_end : zp s e KI ZEnd (fun ps => ps = []).
    Proof.
      intros x v Hx Kx Hv. cbn [zways] in Hv. destruct (_ || _) in Hv; [|destruct Hv]. destruct Hv as [<-|[]]. exists []. split; [reflexivity|]. split; [constructor|]. cbn. rewrite app_nil_r, Z.add_0_r. split; [apply written_nil; exact Hx|]. destruct x; reflexivity.
    Qed.
    Lemma zp_alt a b Qa Qb : zp s e KI a Qa -> zp s e KI b Qb -> zp s e KI (ZAlt a b) (fun ps => Qa ps \/ Qb ps).
    Proof.
      intros Pa Pb x w Hx Kx Hw. cbn [zways] in Hw. apply in_app_or in Hw. destruct Hw as [Hw|Hw]; [destruct (Pa x w Hx Kx Hw) as (ps & Q & R)|destruct (Pb x w Hx Kx Hw) as (ps & Q & R)]; exists ps; auto.
    Qed.
    Lemma one_plain L ps : one L ps -> plain_chips ps. Proof. intros (u & -> & _). constructor; [reflexivity|constructor]. Qed.
    Lemma plain_app p q : plain_chips p -> plain_chips q -> plain_chips (p ++ q). Proof. intros H1 H2. apply Forall_app. auto. Qed.
    Lemma zp_plain_simple r : simple r = true -> zp s e KI r plain_chips.
    Proof. intros S. eapply zp_imp; [|exact (zp_simple s e KI He KI_ok r S)]. intros ps. apply one_plain. Qed.
    Lemma zp_plain_seq a b : zp s e KI a plain_chips -> zp s e KI b plain_chips -> zp s e KI (ZSeq a b) plain_chips.
    Proof. intros Pa Pb. eapply zp_imp; [|exact (zp_seq s e KI He KI_ok a b _ _ Pa Pb)]. cbn beta. intros ps (p & q & -> & H1 & H2). apply plain_app; assumption. Qed.
    Lemma body_plain : zp s e KI line_body plain_chips.
    Proof.
      unfold line_body. cbn [ZSeqs fold_right]. apply zp_plain_seq; [eapply zp_imp; [|exact zp_ref]; intros ps ->; constructor; [reflexivity|constructor]|]. apply zp_plain_seq; [apply zp_plain_simple; reflexivity|]. apply zp_plain_seq; [apply zp_plain_simple; reflexivity|].
      apply zp_plain_seq; [|apply zp_plain_simple; reflexivity]. eapply zp_imp; [|exact (zp_alt _ _ _ _ (zp_str s e KI KI_ok [10]) zp_end)]. cbn beta. intros ps [->| ->]; [constructor; [reflexivity|constructor]|constructor].
    Qed.
    Lemma chunk_plain : zp s e KI chunk_tail plain_chips.
    Proof.
      unfold chunk_tail. cbn [ZSeqs fold_right]. apply zp_plain_seq; [apply zp_plain_simple; reflexivity|]. apply zp_plain_seq; [apply zp_plain_simple; reflexivity|]. apply zp_plain_seq; [apply zp_plain_simple; reflexivity|]. apply zp_plain_seq; [|apply zp_plain_simple; reflexivity].
      eapply zp_imp; [|exact (zp_rep s e KI He KI_ok true 1 None line_body _ body_plain)]. cbn beta. intros ps (pss & -> & F & _). induction F as [|p pss [Hp _] F IH]; [constructor|]. cbn [concat]. apply plain_app; assumption.
    Qed.
    Lemma tail_fwd x w : 0 <= fst x <= e -> KI (snd x) -> In w (zways chunk_tail s e x) -> fst x < fst w <= e.
    Proof.
      intros Hx Kx Hw. unfold chunk_tail in Hw. cbn [ZSeqs fold_right] in Hw. rewrite seq_ways in Hw. apply in_flat_map in Hw. destruct Hw as (y & Hy & Hw).
      destruct (zp_plain_simple (ZCls not_blank) eq_refl x y Hx Kx Hy) as (ps & P & C & W & Ey). cbn [zways] in Hy. destruct (char_is not_blank s e (fst x)) eqn:E; [|destruct Hy]. destruct Hy as [Q|[]]. apply char_is_spec in E. destruct E as [E _].
      assert (R : zp s e KI (ZSeq (ZPlusL (ZCls not_nl)) (ZSeq nl_rx (ZSeq (ZPlus line_body) (ZStr [])))) plain_chips).
      { apply zp_plain_seq; [apply zp_plain_simple; reflexivity|]. apply zp_plain_seq; [apply zp_plain_simple; reflexivity|]. apply zp_plain_seq; [|apply zp_plain_simple; reflexivity].
        eapply zp_imp; [|exact (zp_rep s e KI He KI_ok true 1 None line_body _ body_plain)]. cbn beta. intros qs (pss & -> & F & _). induction F as [|p pss [Hp _] F IH]; [constructor|]. cbn [concat]. apply plain_app; assumption. }
      subst y. destruct (R (fst x + 1, snd x) w ltac:(cbn [fst]; lia) Kx Hw) as (qs & _ & _ & Wq & ->). cbn [fst snd] in *. pose proof (written_end _ _ _ _ Wq). pose proof (zlen_nonneg (text_of qs)). lia.
    Qed.
  End K_.
  Lemma chunk_ways i w : 0 <= i <= e -> In w (zways chunk_rx s e (i, [])) ->
    line_begins s i /\ i < fst w <= e /\ exists ind, Forall (fun c => c = 32 \/ c = 9) ind /\ written s e i ind /\ snd w = [(t_indent, (i, i + zlen ind)); (t_chunk, (i, fst w))] /\
      In (fst w, [(t_indent, (i, i + zlen ind))]) (zways chunk_tail s e (i + zlen ind, [(t_indent, (i, i + zlen ind))])).
  Proof.
    intros Hi Hw. change chunk_rx with (ZSeq ZLine (ZGrp t_chunk (ZSeq (ZGrp t_indent indent_rx) chunk_tail))) in Hw. rewrite seq_ways in Hw. apply in_flat_map in Hw. destruct Hw as (y & Hy & Hw).
    cbn [zways fst] in Hy. destruct ((i =? 0) || char_is (Z.eqb 10) s e (i - 1) && (0 <? i)) eqn:E; [|destruct Hy]. destruct Hy as [<-|[]]. rewrite grp_ways, seq_ways in Hw. apply in_map_iff in Hw. destruct Hw as ([vj vc] & <- & Hv). cbn [fst snd]. apply in_flat_map in Hv. destruct Hv as (y & Hy & Hv).
    destruct (indent_ways s e He i y Hi Hy) as (ind & Fi & Wi & ->). pose proof (written_end _ _ _ _ Wi) as B. pose proof (zlen_nonneg ind) as L0.
    assert (K0 : KI i ind [(t_indent, (i, i + zlen ind))]) by exact (last_snoc t_indent [] i (i + zlen ind)).
    pose proof (tail_fwd i ind Wi (i + zlen ind, [(t_indent, (i, i + zlen ind))]) (vj, vc) ltac:(cbn [fst]; lia) K0 Hv) as Fw. destruct (chunk_plain i ind Wi (i + zlen ind, [(t_indent, (i, i + zlen ind))]) (vj, vc) ltac:(cbn [fst]; lia) K0 Hv) as (ps & P & _ & W & Ev). rewrite (plain_caps ps _ P), app_nil_r in Ev. cbn [fst snd] in *.
    split; [|split; [lia|]].
    - apply orb_true_iff in E. destruct E as [E|E]; [left; lia|]. apply andb_true_iff in E. destruct E as [E E0]. right. apply char_is_spec in E. destruct E as [_ E]. destruct (E ltac:(lia)) as (c & Hc & Q). apply Z.eqb_eq in Q. subst c. exact Hc.
    - exists ind. split; [exact Fi|]. split; [exact Wi|]. injection Ev as -> ->. split; [reflexivity|exact Hv].
  Qed.
  Lemma chunk_fwd i w : 0 <= i <= e -> In w (zways chunk_rx s e (i, [])) -> i < fst w.
  Proof. intros Hi Hw. destruct (chunk_ways i w Hi Hw) as (_ & B & _). lia. Qed.
  Lemma chunk_gives a m : 0 <= a -> In m (zfound chunk_rx s a e) -> a <= fst (fst m) < snd (fst m) /\ snd (fst m) <= e /\ line_begins s (fst (fst m)) /\
    gives default_desc (re_keys chunk_re (GFKeys [KStr t_chunk])) (to_match chunk_re s m) (at_ s (fst (fst m)) (snd (fst m)) t_chunk []).
  Proof.
    intros Ha Hm. destruct (zfind_in _ s e chunk_fwd _ a m Ha Hm) as (B & w & ws & E & E1 & E2). destruct (chunk_ways (fst (fst m)) w ltac:(lia) ltac:(rewrite E; left; reflexivity)) as (Lb & Bw & ind & _ & _ & Es & _).
    destruct m as [[i j] c]. cbn [fst snd] in *. subst c. rewrite <- E1 in *. split; [lia|]. split; [lia|]. split; [exact Lb|].
    pose proof (flat_gives (i, fst w) (KStr t_chunk) [] (Forall_nil _) (SSorted_nil _) default_desc (re_keys chunk_re (GFKeys [KStr t_chunk])) (to_match chunk_re s ((i, fst w), snd w))) as G. apply G; [unfold cap_valid; cbn [fst snd rm_string to_match]; lia|]. rewrite Es. reflexivity.
  Qed.
End Chunk.

(** ** the itorators *)
Lemma plain_finds st s a b ts : 0 <= a <= b -> b <= zlen s -> st_equi st = false -> Forall2 (gives default_desc (re_keys (style_re st) table_keys)) (zfinditer (style_re st) (build_rx st) s a b) ts -> finds_tables st s a b ts.
Proof.
  intros Hab Hb Eq G h i W A Li Es Ea Eb. unfold find_tables.
  destruct (call_produces (table_prog st) 0 (style_re st) (zfinditer (style_re st) (build_rx st)) default_desc table_keys 2 s a b (n_f (nd h i)) ts) with (h := h) (x := i) as (h' & l & R & Hf & X & O & N & L).
  - unfold table_prog, table_itor. rewrite Eq. reflexivity.
  - exact Logic.I.
  - exact Es.
  - exact Ea.
  - exact Eb.
  - exact G.
  - split; assumption.
  - exact Li.
  - reflexivity.
  - exists h', l. rewrite (reach_drain _ _ _ _ R), drain_of_list. destruct Hf as [W' A']. split; [reflexivity|]. split; [exact X|]. split; [exact W'|]. split; [exact A'|]. split; [|split; [|exact N]].
    + clear - O. induction O as [|t r ts l (R & _) O IH]; constructor; assumption.
    + clear - O L. induction O as [|t r ts l (_ & P & _) O IH]; [constructor|]. inversion L as [|? ? L1 L2]; subst. constructor; [auto|exact (IH L2)].
Qed.
Lemma chunked_finds st s a b tss : 0 <= a <= b -> b <= zlen s -> st_equi st = true ->
  Forall2 (fun m ts => Forall2 (gives default_desc (re_keys (style_re st) table_keys)) (zfinditer (style_re st) (build_rx st) s (fst (fst m)) (snd (fst m))) ts) (zfound chunk_rx s a b) tss -> finds_tables st s a b (concat tss).
Proof.
  intros Hab Hb Eq G h i W A Li Es Ea Eb. unfold find_tables. set (P := table_prog st).
  assert (E0 : P 0%nat = Itor (TExtract chunk_re (zfinditer chunk_re chunk_rx) None (Some default_desc) (GFKeys [KStr t_chunk])) [Con Delegate (PDesc t_chunk) 1] PostNone) by (subst P; unfold table_prog; rewrite Eq; reflexivity).
  assert (E1 : P 1%nat = Itor (TExtract (style_re st) (zfinditer (style_re st) (build_rx st)) None (Some default_desc) table_keys) [] PostNone) by reflexivity.
  destruct (clone_same h i W A Li) as (h1 & Ec & X1 & L1 & W1 & A1 & Ef1 & _).
  set (bts := map (fun m : span * list (pystr * span) => at_ s (fst (fst m)) (snd (fst m)) t_chunk []) (zfound chunk_rx s a b)).
  assert (Gb : Forall2 (gives default_desc (re_keys chunk_re (GFKeys [KStr t_chunk]))) (zfinditer chunk_re chunk_rx s a b) bts).
  { pose proof (fun m => chunk_gives s b Hb a m (proj1 Hab)) as Q. subst bts. unfold zfinditer. clear G. revert Q. induction (zfound chunk_rx s a b) as [|m l IH]; intros Q; [constructor|]. cbn [map]. constructor; [exact (proj2 (proj2 (proj2 (Q m (or_introl eq_refl)))))|]. apply IH. intros m' Hm'. apply Q. right. exact Hm'. }
  destruct (run_gives default_desc (re_keys chunk_re (GFKeys [KStr t_chunk])) _ _ Gb h1 (conj W1 A1)) as (h2 & ls & E2 & X2 & Hf2 & O2 & L2 & N2).
  assert (Ho : Forall2 (handles (fun x => drain (flow (traverse 2 P) [Con Delegate (PDesc t_chunk) 1] x))) bts tss).
  { subst bts. clear - G E1. induction G as [|m ts ms tss Gm G IH]; [constructor|]. cbn [map]. constructor; [|exact IH]. apply produces_handles. intros g x Hf O. pose proof (own_lt _ _ _ O) as Lx. assert (Ef : n_f (nd g x) = FI s (fst (fst m)) (snd (fst m)) (Some t_chunk) None) by (destruct O as (R & _ & _); rewrite (rep_f _ _ _ R); reflexivity).
    rewrite flow_delegate; [|cbn [c_pred eval_pred]; rewrite Ef; reflexivity|reflexivity]. cbn [c_itor].
    destruct (extract_produces P 1 (style_re st) (zfinditer (style_re st) (build_rx st)) default_desc table_keys 1 s (fst (fst m)) (snd (fst m)) (n_f (nd g x)) ts E1 Logic.I ltac:(rewrite Ef; reflexivity) ltac:(rewrite Ef; reflexivity) ltac:(rewrite Ef; reflexivity) Gm g x Hf Lx eq_refl) as (g' & l & R & Hf' & X & O' & N & L).
    exists g', l. rewrite (reach_drain _ _ _ _ R), drain_of_list. split; [reflexivity|]. auto. }
  destruct (for_each_handles _ _ _ Ho h2 (concat ls) Hf2 O2 N2) as (h3 & l3 & E3 & Hf3 & L3 & O3 & N3 & R3 & K3).
  pose proof (extends_trans _ _ _ X1 X2) as X12. exists h3, l3.
  assert (Ll : Forall (fun c => (length h <= c)%nat) (concat ls)). { eapply Forall_impl; [|exact L2]. cbn beta. intros c Q. destruct X1; lia. }
  split; [|split; [|split; [exact (proj1 Hf3)|split; [exact (proj2 Hf3)|split; [|split; [|exact N3]]]]]].
  - unfold call. rewrite (reach_drain _ _ _ _ (reach_act _ (fun j => traverse 3 P 0 j) h h1 (length h) Ec)). rewrite traverse_plain by (rewrite E0; reflexivity). rewrite E0. cbn [it_cons it_tr transform_of].
    match goal with |- for_each ?f ?a h1 = _ => assert (R : reach a h1 h2 (of_list (concat ls))) end.
    { refine (reach_act (fun h0 => obind (from_re h0 chunk_re (GFKeys [KStr t_chunk]) default_desc None (zfinditer chunk_re chunk_rx (h_string h0 (length h)) (h_start h0 (length h)) (h_stop h0 (length h)))) (fun h1 r => (h1, Ok (fst r)))) of_list h1 h2 (concat ls) _).
      unfold h_string, h_start, h_stop in *. rewrite Ef1, Es, Ea, Eb. rewrite from_re_nolimit by reflexivity. rewrite E2. reflexivity. }
    rewrite (reach_for _ _ _ _ _ R). exact E3.
  - destruct X12 as [Y1 Y2]. split; [lia|]. intros j Hj. rewrite K3; [apply Y2; exact Hj|lia|]. intros Q. rewrite Forall_forall in Ll. specialize (Ll _ Q). lia.
  - clear - O3. induction O3 as [|t r ts l (R & _) O IH]; constructor; assumption.
  - assert (Lr : Forall (fun c => (length h <= c)%nat) l3). { eapply Forall_impl; [|exact R3]. cbn beta. intros c [Q|Q]; [rewrite Forall_forall in Ll; exact (Ll _ Q)|destruct X12; lia]. }
    clear - O3 Lr. induction O3 as [|t r ts l (_ & P & _) O IH]; [constructor|]. inversion Lr as [|? ? Q1 Q2]; subst. constructor; [auto|exact (IH Q2)].
Qed.
