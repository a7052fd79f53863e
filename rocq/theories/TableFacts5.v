(** Facts for Table.v: the engine reads every layout of the style. *)
From Verif Require Import SpecTable PyFacts NlpFacts NlpFacts2 NlpFacts7 NlpFacts9 TableFacts TableFacts2 TableFacts4.

  Lemma str_written s e l i : 0 <= i -> written s e i l -> str_at l s e i = true.
  Proof. intros H (_ & W1 & W2). unfold str_at. rewrite W2, (proj2 (eqb_str_eq l l) eq_refl). lia. Qed.
  Lemma eol_ways s e i c : 0 <= i <= e -> line_ends s e i -> zways eol_rx s e (i, c) = [(i, c)].
  Proof.
    intros Hi [->|H]; unfold eol_rx, nl_rx; cbn [zways fst snd]; [rewrite Z.eqb_refl; reflexivity|]. destruct ((i =? e) || ((i + 1 =? e) && char_is (Z.eqb 10) s e i)) eqn:E; [reflexivity|]. cbn [app]. rewrite str_written; [reflexivity|lia|]. unfold written. change (zlen [10]) with 1. pose proof (zsub_single s i 10 H). repeat split; [lia|lia|exact H0].
  Qed.
Section Writes.
  Variables (s : pystr) (e : Z) (K : list (pystr * span) -> Prop).
  Hypothesis He : e <= zlen s.
  Hypothesis HK : forall c i ps, clean ps -> K c -> K (c ++ caps_of i ps).
  Definition zc (r : trx) (ps : list chip) : Prop :=
    forall x, 0 <= fst x -> K (snd x) -> clean ps -> written s e (fst x) (text_of ps) -> In (fst x + zlen (text_of ps), snd x ++ caps_of (fst x) ps) (zways r s e x).
  (** when a line ends behind it *)
  Definition zce (r : trx) (ps : list chip) : Prop :=
    forall x, 0 <= fst x -> K (snd x) -> clean ps -> written s e (fst x) (text_of ps) -> line_ends s e (fst x + zlen (text_of ps)) -> In (fst x + zlen (text_of ps), snd x ++ caps_of (fst x) ps) (zways r s e x).
  Lemma zc_zce r ps : zc r ps -> zce r ps. Proof. intros H x H1 H2 H3 H4 _. exact (H x H1 H2 H3 H4). Qed.
  Lemma clean_split p q : clean (p ++ q) -> clean p /\ clean q. Proof. apply Forall_app. Qed.
  Lemma zc_seq a b p q : zc a p -> zc b q -> zc (ZSeq a b) (p ++ q).
  Proof.
    intros Pa Pb x Hx Kx C W. apply clean_split in C. destruct C as [Cp Cq]. rewrite text_app in W |- *. apply (written_app s e He) in W; [|exact Hx]. destruct W as [Wp Wq]. rewrite seq_ways. apply in_flat_map. exists (fst x + zlen (text_of p), snd x ++ caps_of (fst x) p). split; [exact (Pa x Hx Kx Cp Wp)|].
    pose proof (zlen_nonneg (text_of p)) as L. pose proof (Pb (fst x + zlen (text_of p), snd x ++ caps_of (fst x) p) ltac:(cbn [fst]; lia) (HK _ _ _ Cp Kx) Cq Wq) as H. cbn [fst snd] in H. rewrite caps_app, zlen_app, app_assoc, Z.add_assoc. exact H.
  Qed.
  Lemma zce_seq a b p q : zc a p -> zce b q -> zce (ZSeq a b) (p ++ q).
  Proof.
    intros Pa Pb x Hx Kx C W LE. apply clean_split in C. destruct C as [Cp Cq]. rewrite text_app in W, LE |- *. apply (written_app s e He) in W; [|exact Hx]. destruct W as [Wp Wq]. rewrite seq_ways. apply in_flat_map. exists (fst x + zlen (text_of p), snd x ++ caps_of (fst x) p). split; [exact (Pa x Hx Kx Cp Wp)|].
    rewrite zlen_app, Z.add_assoc in LE. pose proof (zlen_nonneg (text_of p)) as L. pose proof (Pb (fst x + zlen (text_of p), snd x ++ caps_of (fst x) p) ltac:(cbn [fst]; lia) (HK _ _ _ Cp Kx) Cq Wq LE) as H. cbn [fst snd] in H. rewrite caps_app, zlen_app, app_assoc, Z.add_assoc. exact H.
  Qed.
  Lemma zc_conv r ps ps' : text_of ps' = text_of ps -> (forall i, caps_of i ps' = caps_of i ps) -> (clean ps' -> clean ps) -> zc r ps -> zc r ps'.
  Proof. intros E1 E2 E3 P x Hx Kx C W. rewrite E1, E2 in *. exact (P x Hx Kx (E3 C) W). Qed.
  Lemma zc_str l : zc (ZStr l) [(None, l)].
  Proof.
    intros x Hx Kx C W. cbn [text_of flat_map snd caps_of app] in *. rewrite !app_nil_r in *. cbn [zways]. rewrite (str_written s e l (fst x) Hx W). left. reflexivity.
  Qed.
  Lemma zc_nil : zc (ZStr []) [].
  Proof. apply (zc_conv _ [(None, [])]); [reflexivity|reflexivity| |apply zc_str]. intros _. constructor; [discriminate|constructor]. Qed.
  Lemma zc_rep_ g a : forall pss fuel least most x, Forall (fun ps => zc a ps /\ text_of ps <> []) pss -> (least <= length pss)%nat -> match most with Some m => (length pss <= m)%nat | None => True end ->
    0 <= fst x -> e - fst x < Z.of_nat fuel -> K (snd x) -> clean (concat pss) -> written s e (fst x) (text_of (concat pss)) -> In (fst x + zlen (text_of (concat pss)), snd x ++ caps_of (fst x) (concat pss)) (zrep g (zways a s e) fuel least most x).
  Proof.
    induction pss as [|p pss IH]; intros fuel least most x F Ll Lm Hx Lf Kx C W.
    - destruct fuel as [|fuel]; [pose proof (written_le _ _ _ _ W); lia|]. cbn [zrep]. cbn [length] in Ll. destruct least; [|lia]. cbn [concat text_of flat_map caps_of]. change (zlen (@nil Z)) with 0. rewrite Z.add_0_r, app_nil_r.
      assert (Ex : (fst x, snd x) = x) by (destruct x; reflexivity). rewrite Ex. destruct g; apply in_or_app; [right|left]; left; reflexivity.
    - inversion F as [|? ? [Pp Np] F']; subst. cbn [concat] in C, W |- *. apply clean_split in C. destruct C as [Cp Cq]. rewrite text_app in W |- *. apply (written_app s e He) in W; [|exact Hx]. destruct W as [Wp Wq].
      assert (L : 0 < zlen (text_of p)) by (destruct (text_of p); [congruence|]; rewrite zlen_cons; pose proof (zlen_nonneg l); lia). pose proof (written_end _ _ _ _ Wp) as Bp.
      destruct fuel as [|fuel]; [lia|]. cbn [zrep]. cbn [length] in Ll, Lm.
      assert (H : In (fst x + zlen (text_of p ++ text_of (concat pss)), snd x ++ caps_of (fst x) (p ++ concat pss)) (flat_map (zrep g (zways a s e) fuel (pred least) (option_map pred most)) (filter (fun y => fst x <? fst y) (zways a s e x)))).
      { apply in_flat_map. exists (fst x + zlen (text_of p), snd x ++ caps_of (fst x) p). split; [apply filter_In; split; [exact (Pp x Hx Kx Cp Wp)|cbn [fst]; lia]|].
        pose proof (IH fuel (pred least) (option_map pred most) (fst x + zlen (text_of p), snd x ++ caps_of (fst x) p) F' ltac:(lia) ltac:(destruct most; cbn [option_map]; [lia|exact Logic.I]) ltac:(cbn [fst]; lia) ltac:(cbn [fst]; lia) (HK _ _ _ Cp Kx) Cq Wq) as H. cbn [fst snd] in H.
        rewrite caps_app, zlen_app, app_assoc, Z.add_assoc. exact H. }
      destruct most as [[|m]|]; [lia| |]; destruct g; apply in_or_app; auto.
  Qed.
  Lemma zc_rep g least most a pss : Forall (fun ps => zc a ps /\ text_of ps <> []) pss -> (least <= length pss)%nat -> match most with Some m => (length pss <= m)%nat | None => True end -> zc (ZRep g least most a) (concat pss).
  Proof. intros F Ll Lm x Hx Kx C W. cbn [zways]. apply zc_rep_; try assumption. pose proof (written_end _ _ _ _ W). pose proof (zlen_nonneg (text_of (concat pss))). lia. Qed.
  Lemma zc_none a : zc (ZOpt a) []. Proof. apply (zc_rep true 0 (Some 1%nat) a []); [constructor|cbn; lia|cbn; lia]. Qed.
  Lemma zc_given a ps : zc a ps -> text_of ps <> [] -> zc (ZOpt a) ps.
  Proof. intros P N. pose proof (zc_rep true 0 (Some 1%nat) a [ps]) as H. cbn [concat] in H. rewrite app_nil_r in H. apply H; [constructor; [auto|constructor]|cbn; lia|cbn; lia]. Qed.
  Lemma simple_writes : forall r, simple r = true -> forall u x, lang r u -> 0 <= fst x -> written s e (fst x) u -> In (fst x + zlen u, snd x) (zways r s e x).
  Proof.
    induction r as [p|l|a IHa b IHb|a IHa b IHb|g least most a IHa|k a IHa|k|a IHa| |]; intros S u x Lu Hx W; cbn [simple] in S; try discriminate S; cbn [lang] in Lu.
    - destruct Lu as (c & -> & Pc). change (zlen [c]) with 1 in *. cbn [zways]. destruct W as (_ & W1 & W2). change (zlen [c]) with 1 in *. rewrite (char_is_at p s e (fst x) c); [left; reflexivity|lia| |exact Pc].
      destruct (zget s (fst x)) as [d|] eqn:G; [rewrite (zsub_single s (fst x) d G) in W2; congruence|]. exfalso. apply zget_none in G. lia.
    - subst u. cbn [zways]. rewrite (str_written s e l (fst x) Hx W). left. reflexivity.
    - apply andb_true_iff in S. destruct S as [Sa Sb]. destruct Lu as (v & w & -> & Lv & Lw). apply (written_app s e He) in W; [|exact Hx]. destruct W as [Wv Ww]. rewrite seq_ways. apply in_flat_map. exists (fst x + zlen v, snd x). split; [exact (IHa Sa v x Lv Hx Wv)|]. pose proof (zlen_nonneg v).
      pose proof (IHb Sb w (fst x + zlen v, snd x) Lw ltac:(cbn [fst]; lia) Ww) as H0. cbn [fst snd] in H0. rewrite zlen_app, Z.add_assoc. exact H0.
    - apply andb_true_iff in S. destruct S as [Sa Sb]. cbn [zways]. apply in_or_app. destruct Lu as [Lu|Lu]; [left; exact (IHa Sa u x Lu Hx W)|right; exact (IHb Sb u x Lu Hx W)].
    - destruct Lu as (us & -> & F & Ll & Lm). cbn [zways]. specialize (IHa S).
      assert (P : forall us fuel least most x, Forall (fun v => v <> [] /\ lang a v) us -> (least <= length us)%nat -> match most with Some m => (length us <= m)%nat | None => True end -> 0 <= fst x -> e - fst x < Z.of_nat fuel -> written s e (fst x) (concat us) -> In (fst x + zlen (concat us), snd x) (zrep g (zways a s e) fuel least most x)).
      { clear - IHa He HK. induction us as [|v us IH]; intros fuel least most x F Ll Lm Hx Lf W.
        - destruct fuel as [|fuel]; [pose proof (written_le _ _ _ _ W); lia|]. cbn [zrep]. cbn [length] in Ll. destruct least; [|lia]. cbn [concat]. change (zlen (@nil Z)) with 0. rewrite Z.add_0_r.
          assert (Ex : (fst x, snd x) = x) by (destruct x; reflexivity). rewrite Ex. destruct g; apply in_or_app; [right|left]; left; reflexivity.
        - inversion F as [|? ? [Nv Lv] F']; subst. cbn [concat] in W |- *. apply (written_app s e He) in W; [|exact Hx]. destruct W as [Wp Wq].
          assert (L : 0 < zlen v) by (destruct v as [|c v]; [congruence|]; rewrite zlen_cons; pose proof (zlen_nonneg v); lia). pose proof (written_end _ _ _ _ Wp) as Bp.
          destruct fuel as [|fuel]; [lia|]. cbn [zrep]. cbn [length] in Ll, Lm.
          assert (H : In (fst x + zlen (v ++ concat us), snd x) (flat_map (zrep g (zways a s e) fuel (pred least) (option_map pred most)) (filter (fun y => fst x <? fst y) (zways a s e x)))).
          { apply in_flat_map. exists (fst x + zlen v, snd x). split; [apply filter_In; split; [exact (IHa v x Lv Hx Wp)|cbn [fst]; lia]|].
            pose proof (IH fuel (pred least) (option_map pred most) (fst x + zlen v, snd x) F' ltac:(lia) ltac:(destruct most; cbn [option_map]; [lia|exact Logic.I]) ltac:(cbn [fst]; lia) ltac:(cbn [fst]; lia) Wq) as H. cbn [fst snd] in H.
            rewrite zlen_app, Z.add_assoc. exact H. }
          destruct most as [[|m]|]; [lia| |]; destruct g; apply in_or_app; auto. }
      apply P; try assumption. pose proof (written_end _ _ _ _ W). pose proof (zlen_nonneg (concat us)). lia.
  Qed.
  Lemma zc_simple r u : simple r = true -> lang r u -> zc r [(None, u)].
  Proof. intros S Lu x Hx Kx C W. cbn [text_of flat_map snd caps_of app] in *. rewrite !app_nil_r in *. exact (simple_writes r S u x Lu Hx W). Qed.
  Lemma zc_grp k r u : simple r = true -> lang r u -> zc (ZGrp k r) [(Some k, u)].
  Proof.
    intros S Lu x Hx Kx C W. cbn [text_of flat_map snd caps_of app] in *. rewrite !app_nil_r in *. rewrite grp_ways. apply in_map_iff. exists (fst x + zlen u, snd x). split; [reflexivity|]. exact (simple_writes r S u x Lu Hx W).
  Qed.
  Lemma lang_any u : u <> [] -> lang (ZPlusL ZAny) u.
  Proof.
    intros N. exists (map (fun c => [c]) u). split; [induction u as [|c u IH]; [reflexivity|]; cbn; destruct u; [reflexivity|]; f_equal; apply IH; discriminate|]. split; [apply Forall_map, Forall_forall; intros c _; split; [discriminate|]; exists c; auto|]. rewrite map_length. split; [destruct u; [congruence|cbn; lia]|exact Logic.I].
  Qed.
  Lemma zc_some k u : u <> [] -> zc (ZGrp k (ZPlusL ZAny)) [(Some k, u)]. Proof. intros N. apply zc_grp; [reflexivity|exact (lang_any u N)]. Qed.
End Writes.

Section Style.
  Variables (st : style) (s : pystr) (e : Z) (K : list (pystr * span) -> Prop) (ind : pystr).
  Hypothesis He : e <= zlen s.
  Hypothesis HK : forall c i ps, clean ps -> K c -> K (c ++ caps_of i ps).
  Let ind_rx := if st_equi st then ZRef t_indent else ZStr [].
  Hypothesis Hind : zc s e K ind_rx [(None, ind)].
  Hypothesis Ok_ : style_ok st.
  Notation zq := (zc s e K).
  Lemma zc_below a ps : zq a ps -> zq (ZSeq nl_rx (ZSeq ind_rx a)) (break ind :: ps).
  Proof.
    intros P. pose proof (zc_seq s e K He HK _ _ _ _ (zc_str s e K [10]) (zc_seq s e K He HK _ _ _ _ Hind P)) as H. cbn [app] in H. destruct (break_same K ind HK ps) as (B1 & B2 & B3). apply (zc_conv s e K _ ((None, [10]) :: (None, ind) :: ps)); [exact B1|exact B2| |exact H].
    intros C. inversion C as [|? ? C1 C2]; subst. constructor; [discriminate|]. constructor; [discriminate|exact C2].
  Qed.
  Lemma zc_lines k a p : simple a = true -> fst p <> [] -> lang a (snd p) -> zq (ZSeq (ZSeq nl_rx (ZSeq ind_rx (ZGrp k (ZPlusL ZAny)))) (ZSeq nl_rx (ZSeq ind_rx a))) (lines_of ind k p).
  Proof.
    intros S N L. exact (zc_seq s e K He HK _ _ _ _ (zc_below _ _ (zc_some s e K He HK k (fst p) N)) (zc_below _ _ (zc_simple s e K He HK a (snd p) S L))).
  Qed.
  Lemma break_text ps : text_of (break ind :: ps) <> []. Proof. discriminate. Qed.
  Lemma zc_inner l : layout_ok st l -> zce s e K (inner_rx st) (chips ind l).
  Proof.
    intros (L1 & L2 & L3 & L4 & L5 & L6). destruct Ok_ as (S1 & S2 & S3 & S4 & S5 & S6). unfold inner_rx, chips. change pre_caption_desc with t_pre. change header_row_desc with t_header. change row_desc with t_row. change post_caption_desc with t_post. cbn [ZSeqs fold_right]. fold ind_rx.
    apply (zce_seq s e K He HK).
    { destruct (ly_pre l) as [u|]; cbn [opt_list fits_opt] in *; [|destruct (st_pre st); [apply (zc_none s e K He HK)|apply (zc_nil s e K)]]. destruct L1 as (r & Er & Lr). rewrite Er in *.
      assert (H : zq (ZSeq (ZGrp t_pre r) (ZSeq nl_rx ind_rx)) [(Some t_pre, u); break ind]).
      { pose proof (zc_seq s e K He HK _ _ _ _ (zc_grp s e K He HK t_pre r u S3 Lr) (zc_seq s e K He HK _ _ _ _ (zc_str s e K [10]) Hind)) as H. cbn [app] in H. destruct (break_same K ind HK []) as (B1 & B2 & B3). refine (zc_conv s e K _ ([(Some t_pre, u)] ++ [(None, [10]); (None, ind)]) ([(Some t_pre, u)] ++ [break ind]) _ _ _ H).
        - rewrite !text_app, B1. reflexivity.
        - intros i. rewrite !caps_app, B2. reflexivity.
        - intros C. apply clean_split in C. destruct C as [C _]. apply clean_app; [exact C|]. constructor; [discriminate|]. constructor; [discriminate|constructor]. }
      apply (zc_given s e K He HK); [exact H|]. intros Q. apply (f_equal zlen) in Q. change [(Some t_pre, u); break ind] with ([(Some t_pre, u)] ++ [break ind]) in Q. rewrite text_app, zlen_app in Q. unfold text_of in Q. cbn [flat_map snd break app] in Q. rewrite !app_nil_r, zlen_cons in Q. pose proof (zlen_nonneg u). pose proof (zlen_nonneg ind). change (zlen (@nil Z)) with 0 in Q. lia. }
    apply (zce_seq s e K He HK); [apply (zc_simple s e K He HK); assumption|].
    apply (zce_seq s e K He HK).
    { destruct (ly_header l) as [[u x]|]; cbn [opt_list fits_opt] in *; [|destruct (st_header st); [apply (zc_none s e K He HK)|apply (zc_nil s e K)]]. destruct L3 as (Nu & r & Er & Lr). rewrite Er in *. apply (zc_given s e K He HK); [|discriminate]. apply zc_lines; assumption. }
    rewrite app_assoc. apply (zce_seq s e K He HK).
    { assert (R : forall g least rs, Forall (fun p => fst p <> [] /\ lang (st_sep st) (snd p)) rs -> (least <= length rs)%nat -> zq (ZRep g least None (ZSeq (ZSeq nl_rx (ZSeq ind_rx (ZGrp t_row (ZPlusL ZAny)))) (ZSeq nl_rx (ZSeq ind_rx (st_sep st))))) (flat_map (lines_of ind t_row) rs)).
      { intros g least rs F L. rewrite flat_map_concat_map. apply (zc_rep s e K He HK); [|rewrite map_length; exact L|exact Logic.I]. apply Forall_map. eapply Forall_impl; [|exact F]. cbn beta. intros p [N Lp]. split; [apply zc_lines; assumption|discriminate]. }
      destruct (st_end st) as [r|].
      - destruct L5 as (u & x & -> & Nu & Lx). cbn [opt_list]. cbn [ZSeqs fold_right]. apply (zc_seq s e K He HK); [apply R; [exact L4|lia]|]. change (lines_of ind t_row (u, x)) with ([break ind; (Some t_row, u)] ++ [break ind; (None, x)]). apply (zc_seq s e K He HK); [apply zc_below, (zc_some s e K He HK); exact Nu|].
        rewrite <- (app_nil_r [break ind; (None, x)]). apply (zc_seq s e K He HK); [apply zc_below, (zc_simple s e K He HK); assumption|apply (zc_nil s e K)].
      - destruct L5 as [N ->]. cbn [opt_list]. rewrite app_nil_r. apply R; [exact L4|]. destruct (ly_rows l); [congruence|cbn; lia]. }
    assert (P : forall a ps, zce s e K a ps -> zce s e K (ZSeq a (ZStr [])) ps).
    { intros a ps H x Hx Kx C W LE. rewrite seq_ways. apply in_flat_map. exists (fst x + zlen (text_of ps), snd x ++ caps_of (fst x) ps). split; [exact (H x Hx Kx C W LE)|]. pose proof (zlen_nonneg (text_of ps)). pose proof (written_end _ _ _ _ W).
      cbn [zways]. rewrite str_written; [|cbn [fst]; lia|apply written_nil; cbn [fst]; lia]. left. cbn [fst snd]. change (zlen (@nil Z)) with 0. rewrite Z.add_0_r. reflexivity. }
    apply P. destruct (st_post st) as [r|].
    - destruct L6 as (u & -> & Lu). cbn [opt_list]. intros x Hx Kx C W LE. rewrite seq_ways. apply in_flat_map. exists (fst x + zlen (text_of [break ind; (Some t_post, u)]), snd x ++ caps_of (fst x) [break ind; (Some t_post, u)]). split; [exact (zc_below _ _ (zc_grp s e K He HK t_post r u S6 Lu) x Hx Kx C W)|].
      pose proof (zlen_nonneg (text_of [break ind; (Some t_post, u)])). pose proof (written_end _ _ _ _ W). rewrite eol_ways; [left; reflexivity|lia|exact LE].
    - rewrite L6. cbn [opt_list]. apply zc_zce, (zc_nil s e K).
  Qed.
End Style.
