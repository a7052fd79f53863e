(** Facts for Table.v: the chunk around a table reaches to its end. *)
From Verif Require Import SpecTable SpecXml PyFacts NlpFacts NlpFacts2 NlpFacts7 NlpFacts9 TableFacts TableFacts2 TableFacts4 TableFacts5 TableFacts6 TableFacts8 TableFacts9.

Definition blanks (u : pystr) : Prop := Forall (fun c => c = 32 \/ c = 9) u.
Definition good_line (u : pystr) : Prop := exists c v, u = c :: v /\ ~ In c [32; 9; 10] /\ v <> [] /\ ~ In 10 v.
Lemma not_blank_spec d : not_blank d = true <-> d <> 32 /\ d <> 9.
Proof. unfold not_blank, among. cbn [existsb]. destruct (Z.eqb_spec d 32); destruct (Z.eqb_spec d 9); cbn; split; try lia; intuition congruence. Qed.
(** the end of the run of blanks from p on is determined *)
Lemma blank_run s e p u v c d : written s e p u -> blanks u -> zget s (p + zlen u) = Some c -> c <> 32 -> c <> 9 -> written s e p v -> blanks v -> zget s (p + zlen v) = Some d -> d <> 32 -> d <> 9 -> u = v.
Proof.
  intros Wu Bu Gc N1 N2 Wv Bv Gd M1 M2. pose proof (zlen_nonneg u) as Lu. pose proof (zlen_nonneg v) as Lv.
  assert (H : forall (u v : pystr) c, written s e p u -> zget s (p + zlen v) = Some c -> blanks u -> c <> 32 -> c <> 9 -> 0 <= zlen v -> zlen u <= zlen v).
  { clear. intros u v c W G B N1 N2 L. destruct (Z.lt_ge_cases (zlen v) (zlen u)) as [Q|Q]; [|lia]. destruct (written_in s e p u (p + zlen v) W ltac:(lia)) as (x & d & y & -> & _ & G'). rewrite G in G'. injection G' as <-. apply Forall_app in B. destruct B as [_ B]. inversion B as [|? ? [?|?] _]; subst; congruence. }
  pose proof (H u v d Wu Gd Bu M1 M2 Lv) as H1. pose proof (H v u c Wv Gc Bv N1 N2 Lu) as H2. assert (E : zlen u = zlen v) by lia. destruct Wu as (_ & _ & Wu). destruct Wv as (_ & _ & Wv). rewrite E in Wu. congruence.
Qed.
Section Lines.
  Variables (s : pystr) (e : Z).
  Hypothesis He : e <= zlen s.
  Lemma line_from_same p k k' : line_from s e p k -> line_from s e p k' -> (k = e \/ zget s k = Some 10) -> (k' = e \/ zget s k' = Some 10) -> k = k'.
  Proof.
    intros (_ & B & N) (_ & B' & N') E E'. destruct (Z.lt_trichotomy k k') as [Q|[Q|Q]]; [|exact Q|].
    - exfalso. destruct E as [E|E]; [lia|]. apply (N' k); [lia|exact E].
    - exfalso. destruct E' as [E'|E']; [lia|]. apply (N k'); [lia|exact E'].
  Qed.
  Section Ind.
    Variables (ind : pystr).
    Fixpoint lines_at (p : Z) (us : list pystr) : Prop :=
      match us with
      | [] => True
      | u :: us => written s e p (ind ++ u) /\ match us with [] => line_ends s e (p + zlen ind + zlen u) | _ => zget s (p + zlen ind + zlen u) = Some 10 /\ lines_at (p + zlen ind + zlen u + 1) us end
      end.
    Fixpoint lines_end (p : Z) (us : list pystr) : Z :=
      match us with [] => p | u :: us => match us with [] => p + zlen ind + zlen u | _ => lines_end (p + zlen ind + zlen u + 1) us end end.
    Lemma line_good p u : 0 <= p -> written s e p (ind ++ u) -> good_line u -> written s e p ind /\ line_from s e (p + zlen ind) (p + zlen ind + zlen u) /\ exists c, zget s (p + zlen ind) = Some c /\ c <> 32 /\ c <> 9 /\ c <> 10.
    Proof.
      intros Hp W (c & v & -> & Nc & Nv & N10). pose proof (zlen_nonneg ind) as Li. apply (written_app s e He) in W; [|exact Hp]. destruct W as [W1 W2]. split; [exact W1|]. pose proof (zget_written s e _ [] v c W2) as G. change (zlen (@nil Z)) with 0 in G. rewrite Z.add_0_r in G. cbn [In] in Nc.
      split; [|exists c; split; [exact G|]; repeat split; intros Q; apply Nc; subst c; auto]. split; [exists c; split; [exact G|]; apply not_blank_spec; split; intros Q; apply Nc; subst c; auto|]. pose proof (written_end _ _ _ _ W2) as B. assert (L : 1 <= zlen v) by (destruct v as [|x v]; [congruence|]; rewrite zlen_cons; pose proof (zlen_nonneg v); lia).
      rewrite zlen_cons in *. split; [lia|]. intros q Hq. destruct (written_in s e (p + zlen ind) (c :: v) q W2 ltac:(rewrite zlen_cons; lia)) as (x & d & y & E & Lx & ->). intros [= ->]. destruct x as [|x0 x]; [change (zlen (@nil Z)) with 0 in Lx; lia|]. injection E as _ E. apply N10. rewrite E. apply in_or_app. right. left. reflexivity.
    Qed.
    Lemma lines_bound : forall us p, 0 <= p <= e -> lines_at p us -> lines_end p us <= e.
    Proof.
      induction us as [|u us IH]; intros p Hp H; [exact (proj2 Hp)|]. cbn [lines_at lines_end] in *. destruct H as [W H]. pose proof (written_end _ _ _ _ W) as B. rewrite zlen_app in B. destruct us as [|u' us]; [lia|]. destruct H as [G H]. pose proof (zlen_nonneg ind). pose proof (zlen_nonneg u). apply IH; [|exact H]. destruct H as [(_ & B' & _) _]. pose proof (zlen_nonneg (ind ++ u')). lia.
    Qed.
    Variables (i0 : Z) (c : list (pystr * span)).
    Hypothesis Wi : written s e i0 ind.
    Hypothesis Kc : KI i0 ind c.
    Lemma chain_passes : forall us p w, 0 <= p <= e -> lines_at p us -> Forall good_line us -> chain (zways line_body s e) (p, c) w -> lines_end p us <= fst w.
    Proof.
      induction us as [|u us IH]; intros p w Hp H F C; [exact (chain_le _ _ _ C)|]. cbn [lines_at lines_end] in *. inversion F as [|? ? Gu F']; subst. destruct H as [W H]. destruct (line_good p u (proj1 Hp) W Gu) as (W1 & Lf & _).
      assert (En : p + zlen ind + zlen u = e \/ zget s (p + zlen ind + zlen u) = Some 10) by (destruct us; [exact H|right; exact (proj1 H)]). pose proof (zlen_nonneg ind) as Li. pose proof Lf as (_ & Bk & _).
      inversion C as [x St E1 E2|x y w' Hy Ly C' E1 E2]; subst.
      - exfalso. destruct (body_complete s e He i0 ind c Wi Kc p (p + zlen ind + zlen u) (proj1 Hp) W1 Lf En) as (y & Hy & Ly). assert (Q : In y (filter (fun y => fst (p, c) <? fst y) (zways line_body s e (p, c)))) by (apply filter_In; split; [exact Hy|cbn [fst]; lia]). rewrite St in Q. destruct Q.
      - destruct (body_sound s e He i0 ind c Wi Kc p y Hp Hy) as (k & _ & Lk & Ey & D). assert (Ek : k = p + zlen ind + zlen u) by (apply (line_from_same (p + zlen ind)); [exact Lk|exact Lf| |exact En]; destruct D as [(_ & D & _)|(_ & [D|[_ D]])]; auto).
        destruct y as [q d]. cbn [fst snd] in *. subst d. destruct D as [(-> & D1 & D2)|(-> & D)].
        + destruct us as [|u' us]; [pose proof (chain_le _ _ _ C') as Q; cbn [fst] in Q; lia|]. rewrite <- Ek in H |- *. apply (IH (k + 1)); [lia|exact (proj2 H)|exact F'|exact C'].
        + destruct us as [|u' us]; [pose proof (chain_le _ _ _ C') as Q; cbn [fst] in Q; lia|]. exfalso. destruct H as (G & (_ & H & _) & _). inversion F' as [|? ? (x & v & -> & _ & Nv & _) _]; subst. destruct v; [congruence|]. rewrite zlen_app, !zlen_cons in H. pose proof (zlen_nonneg v). lia.
    Qed.
    Hypothesis Bi : blanks ind.
    (** lines that are not blank take the chunk to position i *)
    Lemma chain_reaches i : line_begins s i -> forall x w, chain (zways line_body s e) x w -> snd x = c -> 0 <= fst x <= i -> (forall p, fst x <= p < i -> line_begins s p -> inked s p) -> line_begins s (fst x) -> i < fst w <= e -> chain (zways line_body s e) (i, c) w.
    Proof.
      intros Hi x w C. induction C as [x St|x y w Hy Ly C IH]; intros Ex Hx Nk Lb Hw; destruct x as [p c']; cbn [fst snd] in *; subst c'; [lia|].
      destruct (Z.eq_dec p i) as [->|Ne]; [exact (chain_step _ _ _ _ Hy Ly C)|]. destruct (body_sound s e He i0 ind c Wi Kc p y ltac:(lia) Hy) as (k & W & Lk & Ey & D). destruct y as [q d]. cbn [fst snd] in *. subst d.
      destruct (Nk p ltac:(lia) Lb) as (u & c0 & Wu & Bu & Nc). pose proof Lk as ((d & Gd & Nd) & Bk & Nl). apply not_blank_spec in Nd.
      assert (Gu : zget s (p + zlen u) = Some c0) by exact (zget_written _ _ _ u [] c0 Wu).
      assert (Eu : u = ind). { cbn [In] in Nc. apply (blank_run s (zlen s) p u ind c0 d); auto; try tauto. - apply (written_app s (zlen s) ltac:(lia)) in Wu; [tauto|lia]. - destruct W as (W0 & W1 & W2). split; [lia|]. split; [lia|exact W2]. }
      subst u. rewrite Gd in Gu. injection Gu as <-. pose proof (zlen_nonneg ind) as Li.
      assert (Nn : forall q, p <= q < k -> zget s q <> Some 10).
      { intros r Hr. destruct (Z.lt_ge_cases r (p + zlen ind)) as [Q|Q].
        - destruct (written_in s e p ind r W ltac:(lia)) as (v & x & y & E & _ & ->). intros [= ->]. unfold blanks in Bi. rewrite E in Bi. apply Forall_app in Bi. destruct Bi as [_ B]. inversion B as [|? ? [?|?] _]; lia.
        - destruct (Z.eq_dec r (p + zlen ind)) as [->|Nr]; [rewrite Gd; intros [= ->]; apply Nc; cbn; auto|]. apply Nl. lia. }
      assert (Ki : k <= i - 1). { destruct Hi as [->|Hi]; [lia|]. destruct (Z.lt_ge_cases (i - 1) k) as [Q|Q]; [|lia]. exfalso. apply (Nn (i - 1)); [lia|exact Hi]. }
      destruct D as [(-> & D1 & D2)|(-> & [D|[D _]])]; [|lia|lia]. apply IH; [reflexivity|lia| | |exact Hw].
      - intros r Hr. apply Nk. lia.
      - right. rewrite Z.add_simpl_r. exact D1.
    Qed.
  End Ind.
  Lemma nil_tail l : (forall x, In x l -> 0 <= fst x <= e) -> flat_map (zways (ZStr []) s e) l = l.
  Proof.
    induction l as [|[p c] l IH]; intros H; [reflexivity|]. cbn [flat_map]. rewrite IH by (intros x Hx; apply H; right; exact Hx). cbn [zways fst snd]. pose proof (H (p, c) (or_introl eq_refl)) as B. cbn [fst] in B. rewrite str_written; [|lia|apply written_nil; lia]. change (zlen (@nil Z)) with 0. rewrite Z.add_0_r. reflexivity.
  Qed.
  Lemma chunk_head i w ws : 0 <= i <= e -> zways chunk_rx s e (i, []) = w :: ws ->
    exists g k w', blanks g /\ written s e i g /\ line_from s e (i + zlen g) k /\ zget s k = Some 10 /\ k < e /\ chain (zways line_body s e) (k + 1, [(t_indent, (i, i + zlen g))]) w' /\ fst w' = fst w /\ k + 1 < fst w.
  Proof.
    intros Hi E. change chunk_rx with (ZSeq ZLine (ZGrp t_chunk (ZSeq (ZGrp t_indent indent_rx) chunk_tail))) in E. rewrite seq_ways in E. apply head_flat in E. destruct E as (x & ws1 & Hx & E). assert (x = (i, [])). { cbn [zways] in Hx. destruct (_ || _) in Hx; [|destruct Hx]. destruct Hx as [<-|[]]. reflexivity. } subst x. clear Hx.
    rewrite grp_ways, seq_ways in E. destruct (flat_map (zways chunk_tail s e) (zways (ZGrp t_indent indent_rx) s e (i, []))) as [|w1 ws2] eqn:E1; [discriminate E|]. cbn [map] in E. injection E as Ew _. apply head_flat in E1. destruct E1 as (x & ws3 & Hx & E1). destruct (indent_ways s e He i x Hi Hx) as (g & Fg & Wg & ->). clear Hx. set (c := [(t_indent, (i, i + zlen g))]) in *.
    assert (Kc : KI i g c) by exact (last_snoc t_indent [] i (i + zlen g)). pose proof (written_end _ _ _ _ Wg) as B. pose proof (zlen_nonneg g) as Lg.
    unfold chunk_tail in E1. cbn [ZSeqs fold_right] in E1. rewrite seq_ways in E1. apply head_flat in E1. destruct E1 as (x1 & ws4 & Hx1 & E1). rewrite seq_ways in E1. apply head_flat in E1. destruct E1 as (x2 & ws5 & Hx2 & E1).
    destruct (head_sound s e He (i + zlen g) c x2 ltac:(lia)) as (k & -> & Lk). { rewrite seq_ways. apply in_flat_map. exists x1. auto. } clear Hx1 Hx2 x1. pose proof Lk as (_ & Bk & _).
    rewrite seq_ways in E1. apply head_flat in E1. destruct E1 as (x3 & ws6 & Hx3 & E1). destruct (nl_sound s e He k c x3 ltac:(lia) Hx3) as (-> & Gk & Lke). clear Hx3.
    assert (Hf : forall p y, 0 <= p <= e -> In y (zways line_body s e (p, c)) -> 0 <= fst y <= e /\ snd y = c).
    { intros p y Hp Hy. destruct (body_sound s e He i g c Wg Kc p y Hp Hy) as (k' & _ & (_ & Bk' & _) & Ec & D). split; [|exact Ec]. destruct D as [(-> & _ & D)|(-> & _)]; lia. }
    rewrite seq_ways, nil_tail in E1.
    2:{ intros y Hy. destruct (zp_rep s e (KI i g) He (KI_ok i g) true 1 None line_body _ (body_plain s e He i g Wg) (k + 1, c) y ltac:(cbn [fst]; lia) Kc Hy) as (ps & _ & _ & W & ->). cbn [fst] in *. pose proof (written_end _ _ _ _ W). pose proof (zlen_nonneg (text_of ps)). lia. }
    change (zways (ZPlus line_body) s e (k + 1, c)) with (zrep true (zways line_body s e) (S (Z.to_nat (e - (k + 1)))) 1 None (k + 1, c)) in E1. destruct (plus_chain (zways line_body s e) e c Hf (k + 1) w1 ws6 ltac:(lia) E1) as (q & Hq & Bq & Cq). pose proof (chain_le _ _ _ Cq) as Lq. cbn [fst] in Lq.
    exists g, k, w1. rewrite <- Ew. cbn [fst]. split; [exact Fg|]. split; [exact Wg|]. split; [exact Lk|]. split; [exact Gk|]. split; [exact Lke|]. split; [|split; [reflexivity|exact (Z.lt_le_trans _ _ _ (proj1 Bq) Lq)]]. refine (chain_step _ (k + 1, c) (q, c) w1 Hq _ Cq). cbn [fst]. lia.
  Qed.
  (** the chunk that begins at i, where a table with more than one line does *)
  Lemma chunk_exists ind i u u' us : blanks ind -> 0 <= i <= e -> line_begins s i -> lines_at ind i (u :: u' :: us) -> Forall good_line (u :: u' :: us) -> zways chunk_rx s e (i, []) <> [].
  Proof.
    intros Bi Hi Lb (W & G & H) F. inversion F as [|? ? Gu F1]; subst. inversion F1 as [|? ? Gu' _]; subst. destruct (line_good ind i u (proj1 Hi) W Gu) as (Wi & Lf & _). pose proof (zlen_nonneg ind) as Li. set (k := i + zlen ind + zlen u) in *. pose proof Lf as (_ & Bk & _). set (c := [(t_indent, (i, i + zlen ind))]).
    assert (Kc : KI i ind c) by exact (last_snoc t_indent [] i (i + zlen ind)).
    assert (Lk : k < e). { destruct H as [(_ & H & _) _]. pose proof (zlen_nonneg (ind ++ u')). lia. }
    cbn [lines_at] in H. destruct H as [W' H].
    destruct (line_good ind (k + 1) u' ltac:(lia) W' Gu') as (Wk & Lf' & _). destruct (body_complete s e He i ind c Wi Kc (k + 1) _ ltac:(lia) Wk Lf' ltac:(destruct us; [exact H|right; exact (proj1 H)])) as (y & Hy & Ly).
    assert (Hf : forall p y, 0 <= p <= e -> In y (zways line_body s e (p, c)) -> 0 <= fst y <= e /\ snd y = c).
    { intros p z Hp Hz. destruct (body_sound s e He i ind c Wi Kc p z Hp Hz) as (k' & _ & (_ & Bk' & _) & Ec & D). split; [|exact Ec]. destruct D as [(-> & _ & D)|(-> & _)]; lia. }
    destruct (Hf (k + 1) y ltac:(lia) Hy) as [By Ey]. destruct y as [q d]. cbn [fst snd] in *. subst d.
    destruct (rep_chain (zways line_body s e) e c Hf (Z.to_nat (e - (k + 1))) q By ltac:(lia)) as (w & ws & Ew & _).
    assert (H1 : In w (zways (ZPlus line_body) s e (k + 1, c))).
    { change (zways (ZPlus line_body) s e (k + 1, c)) with (zrep true (zways line_body s e) (S (Z.to_nat (e - (k + 1)))) 1 None (k + 1, c)). cbn [zrep pred option_map]. rewrite app_nil_r. apply in_flat_map. exists (q, c). split; [apply filter_In; split; [exact Hy|cbn [fst]; lia]|]. change (In w (zrep true (zways line_body s e) (Z.to_nat (e - (k + 1))) 0 None (q, c))). exact (eq_ind_r (fun l => In w l) (in_eq w ws) Ew). }
    assert (Bw : 0 <= fst w <= e). { destruct (zp_rep s e (KI i ind) He (KI_ok i ind) true 1 None line_body _ (body_plain s e He i ind Wi) (k + 1, c) w ltac:(cbn [fst]; lia) Kc H1) as (ps & _ & _ & Wp & ->). cbn [fst] in *. pose proof (written_end _ _ _ _ Wp). pose proof (zlen_nonneg (text_of ps)). lia. }
    assert (H2 : In w (zways chunk_tail s e (i + zlen ind, c))).
    { unfold chunk_tail. cbn [ZSeqs fold_right]. apply assoc_ways. exists (k, c). split; [apply head_complete; [exact He|lia|exact Lf]|]. rewrite seq_ways. apply in_flat_map. exists (k + 1, c). split; [rewrite nl_complete; [left; reflexivity|lia|exact G]|]. rewrite seq_ways. apply in_flat_map. exists w. split; [exact H1|].
      pose proof (nil_tail [w] ltac:(intros x [<-|[]]; exact Bw)) as Q. cbn [flat_map] in Q. rewrite app_nil_r in Q. rewrite Q. left. reflexivity. }
    assert (H3 : In (fst w, snd w ++ [(t_chunk, (i, fst w))]) (zways chunk_rx s e (i, []))).
    { change chunk_rx with (ZSeq ZLine (ZGrp t_chunk (ZSeq (ZGrp t_indent indent_rx) chunk_tail))). rewrite seq_ways. apply in_flat_map. exists (i, []). split.
      - cbn [zways fst snd]. assert (E : (i =? 0) || char_is (Z.eqb 10) s e (i - 1) && (0 <? i) = true); [|rewrite E; left; reflexivity]. destruct Lb as [->|Lb]; [reflexivity|]. apply orb_true_iff. right. pose proof (proj1 (zget_bounds _ _ _ Lb)). rewrite (char_is_at (Z.eqb 10) s e (i - 1) 10); [lia|lia|exact Lb|reflexivity].
      - rewrite grp_ways. apply in_map_iff. exists w. split; [reflexivity|]. rewrite seq_ways. apply in_flat_map. exists (i + zlen ind, c). split; [|exact H2]. rewrite grp_ways. apply in_map_iff. exists (i + zlen ind, []). split; [reflexivity|]. exact (simple_writes s e (fun _ => True) He (fun _ _ _ _ _ => Logic.I) indent_rx eq_refl ind (i, []) (blanks_lang ind Bi) (proj1 Hi) Wi). }
    intros Q. rewrite Q in H3. destruct H3.
  Qed.
  (** any chunk that holds i holds the table *)
  Lemma chunk_holds ind i us p w ws : blanks ind -> 0 <= p <= i -> i <= e -> line_begins s p -> line_begins s i -> us <> [] -> lines_at ind i us -> Forall good_line us -> (forall q, p <= q < i -> line_begins s q -> inked s q) ->
    zways chunk_rx s e (p, []) = w :: ws -> i < fst w <= e -> lines_end ind i us <= fst w.
  Proof.
    intros Bi Hp Hi Lp Lb Ne H F Nk E Hw. destruct (chunk_head p w ws ltac:(lia) E) as (g & k & w' & Bg & Wg & Lk & Gk & Lke & C & Ew & Lkw). set (c := [(t_indent, (p, p + zlen g))]) in *. assert (Kc : KI p g c) by exact (last_snoc t_indent [] p (p + zlen g)). pose proof (zlen_nonneg g) as Lg. rewrite <- Ew in *. pose proof Lk as ((d & Gd & Nd) & Bk & Nl). apply not_blank_spec in Nd.
    destruct us as [|u us]; [congruence|]. inversion F as [|? ? Gu F']; subst. pose proof H as H0. cbn [lines_at] in H0. destruct H0 as [W H0]. destruct (line_good ind i u ltac:(lia) W Gu) as (Wi & Lf & ci & Gi & Ni & Ni' & Ni''). pose proof (zlen_nonneg ind) as Li.
    destruct (Z.eq_dec p i) as [->|Np].
    - assert (Eg : g = ind) by (apply (blank_run s e i g ind d ci); tauto). subst g.
      assert (En : i + zlen ind + zlen u = e \/ zget s (i + zlen ind + zlen u) = Some 10) by (destruct us; [exact H0|right; exact (proj1 H0)]). pose proof (line_from_same (i + zlen ind) k _ Lk Lf (or_intror Gk) En) as Ek.
      cbn [lines_end]. destruct us as [|u' us]; [lia|]. rewrite <- Ek in H0 |- *. exact (chain_passes ind i c Wg Kc (u' :: us) (k + 1) w' ltac:(lia) (proj2 H0) F' C).
    - destruct (Nk p ltac:(lia) Lp) as (v & c0 & Wv & Bv & Nc). assert (Gv : zget s (p + zlen v) = Some c0) by exact (zget_written _ _ _ v [] c0 Wv).
      assert (Ev : v = g). { cbn [In] in Nc. apply (blank_run s (zlen s) p v g c0 d); auto; try tauto. - apply (written_app s (zlen s) ltac:(lia)) in Wv; [tauto|lia]. - destruct Wg as (W0 & W1 & W2). split; [lia|]. split; [lia|exact W2]. }
      subst v. rewrite Gd in Gv. injection Gv as <-.
      assert (Nn : forall q, p <= q < k -> zget s q <> Some 10).
      { intros r Hr. destruct (Z.lt_ge_cases r (p + zlen g)) as [Q|Q].
        - destruct (written_in s e p g r Wg ltac:(lia)) as (v & x & y & E' & _ & ->). intros [= ->]. unfold blanks in Bg. rewrite E' in Bg. apply Forall_app in Bg. destruct Bg as [_ B]. inversion B as [|? ? [?|?] _]; lia.
        - destruct (Z.eq_dec r (p + zlen g)) as [->|Nr]; [rewrite Gd; intros [= ->]; apply Nc; cbn; auto|]. apply Nl. lia. }
      assert (Ki : k <= i - 1). { destruct Lb as [->|Lb]; [lia|]. destruct (Z.lt_ge_cases (i - 1) k) as [Q|Q]; [|lia]. exfalso. apply (Nn (i - 1)); [lia|exact Lb]. }
      assert (Ci : chain (zways line_body s e) (i, c) w'). { apply (chain_reaches g p c Wg Kc Bg i Lb (k + 1, c) w' C eq_refl); cbn [fst]; [lia| |right; rewrite Z.add_simpl_r; exact Gk|lia]. intros q Hq. apply Nk. lia. }
      assert (Eg : g = ind). { inversion Ci as [x St E1 E2|x y w0 Hy Ly C' E1 E2]; subst; [cbn [fst] in *; lia|]. destruct (body_sound s e He p g c Wg Kc i y ltac:(lia) Hy) as (k' & W' & ((d' & Gd' & Nd') & _) & _). apply not_blank_spec in Nd'. apply (blank_run s e i g ind d' ci); tauto. }
      subst g. exact (chain_passes ind p c Wg Kc (u :: us) i w' ltac:(lia) H F Ci).
  Qed.
End Lines.
(** the lines of a table *)
Lemma even_lines_at s e ind : e <= zlen s -> forall us p x, us <> [] -> x ++ [10] = concat (map (fun u => ind ++ u ++ [10]) us) -> 0 <= p -> written s e p x -> line_ends s e (p + zlen x) -> lines_at s e ind p us /\ lines_end ind p us = p + zlen x.
Proof.
  intros He. induction us as [|u us IH]; intros p x Ne E Hp W LE; [congruence|]. cbn [map concat] in E. cbn [lines_at lines_end]. destruct us as [|u' us].
  - cbn [map concat] in E. rewrite app_nil_r, app_assoc in E. apply app_inj_tail in E. destruct E as [-> _]. rewrite zlen_app, Z.add_assoc in LE |- *. auto.
  - destruct (@exists_last _ (concat (map (fun u => ind ++ u ++ [10]) (u' :: us)))) as (y & z & Ey). { cbn [map concat]. intros Q. apply (f_equal (@length Z)) in Q. rewrite !app_length in Q. cbn in Q. lia. }
    rewrite Ey, app_assoc in E. apply app_inj_tail in E. destruct E as [-> <-]. replace ((ind ++ u ++ [10]) ++ y) with ((ind ++ u) ++ [10] ++ y) in * by (rewrite <- !app_assoc; reflexivity). pose proof (zlen_nonneg ind) as L1. pose proof (zlen_nonneg u) as L2.
    pose proof (zget_written s e p (ind ++ u) y 10 W) as G. apply (written_app s e He) in W; [|exact Hp]. destruct W as [W1 W2]. rewrite zlen_app in G, W2. apply (written_app s e He) in W2; [|lia]. destruct W2 as [_ W2]. change (zlen [10]) with 1 in W2. rewrite !zlen_app in LE |- *. change (zlen [10]) with 1 in *. rewrite !Z.add_assoc in *.
    destruct (IH (p + zlen ind + zlen u + 1) y ltac:(discriminate) (eq_sym Ey) ltac:(lia) W2 LE) as [I1 I2]. auto.
Qed.
