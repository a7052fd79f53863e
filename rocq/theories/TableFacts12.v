(** Facts for Table.v: rows end at the first separator line. *)
From Verif Require Import SpecTable SpecXml PyFacts HeapFacts4 NlpFacts NlpFacts2 NlpFacts7 NlpFacts9 XmlFacts5 TableFacts TableFacts2 TableFacts4 TableFacts5 TableFacts6 TableFacts7 TableFacts8 TableFacts9.
From Coq Require Import Sorted.

Lemma head_first {A B} (F : A -> list B) l w ws : flat_map F l = w :: ws -> exists l1 x l2 ws', l = l1 ++ x :: l2 /\ F x = w :: ws' /\ Forall (fun y => F y = []) l1.
Proof.
  induction l as [|x l IH]; [discriminate|]. cbn [flat_map]. destruct (F x) as [|v vs] eqn:E.
  - intros H. destruct (IH H) as (l1 & y & l2 & ws' & -> & Ey & N). exists (x :: l1), y, l2, ws'. split; [reflexivity|]. split; [exact Ey|]. constructor; assumption.
  - intros [= -> _]. exists [], x, l, vs. split; [reflexivity|]. split; [exact E|constructor].
Qed.
Lemma flat_map_flat {A B C} (f : A -> list B) (g : B -> list C) l : flat_map g (flat_map f l) = flat_map (fun a => flat_map g (f a)) l.
Proof. induction l as [|a l IH]; [reflexivity|]. cbn [flat_map]. rewrite flat_map_app, IH. reflexivity. Qed.
Lemma filter_flat {A B} (f : A -> list B) p l : filter p (flat_map f l) = flat_map (fun a => filter p (f a)) l.
Proof. induction l as [|a l IH]; [reflexivity|]. cbn [flat_map]. rewrite filter_app, IH. reflexivity. Qed.
Lemma flat_nil {A B} (F : A -> list B) l x : In x l -> F x <> [] -> flat_map F l <> [].
Proof. intros H N E. induction l as [|y l IH]; [destruct H|]. cbn [flat_map] in E. apply app_eq_nil in E. destruct E as [E1 E2]. destruct H as [->|H]; [exact (N E1)|exact (IH H E2)]. Qed.
Definition later (a b : state) : Prop := fst a < fst b.
Lemma any_sorted s e : forall fuel least x, StronglySorted later (zrep false (zways ZAny s e) fuel least None x) /\ Forall (fun y => fst x <= fst y) (zrep false (zways ZAny s e) fuel least None x).
Proof.
  induction fuel as [|fuel IH]; intros least x; [split; constructor|]. cbn [zrep option_map]. unfold ZAny at 1 3. cbn [zways]. 
  assert (M : forall l, l = flat_map (zrep false (zways ZAny s e) fuel (pred least) None) (filter (fun y : state => fst x <? fst y) (if char_is (fun _ => true) s e (fst x) then [(fst x + 1, snd x)] else [])) -> StronglySorted later l /\ Forall (fun y : state => fst x + 1 <= fst y) l).
  { intros l ->. destruct (char_is _ s e (fst x)); [|split; constructor]. cbn [filter]. destruct (fst x <? fst (fst x + 1, snd x)); [|split; constructor]. cbn [flat_map]. rewrite app_nil_r. exact (IH (pred least) (fst x + 1, snd x)). }
  destruct (M _ eq_refl) as [M1 M2]. destruct least as [|least]; cbn [app].
  - split; [constructor; [exact M1|]; eapply Forall_impl; [|exact M2]; cbn beta; intros y Hy; unfold later; lia|]. constructor; [lia|]. eapply Forall_impl; [|exact M2]. cbn beta. intros y Hy. lia.
  - split; [exact M1|]. eapply Forall_impl; [|exact M2]. cbn beta. intros y Hy. lia.
Qed.
Lemma sorted_split l1 (x : state) l2 y : StronglySorted later (l1 ++ x :: l2) -> In y (l1 ++ x :: l2) -> fst y < fst x -> In y l1.
Proof.
  intros S H L. apply in_app_or in H. destruct H as [H|[<-|H]]; [exact H|lia|]. exfalso. induction l1 as [|z l1 IH]; cbn [app] in S; inversion S as [|? ? S1 S2]; subst; [|exact (IH S1)]. rewrite Forall_forall in S2. specialize (S2 _ H). unfold later in S2. lia.
Qed.
Section Cut.
  Variables (st : style) (s : pystr) (e : Z) (K : list (pystr * span) -> Prop) (ind : pystr).
  Hypothesis He : e <= zlen s.
  Hypothesis HK : forall c i ps, clean ps -> K c -> K (c ++ caps_of i ps).
  Notation ind_rx := (if st_equi st then ZRef t_indent else ZStr []).
  Hypothesis HindP : zp s e K ind_rx (fun ps => ps = [(None, ind)]).
  Hypothesis HindC : zc s e K ind_rx [(None, ind)].
  Hypothesis Ok_ : style_ok st.
  Notation row_rx := (ZSeq (ZSeq nl_rx (ZSeq ind_rx (ZGrp t_row (ZPlusL ZAny)))) (ZSeq nl_rx (ZSeq ind_rx (st_sep st)))).
  Notation A := (ZSeq nl_rx (ZSeq ind_rx (ZGrp t_row (ZPlusL ZAny)))).
  Notation B := (ZSeq nl_rx (ZSeq ind_rx (st_sep st))).
  Variable (Cn : state -> list state).
  Hypothesis Cend : forall y, 0 <= fst y <= e -> line_ends s e (fst y) -> Cn y <> [].
  Hypothesis Ccap : forall y v x, In v (Cn y) -> In (t_row, x) (snd v) -> In (t_row, x) (snd y).
  Notation no_sep := (no_separator st s e ind).
  Lemma A_sorted x : StronglySorted later (zways A s e x).
  Proof.
    rewrite seq_ways. assert (H1 : forall y, StronglySorted later (zways (ZGrp t_row (ZPlusL ZAny)) s e y)).
    { intros y. rewrite grp_ways. change (zways (ZPlusL ZAny) s e y) with (zrep false (zways ZAny s e) (S (Z.to_nat (e - fst y))) 1 None y). pose proof (proj1 (any_sorted s e (S (Z.to_nat (e - fst y))) 1 y)) as H. induction H as [|z l H IH F]; [constructor|]. cbn [map]. constructor; [exact IH|]. apply Forall_map. eapply Forall_impl; [|exact F]. intros v Hv. exact Hv. }
    assert (H2 : forall y, StronglySorted later (zways (ZSeq ind_rx (ZGrp t_row (ZPlusL ZAny))) s e y)).
    { intros y. rewrite seq_ways. destruct (st_equi st); cbn [zways]; [destruct (last_span t_indent (snd y)) as [[p q]|]; [|constructor]|]; (destruct (str_at _ s e (fst y)); [|constructor]); cbn [flat_map]; rewrite app_nil_r; apply H1. }
    unfold nl_rx at 1. cbn [zways]. destruct (str_at [10] s e (fst x)); [|constructor]. cbn [flat_map]. rewrite app_nil_r. apply H2.
  Qed.
  Lemma rows_cut : forall fuel least x w ws, (least <= 1)%nat -> 0 <= fst x <= e -> e - fst x < Z.of_nat fuel -> K (snd x) -> flat_map Cn (zrep true (zways row_rx s e) fuel least None x) = w :: ws ->
    forall p q, In (t_row, (p, q)) (snd w) -> In (t_row, (p, q)) (snd x) \/ no_sep p q.
  Proof.
    destruct Ok_ as (_ & Ss & _).
    induction fuel as [|n IH]; intros least x w ws Ll Hx Lf Kx E p q Hr; [discriminate E|]. cbn [zrep option_map] in E. rewrite flat_map_app in E.
    set (f := zways row_rx s e) in *. set (P := fun y : Z * list (list Z * span) => fst x <? fst y) in *. set (Z' := zrep true f n (pred least) None) in *.
    destruct (flat_map Cn (flat_map Z' (filter P (f x)))) as [|w1 ws1] eqn:E1.
    - cbn [app] in E. destruct least; cbn [flat_map] in E; [|discriminate E]. rewrite app_nil_r in E. left. apply (Ccap x w); [rewrite E; left; reflexivity|exact Hr].
    - cbn [app] in E. injection E as -> _. subst f. rewrite seq_ways, filter_flat, !flat_map_flat in E1. apply head_first in E1. destruct E1 as (l1 & r & l2 & ws' & El & Er & N1).
      assert (Hrin : In r (zways A s e x)) by (rewrite El; apply in_or_app; right; left; reflexivity).
      destruct (zq_below st s e K ind He HK HindP _ _ (zp_some s e K He HK t_row ltac:(discriminate)) x r Hx Kx Hrin) as (ps & (p1 & -> & u & -> & Nu) & C & W & Ew).
      apply head_flat in Er. destruct Er as (y & ws2 & Hy & Ey). apply filter_In in Hy. destruct Hy as [Hy Py]. subst P. cbn beta in Py.
      assert (Tx : text_of [break ind; (Some t_row, u)] = ([10] ++ ind) ++ u) by (unfold text_of, break; cbn [flat_map snd]; rewrite app_nil_r; reflexivity). rewrite Tx in W, Ew.
      set (x0 := fst x + zlen ([10] ++ ind)). assert (Ec : caps_of (fst x) [break ind; (Some t_row, u)] = [(t_row, (x0, x0 + zlen u))]) by reflexivity. assert (Ex0 : x0 = fst x + zlen ([10] ++ ind)) by reflexivity. clearbody x0. pose proof (zlen_nonneg ([10] ++ ind)) as Z1. pose proof (zlen_nonneg u) as Z2. pose proof (written_end _ _ _ _ W) as Be. rewrite zlen_app in Be.
      assert (Kr : K (snd r)). { rewrite Ew. cbn [snd]. apply (HK (snd x) (fst x) [break ind; (Some t_row, u)]); [exact C|exact Kx]. }
      assert (Br : 0 <= fst r <= e) by (rewrite Ew; cbn [fst]; rewrite zlen_app; lia).
      destruct (zq_below st s e K ind He HK HindP _ _ (zp_simple s e K He HK (st_sep st) Ss) r y Br Kr Hy) as (ps & (p2 & -> & v & -> & Lv) & Cy & Wy & Ewy). change (caps_of (fst r) [break ind; (None, v)]) with (@nil (pystr * span)) in Ewy. rewrite app_nil_r in Ewy.
      pose proof (written_end _ _ _ _ Wy) as By. assert (Ky : K (snd y)) by (rewrite Ewy; exact Kr). assert (By2 : 0 <= fst y <= e) by (rewrite Ewy; cbn [fst]; match goal with |- context [zlen ?t] => pose proof (zlen_nonneg t) end; lia).
      destruct (IH (pred least) y w ws2 ltac:(lia) By2 ltac:(lia) Ky Ey p q Hr) as [Q|Q]; [|right; exact Q].
      rewrite Ewy in Q. cbn [snd] in Q. rewrite Ew in Q. cbn [snd] in Q. rewrite Ec in Q. apply in_app_or in Q. destruct Q as [Q|[Q|[]]]; [left; exact Q|]. right. injection Q as <- <-. intros k xs Hk Wk Lk LE.
      assert (Hu : exists u1 u2, u = u1 ++ u2 /\ zlen u1 = k - x0). { exists (firstn (Z.to_nat (k - x0)) u), (skipn (Z.to_nat (k - x0)) u). rewrite firstn_skipn. split; [reflexivity|]. unfold zlen in *. rewrite firstn_length. lia. }
      destruct Hu as (u1 & u2 & Eu & Lu). assert (Nu1 : u1 <> []) by (intros ->; change (zlen (@nil Z)) with 0 in Lu; lia).
      assert (W1 : written s e (fst x) (text_of [break ind; (Some t_row, u1)])). { unfold text_of, break. cbn [flat_map snd]. rewrite app_nil_r. rewrite Eu, app_assoc in W. apply (written_app s e He) in W; [|lia]. exact (proj1 W). }
      pose proof (zc_below st s e K ind He HK HindC _ _ (zc_some s e K He HK t_row u1 Nu1) x ltac:(lia) Kx ltac:(constructor; [discriminate|]; constructor; [discriminate|constructor]) W1) as Hr'.
      set (r' := (fst x + zlen (text_of [break ind; (Some t_row, u1)]), snd x ++ caps_of (fst x) [break ind; (Some t_row, u1)])) in *.
      assert (F1 : fst r' = k). { subst r'. unfold text_of, break. cbn [flat_map snd fst]. rewrite app_nil_r, zlen_app. lia. }
      assert (Kr' : K (snd r')). { subst r'. cbn [snd]. apply HK; [constructor; [discriminate|]; constructor; [discriminate|constructor]|exact Kx]. }
      assert (In1 : In r' l1). { apply (sorted_split l1 r l2); [rewrite <- El; apply A_sorted|rewrite <- El; exact Hr'|]. rewrite F1, Ew. cbn [fst]. rewrite zlen_app. lia. }
      rewrite Forall_forall in N1. specialize (N1 _ In1). cbn beta in N1. revert N1.
      assert (Wk' : written s e (fst r') (text_of [break ind; (None, xs)])). { rewrite F1. unfold text_of, break. cbn [flat_map snd]. rewrite app_nil_r, <- app_assoc. exact Wk. }
      pose proof (zc_below st s e K ind He HK HindC _ _ (zc_simple s e K He HK (st_sep st) xs Ss Lk) r' ltac:(lia) Kr' ltac:(constructor; [discriminate|]; constructor; [discriminate|constructor]) Wk') as Hy'.
      set (y' := (fst r' + zlen (text_of [break ind; (None, xs)]), snd r' ++ caps_of (fst r') [break ind; (None, xs)])) in *.
      assert (F2 : fst y' = k + zlen ([10] ++ ind ++ xs)). { subst y'. cbn [fst]. rewrite F1. unfold text_of, break. cbn [flat_map snd]. rewrite app_nil_r, <- app_assoc. reflexivity. }
      pose proof (written_end _ _ _ _ Wk) as Bk. pose proof (zlen_nonneg ([10] ++ ind ++ xs)) as Z3.
      apply (flat_nil _ _ y'); [apply filter_In; split; [exact Hy'|]; lia|]. apply (flat_nil Cn _ y'); [|apply Cend; rewrite F2; [lia|exact LE]]. subst Z'. assert (El0 : pred least = O) by lia. rewrite El0. destruct n as [|n]; [lia|]. cbn [zrep]. apply in_or_app. right. left. reflexivity.
  Qed.
End Cut.
Section Top.
  Variables (st : style) (s : pystr) (e : Z).
  Hypothesis He : e <= zlen s.
  Hypothesis Ok_ : style_ok st.
  Hypothesis No_end : st_end st = None.
  Hypothesis No_post : st_post st = None.
  Notation ind_rx := (if st_equi st then ZRef t_indent else ZStr []).
  Lemma no_rows_caps ps i x : Forall (fun p => fst p <> Some t_row) ps -> ~ In (t_row, x) (caps_of i ps).
  Proof.
    revert i. induction ps as [|[d u] ps IH]; intros i F H; [destruct H|]. inversion F as [|? ? N F']; subst. cbn [caps_of] in H. apply in_app_or in H. destruct H as [H|H]; [|exact (IH _ F' H)]. destruct d as [k|]; [|destruct H]. destruct H as [[= -> _]|[]]. apply N. reflexivity.
  Qed.
  Lemma tail_cut (K : list (pystr * span) -> Prop) ind i c w ws : (forall c i ps, clean ps -> K c -> K (c ++ caps_of i ps)) -> zp s e K ind_rx (fun ps => ps = [(None, ind)]) -> zc s e K ind_rx [(None, ind)] ->
    0 <= i <= e -> K c -> (forall x, ~ In (t_row, x) c) -> zways (ZSeqs [ZGrp t_table (inner_rx st); eol_rx]) s e (i, c) = w :: ws -> forall p q, In (t_row, (p, q)) (snd w) -> no_separator st s e ind p q.
  Proof.
    intros HK HP HC Hi Kc Nc E p q Hr. cbn [ZSeqs fold_right] in E. rewrite seq_ways, grp_ways in E. rewrite flat_map_concat_map, map_map, <- flat_map_concat_map in E.
    set (g := fun y : state => zways (ZSeq eol_rx (ZStr [])) s e (fst y, snd y ++ [(t_table, (fst (i, c), fst y))])) in *. change (flat_map g (zways (inner_rx st) s e (i, c)) = w :: ws) in E.
    unfold inner_rx in E. rewrite No_end, No_post in E. cbn [ZSeqs fold_right] in E.
    rewrite seq_ways, flat_map_flat in E. apply head_flat in E. destruct E as (y1 & ws1 & H1 & E). rewrite seq_ways, flat_map_flat in E. apply head_flat in E. destruct E as (y2 & ws2 & H2 & E). rewrite seq_ways, flat_map_flat in E. apply head_flat in E. destruct E as (y3 & ws3 & H3 & E). rewrite seq_ways, flat_map_flat in E.
    destruct Ok_ as (Ss & _).
    destruct (zq_pre st s e K ind He HK HP Ok_ (i, c) y1 Hi Kc H1) as (ps1 & (o1 & -> & _) & C1 & W1 & E1). cbn [fst snd] in E1, W1. pose proof (written_end _ _ _ _ W1) as B1. pose proof (zlen_nonneg (text_of (opt_list o1 (fun u => [(Some t_pre, u); break ind])))) as L1.
    assert (K1 : K (snd y1)) by (rewrite E1; apply HK; assumption). assert (Y1 : 0 <= fst y1 <= e) by (rewrite E1; cbn [fst]; lia).
    destruct (zp_simple s e K He HK (st_start st) Ss y1 y2 Y1 K1 H2) as (ps2 & (u2 & -> & _) & C2 & W2 & E2). pose proof (written_end _ _ _ _ W2) as B2. pose proof (zlen_nonneg (text_of [(@None pystr, u2)])) as L2.
    assert (K2 : K (snd y2)) by (rewrite E2; cbn [snd]; apply HK; assumption). assert (Y2 : 0 <= fst y2 <= e) by (rewrite E2; cbn [fst]; lia).
    destruct (zq_header st s e K ind He HK HP Ok_ y2 y3 Y2 K2 H3) as (ps3 & (o3 & -> & _) & C3 & W3 & E3). pose proof (written_end _ _ _ _ W3) as B3. pose proof (zlen_nonneg (text_of (opt_list o3 (lines_of ind t_header)))) as L3.
    assert (K3 : K (snd y3)) by (rewrite E3; cbn [snd]; apply HK; assumption). assert (Y3 : 0 <= fst y3 <= e) by (rewrite E3; cbn [fst]; lia).
    assert (N3 : forall x, ~ In (t_row, x) (snd y3)).
    { intros x H. rewrite E3 in H. cbn [snd] in H. apply in_app_or in H. destruct H as [H|H]; [rewrite E2 in H; cbn [snd] in H; apply in_app_or in H; destruct H as [H|H]; [rewrite E1 in H; cbn [snd] in H; apply in_app_or in H; destruct H as [H|H]; [exact (Nc x H)|]|]|].
      - revert H. apply no_rows_caps. destruct o1; cbn [opt_list]; [|constructor]. constructor; [discriminate|]. constructor; [discriminate|constructor].
      - revert H. apply no_rows_caps. constructor; [discriminate|constructor].
      - revert H. apply no_rows_caps. destruct o3; cbn [opt_list]; [|constructor]. unfold lines_of, break. repeat (apply Forall_cons; [discriminate|]). constructor. }
    unfold ZPlus in E at 1. cbn [zways] in E.
    refine (_ (rows_cut st s e K ind He HK HP HC Ok_ (fun a => flat_map g (zways (ZSeq (ZStr []) (ZStr [])) s e a)) _ _ (S (Z.to_nat (e - fst y3))) 1 y3 w ws3 _ Y3 _ K3 E p q Hr)).
    - intros [Q|Q]; [exfalso; exact (N3 _ Q)|exact Q].
    - intros y Hy LE Q. assert (Q1 : zways (ZSeq (ZStr []) (ZStr [])) s e y = [y]). { destruct y as [a b]. cbn [fst] in Hy. cbn [zways fst snd]. assert (T : str_at [] s e a = true) by (apply str_written; [lia|apply written_nil; lia]). rewrite T. cbn [flat_map fst snd]. change (zlen (@nil Z)) with 0. rewrite Z.add_0_r, T, Z.add_0_r. reflexivity. }
      rewrite Q1 in Q. cbn [flat_map] in Q. rewrite app_nil_r in Q. subst g. cbn beta in Q. rewrite seq_ways, eol_ways in Q; [|exact Hy|exact LE]. cbn [flat_map] in Q. rewrite app_nil_r in Q. cbn [zways fst] in Q. rewrite str_written in Q; [discriminate Q|lia|apply written_nil; lia].
    - intros y v x Hv Hx. apply in_flat_map in Hv. destruct Hv as (z & Hz & Hv). rewrite seq_ways in Hz. apply in_flat_map in Hz. destruct Hz as (z' & Hz' & Hz). apply nil_ways in Hz'. apply nil_ways in Hz. subst z z'. subst g. cbn beta in Hv. rewrite seq_ways in Hv. apply in_flat_map in Hv. destruct Hv as (z & Hz & Hv). apply nil_ways in Hv. subst v.
      unfold eol_rx in Hz. cbn [zways] in Hz. match type of Hz with In _ (match ?X with [] => _ | _ => _ end) => destruct X end; [destruct Hz|]. destruct Hz as [<-|[]]. cbn [snd] in Hx. apply in_app_or in Hx. destruct Hx as [Hx|[Hx|[]]]; [exact Hx|discriminate Hx].
    - lia.
    - lia.
  Qed.
  Lemma cut_reads i w ws : 0 <= i <= e -> zways (build_rx st) s e (i, []) = w :: ws ->
    exists ind l, reads st s e i ind l /\ w = (i + zlen ind + zlen (text_of (chips ind l)), read_caps st i ind l) /\ forall p q, In (t_row, (p, q)) (snd w) -> no_separator st s e ind p q.
  Proof.
    intros Hi E. destruct (ways_read st s e He Ok_ i w Hi ltac:(rewrite E; left; reflexivity)) as (ind & l & R & Ew). exists ind, l. split; [exact R|]. split; [exact Ew|].
    change (build_rx st) with (ZSeq (if st_equi st then ZGrp t_indent indent_rx else ZLine) (ZSeqs [ZGrp t_table (inner_rx st); eol_rx])) in E. rewrite seq_ways in E. apply head_flat in E. destruct E as (y & ws' & Hy & E). pose proof tail_cut as TC. destruct (st_equi st) eqn:Eq.
    - destruct (indent_ways s e He i y Hi Hy) as (g & Fg & Wg & ->). pose proof (written_end _ _ _ _ Wg) as Bg. pose proof (zlen_nonneg g) as Lg.
      assert (HK : forall c k ps, clean ps -> KI i g c -> KI i g (c ++ caps_of k ps)) by (intros c k ps Cp H; exact (KI_ok i g c k ps Cp H)).
      assert (Kc : KI i g [(t_indent, (i, i + zlen g))]) by exact (last_snoc t_indent [] i (i + zlen g)).
      assert (HP : zp s e (KI i g) (ZRef t_indent) (fun ps => ps = [(None, g)])) by exact (zp_ref s e i g Wg).
      assert (Eg : g = ind).
      { destruct (tail_ways st s e He Ok_ (KI i g) g (i + zlen g) [(t_indent, (i, i + zlen g))] w HK ltac:(rewrite Eq; exact HP) ltac:(lia) Kc (eq_ind_r (fun l => In w l) (in_eq w ws') E)) as (l' & _ & _ & _ & Ew'). rewrite Ew in Ew'. unfold read_caps in Ew'. rewrite Eq in Ew'. cbn [app] in Ew'. injection Ew' as _ Ei _. assert (El : zlen g = zlen ind) by lia.
        destruct R as (_ & _ & _ & (_ & _ & Wi) & _). destruct Wg as (_ & _ & Wg). rewrite El in Wg. congruence. }
      subst g. refine (TC (KI i ind) ind (i + zlen ind) [(t_indent, (i, i + zlen ind))] w ws' HK HP _ ltac:(lia) Kc _ E).
      + intros x Hx Kx _ Wx. cbn [text_of flat_map snd caps_of app] in *. rewrite !app_nil_r in *. cbn [zways]. rewrite Kx. destruct Wg as (_ & _ & W2). rewrite W2, (str_written s e ind (fst x) Hx Wx). left. f_equal. lia.
      + intros x [H|[]]. discriminate H.
    - destruct R as (_ & _ & Q & _). rewrite Eq in Q. destruct Q as [-> _]. cbn [zways] in Hy. destruct (_ || _) in Hy; [|destruct Hy]. destruct Hy as [<-|[]].
      refine (TC (fun _ => True) [] i [] w ws' ltac:(auto) _ _ Hi Logic.I ltac:(intros x []) E); [apply zp_str; auto|apply zc_str].
  Qed.
End Top.

Lemma itos_caps s : forall ps i r, In r (itos_at s i ps) -> exists k p q, r = at_ s p q k [] /\ In (k, (p, q)) (caps_of i ps).
Proof.
  induction ps as [|[d u] ps IH]; intros i r H; [destruct H|]. cbn [itos_at caps_of] in *. apply in_app_or in H. destruct H as [H|H].
  - destruct d as [k|]; [|destruct H]. destruct H as [<-|[]]. exists k, i, (i + zlen u). split; [reflexivity|left; reflexivity].
  - destruct (IH _ _ H) as (k & p & q & -> & Q). exists k, p, q. split; [reflexivity|]. apply in_or_app. right. exact Q.
Qed.
(** the tree of a match, with its rows cut *)
Lemma cut_found st s a b m : 0 <= a <= b -> b <= zlen s -> style_ok st -> st_end st = None -> st_post st = None -> In m (zfound (build_rx st) s a b) ->
  exists t ind, gives default_desc (re_keys (style_re st) table_keys) (to_match (style_re st) s m) t /\ is_table st s b ind t /\ rows_cut_at st s b ind t.
Proof.
  intros Hab Hb Ok_ Ne Np Hm. destruct (zfind_in _ s b (style_fwd st s b Hb Ok_) _ a m ltac:(lia) Hm) as (B & w & ws & E & E1 & E2). destruct (cut_reads st s b Hb Ok_ Ne Np (fst (fst m)) w ws ltac:(lia) E) as (ind & l & R & Ew & C).
  destruct m as [[i j] c]. cbn [fst snd] in *. subst w. cbn [fst snd] in *. subst c j. set (t := at_ s (i + zlen ind) (i + zlen ind + zlen (text_of (chips ind l))) t_table (itos_at s (i + zlen ind) (chips ind l))).
  assert (S : stands st s b ((i, i + zlen ind + zlen (text_of (chips ind l))), read_caps st i ind l) t) by (exists ind, l; split; [exact R|]; split; reflexivity).
  exists t, ind. split; [exact (read_gives st s b i ind l _ Hb R)|]. split.
  - destruct R as (Lo & Fi & Hb' & Wi & W & LE). pose proof (zlen_nonneg ind) as Li. pose proof (zlen_nonneg (text_of (chips ind l))) as Lt. destruct W as (W1 & W2 & W3). unfold is_table, t, at_, t_start, t_stop. cbn [t_f f_start f_stop].
    exists l. split; [exact Lo|]. split; [exact W3|]. split; [reflexivity|]. split; [lia|]. split; [exact W2|]. split; [exact LE|]. split; [|split; [exact Fi|]].
    + unfold ends_in, written. rewrite Z.add_simpl_r. destruct Wi as (_ & _ & Wi). split; [lia|]. split; [lia|exact Wi].
    + intros Q. rewrite Q in Hb'. tauto.
  - apply Forall_forall. intros r Hr Hd. subst t. cbn [at_ t_kids] in Hr. destruct (itos_caps s _ _ r Hr) as (k & p & q & -> & Q). unfold at_, t_start, t_stop in *. cbn [t_f f_desc f_start f_stop] in *. injection Hd as ->. apply C. unfold read_caps. apply in_or_app. right. apply in_or_app. left. exact Q.
Qed.
