(** Facts for Table.v: no separator line within a row with a line of the row below it (any style). *)
From Verif Require Import SpecTable SpecXml PyFacts HeapFacts4 NlpFacts NlpFacts2 NlpFacts7 NlpFacts9 XmlFacts5 TableFacts TableFacts2 TableFacts4 TableFacts5 TableFacts6 TableFacts7 TableFacts8 TableFacts9 TableFacts12.
From Coq Require Import Sorted.

(** ** what follows depends on the captured indentation only *)
Section Par.
  Variables (s : pystr) (e : Z) (K : list (pystr * span) -> Prop) (b : bool).
  Hypothesis HK1 : forall c k p q, k <> t_indent -> K c -> K (c ++ [(k, (p, q))]).
  Hypothesis HKr : b = true -> forall c d, K c -> K d -> last_span t_indent c = last_span t_indent d.
  Definition alike (x y : state) : Prop := fst x = fst y /\ K (snd x) /\ K (snd y).
  Fixpoint indent_only (r : trx) : bool :=
    match r with
    | ZCls _ | ZStr _ | ZLine | ZEnd => true
    | ZSeq a c | ZAlt a c => indent_only a && indent_only c
    | ZRep _ _ _ a | ZAhead a => indent_only a
    | ZGrp k a => negb (eqb_str k t_indent) && indent_only a
    | ZRef k => b && eqb_str k t_indent
    end.
  Lemma simple_only r : simple r = true -> indent_only r = true.
  Proof. induction r; cbn; intros H; try discriminate H; auto; apply andb_true_iff in H; destruct H as [H1 H2]; rewrite IHr1, IHr2; auto. Qed.
  Lemma F2_flat (F G : state -> list state) l l' : (forall x y, alike x y -> Forall2 alike (F x) (G y)) -> Forall2 alike l l' -> Forall2 alike (flat_map F l) (flat_map G l').
  Proof. intros H. induction 1 as [|x y l l' Hxy Hl IH]; [constructor|]. cbn [flat_map]. apply Forall2_app; auto. Qed.
  Lemma F2_filter p l l' : Forall2 alike l l' -> Forall2 alike (filter (fun y : state => p <? fst y) l) (filter (fun y : state => p <? fst y) l').
  Proof. induction 1 as [|x y l l' Hxy Hl IH]; [constructor|]. cbn [filter]. destruct Hxy as (E & Kx & Ky). rewrite E. destruct (p <? fst y); [constructor; [split; auto|exact IH]|exact IH]. Qed.
  Lemma rep_alike g f : (forall x y, alike x y -> Forall2 alike (f x) (f y)) -> forall fuel least most x y, alike x y -> Forall2 alike (zrep g f fuel least most x) (zrep g f fuel least most y).
  Proof.
    intros Hf. induction fuel as [|n IH]; intros least most x y A; [constructor|]. cbn [zrep].
    assert (St : Forall2 alike (match least with O => [x] | S _ => [] end) (match least with O => [y] | S _ => [] end)) by (destruct least; [constructor; [exact A|constructor]|constructor]).
    assert (M : Forall2 alike (flat_map (zrep g f n (pred least) (option_map pred most)) (filter (fun z : state => fst x <? fst z) (f x))) (flat_map (zrep g f n (pred least) (option_map pred most)) (filter (fun z : state => fst y <? fst z) (f y)))).
    { apply F2_flat; [intros; apply IH; assumption|]. rewrite (proj1 A). apply F2_filter. exact (Hf x y A). }
    destruct most as [[|m]|]; destruct g; try (apply Forall2_app; assumption); rewrite ?app_nil_r; exact St.
  Qed.
  Lemma ways_alike : forall r, indent_only r = true -> forall x y, alike x y -> Forall2 alike (zways r s e x) (zways r s e y).
  Proof.
    induction r as [p|l|a IHa c IHc|a IHa c IHc|g least most a IHa|k a IHa|k|a IHa| |]; intros H x y A; cbn [indent_only] in H; cbn [zways]; destruct A as (E & Kx & Ky); try rewrite E.
    - destruct (char_is p s e (fst y)); constructor; [|constructor]. split; [reflexivity|auto].
    - destruct (str_at l s e (fst y)); constructor; [|constructor]. split; [reflexivity|auto].
    - apply andb_true_iff in H. destruct H as [H1 H2]. apply F2_flat; [intros; apply IHc; assumption|]. apply IHa; [exact H1|]. split; auto.
    - apply andb_true_iff in H. destruct H as [H1 H2]. apply Forall2_app; [apply IHa|apply IHc]; try assumption; split; auto.
    - apply rep_alike; [intros; apply IHa; assumption|]. split; auto.
    - apply andb_true_iff in H. destruct H as [H1 H2]. assert (Nk : k <> t_indent) by (intros ->; rewrite (proj2 (eqb_str_eq _ _) eq_refl) in H1; discriminate H1).
      assert (F : Forall2 alike (zways a s e x) (zways a s e y)) by (apply IHa; [exact H2|split; auto]). induction F as [|u v l l' Huv F IH]; [constructor|]. cbn [map]. constructor; [|exact IH]. destruct Huv as (E1 & K1 & K2). split; [exact E1|]. cbn [snd]. split; apply HK1; assumption.
    - apply andb_true_iff in H. destruct H as [H1 H2]. apply eqb_str_eq in H2. subst k. rewrite (HKr H1 _ _ Kx Ky). destruct (last_span t_indent (snd y)) as [[p q]|]; [|constructor]. destruct (str_at _ s e (fst y)); constructor; [|constructor]. split; [reflexivity|auto].
    - assert (F : Forall2 alike (zways a s e x) (zways a s e y)) by (apply IHa; [exact H|split; auto]). destruct F; constructor; [split; auto|constructor].
    - destruct (_ || _); constructor; [split; auto|constructor].
    - destruct (_ || _); constructor; [split; auto|constructor].
  Qed.
End Par.

Section Inner.
  Variables (st : style) (s : pystr) (e : Z) (K : list (pystr * span) -> Prop) (ind : pystr).
  Hypothesis He : e <= zlen s.
  Hypothesis HK : forall c i ps, clean ps -> K c -> K (c ++ caps_of i ps).
  Notation ind_rx := (if st_equi st then ZRef t_indent else ZStr []).
  Hypothesis HindP : zp s e K ind_rx (fun ps => ps = [(None, ind)]).
  Hypothesis HindC : zc s e K ind_rx [(None, ind)].
  Hypothesis Ok_ : style_ok st.
  Notation row_rx := (ZSeq (ZSeq nl_rx (ZSeq ind_rx (ZGrp t_row (ZPlusL ZAny)))) (ZSeq nl_rx (ZSeq ind_rx (st_sep st)))).
  Notation A := (ZSeq nl_rx (ZSeq ind_rx (ZGrp t_row (ZPlusL ZAny)))).
  Variable (Cn : state -> list state).
  Hypothesis Csim : forall x y, fst x = fst y -> K (snd x) -> K (snd y) -> Cn x <> [] -> Cn y <> [].
  Hypothesis Clast : forall y w ws, 0 <= fst y <= e -> K (snd y) -> Cn y = w :: ws -> forall p q, In (t_row, (p, q)) (snd w) ->
    In (t_row, (p, q)) (snd y) \/ (p = fst y + zlen ([10] ++ ind) /\ p < q <= e /\ written s e (fst y) ([10] ++ ind) /\
      forall z, 0 <= fst z <= e -> K (snd z) -> written s e (fst z) ([10] ++ ind) -> fst z + zlen ([10] ++ ind) < q -> Cn z <> []).
  Notation inner := (no_separator_inside st s e ind).
  Lemma written_sub i u n m : written s e i u -> 0 <= n <= m -> m <= zlen u -> written s e (i + n) (zsub u n m).
  Proof.
    intros (B & L & E) Hn Hm. split; [lia|]. assert (Lz : zlen (zsub u n m) = m - n) by (rewrite zsub_len; lia). rewrite Lz. split; [lia|]. rewrite <- E. rewrite zsub_zsub by lia. f_equal; lia.
  Qed.
  Lemma row_way x u xs : 0 <= fst x -> K (snd x) -> u <> [] -> lang (st_sep st) xs -> written s e (fst x) (([10] ++ ind) ++ u ++ [10] ++ ind ++ xs) ->
    exists y, In y (zways row_rx s e x) /\ fst y = fst x + zlen (([10] ++ ind) ++ u ++ [10] ++ ind ++ xs) /\ K (snd y).
  Proof.
    intros Hx Kx Nu Lx W. destruct Ok_ as (_ & Ss & _).
    assert (C : clean (lines_of ind t_row (u, xs))) by (unfold lines_of, break; repeat (apply Forall_cons; [discriminate|]); constructor).
    assert (T : text_of (lines_of ind t_row (u, xs)) = ([10] ++ ind) ++ u ++ [10] ++ ind ++ xs) by (unfold text_of, lines_of, break; cbn [flat_map fst snd]; rewrite app_nil_r, <- !app_assoc; reflexivity).
    pose proof (zc_lines st s e K ind He HK HindC t_row (st_sep st) (u, xs) Ss Nu Lx x Hx Kx C ltac:(rewrite T; exact W)) as H. eexists. split; [exact H|]. cbn [fst snd]. rewrite T. split; [reflexivity|]. apply HK; assumption.
  Qed.
  Lemma rows_inner : forall fuel least x w ws, (least <= 1)%nat -> 0 <= fst x <= e -> e - fst x < Z.of_nat fuel -> K (snd x) -> flat_map Cn (zrep true (zways row_rx s e) fuel least None x) = w :: ws ->
    forall p q, In (t_row, (p, q)) (snd w) -> In (t_row, (p, q)) (snd x) \/ inner p q.
  Proof.
    pose proof Ok_ as (_ & Ss & _).
    induction fuel as [|n IH]; intros least x w ws Ll Hx Lf Kx E p q Hr; [discriminate E|]. cbn [zrep option_map] in E. rewrite flat_map_app in E.
    set (f := zways row_rx s e) in *. set (P := fun y : Z * list (list Z * span) => fst x <? fst y) in *. set (Z' := zrep true f n (pred least) None) in *.
    destruct (flat_map Cn (flat_map Z' (filter P (f x)))) as [|w1 ws1] eqn:E1.
    - cbn [app] in E. destruct least; cbn [flat_map] in E; [|discriminate E]. rewrite app_nil_r in E. destruct (Clast x w ws Hx Kx E p q Hr) as [Q|(Ep & Bq & Wi & Go)]; [left; exact Q|]. right. intros k xs Hk Lk Wk. destruct (Z_le_gt_dec q (k + zlen ([10] ++ ind ++ xs ++ [10] ++ ind))) as [Q|Q]; [exact Q|]. exfalso.
      rewrite !zlen_app in Q. pose proof (zlen_nonneg ([10] ++ ind)) as Zb. pose proof (zlen_nonneg xs) as Zx. pose proof (zlen_nonneg ind) as Zi. change (zlen [10]) with 1 in *.
      assert (Wu : written s e p (zsub s p k)) by (split; [lia|]; assert (Lz : zlen (zsub s p k) = k - p) by (rewrite zsub_len; lia); rewrite Lz; split; [lia|]; f_equal; lia).
      assert (Wk2 : written s e k ([10] ++ ind ++ xs) /\ written s e (k + zlen ([10] ++ ind ++ xs)) ([10] ++ ind)). { apply (written_app s e He); [lia|]. rewrite <- !app_assoc. exact Wk. }
      assert (Lu : zlen (zsub s p k) = k - p) by (rewrite zsub_len; lia).
      assert (W1 : written s e (fst x) (([10] ++ ind) ++ zsub s p k ++ [10] ++ ind ++ xs)).
      { apply (written_app s e He); [lia|]. split; [exact Wi|]. rewrite <- Ep. apply (written_app s e He); [lia|]. split; [exact Wu|]. rewrite Lu. replace (p + (k - p)) with k by lia. exact (proj1 Wk2). }
      destruct (row_way x (zsub s p k) xs ltac:(lia) Kx ltac:(intros Q0; rewrite Q0 in Lu; change (zlen (@nil Z)) with 0 in Lu; lia) Lk W1) as (y & Hy & Fy & Ky).
      assert (Fy2 : fst y = k + zlen ([10] ++ ind ++ xs)). { rewrite Fy, !zlen_app, Lu. change (zlen [10]) with 1. rewrite Ep, zlen_app in *. change (zlen [10]) with 1 in *. lia. }
      rewrite zlen_app in Fy2. rewrite zlen_app in Fy2. change (zlen [10]) with 1 in Fy2.
      revert E1. rewrite flat_map_flat. apply (flat_nil _ _ y); [apply filter_In; split; [exact Hy|]; subst P; cbn beta; rewrite Ep, zlen_app in Hk; change (zlen [10]) with 1 in Hk; lia|].
      apply (flat_nil Cn _ y); [subst Z'; destruct n as [|n]; [rewrite Ep, zlen_app in Hk; change (zlen [10]) with 1 in Hk; lia|]; cbn [zrep]; apply in_or_app; right; left; reflexivity|]. apply Go; [lia|exact Ky| |rewrite zlen_app; change (zlen [10]) with 1; lia].
      rewrite Fy2. pose proof (proj2 Wk2) as Wk3. rewrite !zlen_app in Wk3. change (zlen [10]) with 1 in Wk3. exact Wk3.
    - cbn [app] in E. injection E as -> _. subst f. rewrite seq_ways, filter_flat, !flat_map_flat in E1. apply head_first in E1. destruct E1 as (l1 & r & l2 & ws' & El & Er & N1).
      assert (Hrin : In r (zways A s e x)) by (rewrite El; apply in_or_app; right; left; reflexivity).
      destruct (zq_below st s e K ind He HK HindP _ _ (zp_some s e K He HK t_row ltac:(discriminate)) x r Hx Kx Hrin) as (ps & (p1 & -> & u & -> & Nu) & C & W & Ew).
      apply head_flat in Er. destruct Er as (y & ws2 & Hy & Ey). apply filter_In in Hy. destruct Hy as [Hy Py]. subst P. cbn beta in Py.
      assert (Tx : text_of [break ind; (Some t_row, u)] = ([10] ++ ind) ++ u) by (unfold text_of, break; cbn [flat_map snd]; rewrite app_nil_r; reflexivity). rewrite Tx in W, Ew.
      set (x0 := fst x + zlen ([10] ++ ind)). assert (Ec : caps_of (fst x) [break ind; (Some t_row, u)] = [(t_row, (x0, x0 + zlen u))]) by reflexivity. assert (Ex0 : x0 = fst x + zlen ([10] ++ ind)) by reflexivity. clearbody x0. pose proof (zlen_nonneg ([10] ++ ind)) as Z1. pose proof (zlen_nonneg u) as Z2. pose proof (written_end _ _ _ _ W) as Be. rewrite zlen_app in Be.
      assert (Kr : K (snd r)). { rewrite Ew. cbn [snd]. apply (HK (snd x) (fst x) [break ind; (Some t_row, u)]); [exact C|exact Kx]. }
      assert (Br : 0 <= fst r <= e) by (rewrite Ew; cbn [fst]; rewrite zlen_app; lia).
      destruct (zq_below st s e K ind He HK HindP _ _ (zp_simple s e K He HK (st_sep st) Ss) r y Br Kr Hy) as (ps & (p2 & -> & v & -> & Lv) & Cy & Wy & Ewy). change (caps_of (fst r) [break ind; (None, v)]) with (@nil (pystr * span)) in Ewy. rewrite app_nil_r in Ewy.
      pose proof (written_end _ _ _ _ Wy) as By. assert (Ky : K (snd y)) by (rewrite Ewy; exact Kr). assert (By2 : 0 <= fst y <= e) by (rewrite Ewy; cbn [fst]; match goal with |- context [zlen ?t] => pose proof (zlen_nonneg t) end; lia).
      destruct (IH (pred least) y w ws2 ltac:(lia) By2 ltac:(lia) Ky Ey p q Hr) as [Q|Q]; [|right; exact Q].
      rewrite Ewy in Q. cbn [snd] in Q. rewrite Ew in Q. cbn [snd] in Q. rewrite Ec in Q. apply in_app_or in Q. destruct Q as [Q|[Q|[]]]; [left; exact Q|]. right. injection Q as <- <-. intros k xs Hk Lk Wk.
      destruct (Z_le_gt_dec (x0 + zlen u) (k + zlen ([10] ++ ind ++ xs ++ [10] ++ ind))) as [Q|Q]; [exact Q|]. exfalso.
      set (k2 := k + zlen ([10] ++ ind ++ xs)). assert (Ek2 : k2 = k + zlen ([10] ++ ind ++ xs)) by reflexivity. clearbody k2. pose proof (zlen_nonneg ([10] ++ ind ++ xs)) as Z3.
      assert (Q2 : k2 + zlen ([10] ++ ind) < x0 + zlen u) by (rewrite Ek2; rewrite !zlen_app in *; lia).
      assert (Wk2 : written s e k ([10] ++ ind ++ xs) /\ written s e k2 ([10] ++ ind)). { rewrite Ek2. apply (written_app s e He); [lia|]. rewrite <- !app_assoc. exact Wk. }
      assert (Wxu : written s e (fst x) ([10] ++ ind) /\ written s e x0 u). { rewrite Ex0. apply (written_app s e He); [lia|exact W]. }
      (* the first part of the row *)
      assert (Lu1 : zlen (zsub u 0 (k - x0)) = k - x0) by (rewrite zsub_len; lia).
      assert (W1 : written s e (fst x) (text_of [break ind; (Some t_row, zsub u 0 (k - x0))])).
      { unfold text_of, break. cbn [flat_map snd]. rewrite app_nil_r. apply (written_app s e He); [lia|]. split; [exact (proj1 Wxu)|]. rewrite <- Ex0. replace x0 with (x0 + 0) by lia. apply (written_sub x0 u 0 (k - (x0 + 0))); [exact (proj2 Wxu)|lia|lia]. }
      assert (Nu1 : zsub u 0 (k - x0) <> []) by (intros Q0; rewrite Q0 in Lu1; change (zlen (@nil Z)) with 0 in Lu1; lia).
      pose proof (zc_below st s e K ind He HK HindC _ _ (zc_some s e K He HK t_row _ Nu1) x ltac:(lia) Kx ltac:(constructor; [discriminate|]; constructor; [discriminate|constructor]) W1) as Hr'.
      set (r' := (fst x + zlen (text_of [break ind; (Some t_row, zsub u 0 (k - x0))]), snd x ++ caps_of (fst x) [break ind; (Some t_row, zsub u 0 (k - x0))])) in *.
      assert (F1 : fst r' = k). { subst r'. unfold text_of, break. cbn [flat_map snd fst]. rewrite app_nil_r, zlen_app. lia. }
      assert (Kr' : K (snd r')). { subst r'. cbn [snd]. apply HK; [constructor; [discriminate|]; constructor; [discriminate|constructor]|exact Kx]. }
      assert (In1 : In r' l1). { apply (sorted_split l1 r l2); [rewrite <- El; exact (A_sorted st s e K ind HindP HindC x)|rewrite <- El; exact Hr'|]. rewrite F1, Ew. cbn [fst]. rewrite zlen_app. lia. }
      rewrite Forall_forall in N1. specialize (N1 _ In1). cbn beta in N1. revert N1.
      assert (Wk' : written s e (fst r') (text_of [break ind; (None, xs)])). { rewrite F1. unfold text_of, break. cbn [flat_map snd]. rewrite app_nil_r, <- app_assoc. exact (proj1 Wk2). }
      pose proof (zc_below st s e K ind He HK HindC _ _ (zc_simple s e K He HK (st_sep st) xs Ss Lk) r' ltac:(lia) Kr' ltac:(constructor; [discriminate|]; constructor; [discriminate|constructor]) Wk') as Hy'.
      set (y' := (fst r' + zlen (text_of [break ind; (None, xs)]), snd r' ++ caps_of (fst r') [break ind; (None, xs)])) in *.
      assert (F2 : fst y' = k2). { subst y'. cbn [fst]. rewrite F1, Ek2. unfold text_of, break. cbn [flat_map snd]. rewrite app_nil_r, <- app_assoc. reflexivity. }
      assert (Ky' : K (snd y')). { subst y'. cbn [snd]. apply HK; [constructor; [discriminate|]; constructor; [discriminate|constructor]|exact Kr']. }
      apply (flat_nil _ _ y'); [apply filter_In; split; [exact Hy'|]; lia|].
      (* the second part, and what follows *)
      pose proof (in_eq w ws2) as Iw. rewrite <- Ey in Iw. apply in_flat_map in Iw. destruct Iw as (z & Hz & Iw). subst Z'.
      destruct (zrep_reads s e K He HK true row_rx _ (zq_lines st s e K ind He HK HindP t_row (st_sep st) ltac:(discriminate) Ss) n (pred least) None y z By2 Ky Hz) as (pss & Fp & _ & _ & Cz & Wz & Ez).
      set (u2 := zsub u (k2 + zlen ([10] ++ ind) - x0) (zlen u)). assert (Lu2 : zlen u2 = x0 + zlen u - (k2 + zlen ([10] ++ ind))) by (unfold u2; rewrite zsub_len; lia).
      assert (Wu2 : written s e (k2 + zlen ([10] ++ ind)) u2). { unfold u2. replace (k2 + zlen ([10] ++ ind)) with (x0 + (k2 + zlen ([10] ++ ind) - x0)) at 1 by lia. apply written_sub; [exact (proj2 Wxu)|lia|lia]. }
      assert (Nu2 : u2 <> []) by (intros Q0; rewrite Q0 in Lu2; change (zlen (@nil Z)) with 0 in Lu2; lia). clearbody u2.
      assert (Fr : fst r = x0 + zlen u) by (rewrite Ew; cbn [fst]; rewrite zlen_app; lia).
      assert (T2 : text_of (lines_of ind t_row (u2, v)) = ([10] ++ ind) ++ u2 ++ text_of [break ind; (None, v)]). { unfold text_of, lines_of, break. cbn [flat_map fst snd]. rewrite !app_nil_r, <- !app_assoc. reflexivity. }
      assert (W2 : written s e (fst y') (text_of (lines_of ind t_row (u2, v)))).
      { rewrite T2, F2. apply (written_app s e He); [lia|]. split; [exact (proj2 Wk2)|]. apply (written_app s e He); [lia|]. split; [exact Wu2|]. rewrite Lu2. replace (k2 + zlen ([10] ++ ind) + (x0 + zlen u - (k2 + zlen ([10] ++ ind)))) with (fst r) by lia. exact Wy. }
      assert (Cl2 : clean (lines_of ind t_row (u2, v))) by (unfold lines_of, break; repeat (apply Forall_cons; [discriminate|]); constructor).
      assert (E2 : fst y' + zlen (text_of (lines_of ind t_row (u2, v))) = fst y). { rewrite T2, F2, Ewy. cbn [fst]. rewrite Fr, (zlen_app ([10] ++ ind)), (zlen_app u2), Lu2. lia. }
      assert (G : In (fst y' + zlen (text_of (concat (lines_of ind t_row (u2, v) :: pss))), snd y' ++ caps_of (fst y') (concat (lines_of ind t_row (u2, v) :: pss))) (zrep true (zways row_rx s e) n (pred least) None y')).
      { apply (zc_rep_ s e K He HK true row_rx); [|cbn [length]; lia|exact Logic.I|lia|lia|exact Ky'| |].
        - constructor; [split; [exact (zc_lines st s e K ind He HK HindC t_row (st_sep st) (u2, v) Ss Nu2 Lv)|rewrite T2; discriminate]|]. eapply Forall_impl; [|exact Fp]. cbn beta. intros ps [(pr & -> & Np & Lp) Nt]. split; [|exact Nt]. exact (zc_lines st s e K ind He HK HindC t_row (st_sep st) pr Ss Np Lp).
        - cbn [concat]. apply clean_app; assumption.
        - cbn [concat]. rewrite text_app. apply (written_app s e He); [lia|]. split; [exact W2|]. rewrite E2. exact Wz. }
      apply (flat_nil Cn _ _ G). apply (Csim z); [| | |intros Q0; rewrite Q0 in Iw; destruct Iw].
      + cbn [fst concat]. rewrite text_app, zlen_app, Z.add_assoc, E2, Ez. reflexivity.
      + rewrite Ez. cbn [snd]. apply HK; assumption.
      + cbn [snd]. apply HK; [cbn [concat]; apply clean_app; assumption|exact Ky'].
  Qed.
End Inner.
Section Top.
  Variables (st : style) (s : pystr) (e : Z).
  Hypothesis He : e <= zlen s.
  Hypothesis Ok_ : style_ok st.
  Notation ind_rx := (if st_equi st then ZRef t_indent else ZStr []).
  Notation row_rx := (ZSeq (ZSeq nl_rx (ZSeq ind_rx (ZGrp t_row (ZPlusL ZAny)))) (ZSeq nl_rx (ZSeq ind_rx (st_sep st)))).
  Notation A := (ZSeq nl_rx (ZSeq ind_rx (ZGrp t_row (ZPlusL ZAny)))).
  Notation post_rx := (match st_post st with Some r => ZSeq (ZSeq nl_rx (ZSeq ind_rx (ZGrp t_post r))) eol_rx | None => ZStr [] end).
  Lemma opt_only r : simple r = true -> indent_only (st_equi st) r = true. Proof. apply simple_only. Qed.
  Lemma ind_only : indent_only (st_equi st) ind_rx = true. Proof. destruct (st_equi st); reflexivity. Qed.
  Lemma post_only : indent_only (st_equi st) post_rx = true.
  Proof. destruct Ok_ as (_ & _ & _ & _ & _ & Sp). destruct (st_post st) as [r|]; [|reflexivity]. cbn [simple_opt] in Sp. pose proof ind_only as Q. destruct (st_equi st); cbn; rewrite (simple_only _ r Sp); reflexivity. Qed.
  Lemma post_caps (K : list (pystr * span) -> Prop) ind y v x : (forall c i ps, clean ps -> K c -> K (c ++ caps_of i ps)) -> zp s e K ind_rx (fun ps => ps = [(None, ind)]) -> 0 <= fst y <= e -> K (snd y) ->
    In v (zways post_rx s e y) -> 0 <= fst v <= e /\ K (snd v) /\ (In (t_row, x) (snd v) -> In (t_row, x) (snd y)).
  Proof.
    intros HK HP Hy Ky Hv. destruct (zq_post st s e K ind He HK HP Ok_ y v Hy Ky Hv) as (ps & (op & -> & _) & C & W & ->). pose proof (written_end _ _ _ _ W) as B. pose proof (zlen_nonneg (text_of (opt_list op (fun u => [break ind; (Some t_post, u)])))) as L. split; [cbn [fst]; lia|]. split; [cbn [snd]; apply HK; assumption|]. cbn [snd]. intros H. apply in_app_or in H. destruct H as [H|H]; [exact H|]. exfalso. revert H. apply no_rows_caps. destruct op; cbn [opt_list]; [|constructor]. constructor; [discriminate|]. constructor; [discriminate|constructor].
  Qed.
  Lemma tail_inner (K : list (pystr * span) -> Prop) ind i c w ws : (forall c i ps, clean ps -> K c -> K (c ++ caps_of i ps)) -> (forall c k p q, k <> t_indent -> K c -> K (c ++ [(k, (p, q))])) ->
    (st_equi st = true -> forall c d, K c -> K d -> last_span t_indent c = last_span t_indent d) ->
    zp s e K ind_rx (fun ps => ps = [(None, ind)]) -> zc s e K ind_rx [(None, ind)] ->
    0 <= i <= e -> K c -> (forall x, ~ In (t_row, x) c) -> zways (ZSeqs [ZGrp t_table (inner_rx st); eol_rx]) s e (i, c) = w :: ws -> forall p q, In (t_row, (p, q)) (snd w) -> no_separator_inside st s e ind p q.
  Proof.
    intros HK HK1 HKr HP HC Hi Kc Nc E p q Hr. cbn [ZSeqs fold_right] in E. rewrite seq_ways, grp_ways in E. rewrite flat_map_concat_map, map_map, <- flat_map_concat_map in E.
    set (g := fun y : state => zways (ZSeq eol_rx (ZStr [])) s e (fst y, snd y ++ [(t_table, (fst (i, c), fst y))])) in *. change (flat_map g (zways (inner_rx st) s e (i, c)) = w :: ws) in E.
    assert (gsim : forall x y, alike K x y -> Forall2 (alike K) (g x) (g y)).
    { intros x y (E1 & K1 & K2). subst g. cbn beta. apply (ways_alike s e K (st_equi st) HK1 HKr); [reflexivity|]. split; [exact E1|]. cbn [snd]. split; apply HK1; try discriminate; assumption. }
    assert (gcap : forall y v x, In v (g y) -> In (t_row, x) (snd v) -> In (t_row, x) (snd y)).
    { intros y v x Hv Hx. subst g. cbn beta in Hv. rewrite seq_ways in Hv. apply in_flat_map in Hv. destruct Hv as (z & Hz & Hv). apply nil_ways in Hv. subst v. unfold eol_rx in Hz. cbn [zways] in Hz. match type of Hz with In _ (match ?X with [] => _ | _ => _ end) => destruct X end; [destruct Hz|]. destruct Hz as [<-|[]]. cbn [snd] in Hx. apply in_app_or in Hx. destruct Hx as [Hx|[Hx|[]]]; [exact Hx|discriminate Hx]. }
    clearbody g. unfold inner_rx in E. cbn [ZSeqs fold_right] in E.
    rewrite seq_ways, flat_map_flat in E. apply head_flat in E. destruct E as (y1 & ws1 & H1 & E). rewrite seq_ways, flat_map_flat in E. apply head_flat in E. destruct E as (y2 & ws2 & H2 & E). rewrite seq_ways, flat_map_flat in E. apply head_flat in E. destruct E as (y3 & ws3 & H3 & E). rewrite seq_ways, flat_map_flat in E.
    pose proof Ok_ as (Ss & _).
    destruct (zq_pre st s e K ind He HK HP Ok_ (i, c) y1 Hi Kc H1) as (ps1 & (o1 & -> & _) & C1 & W1 & E1). cbn [fst snd] in E1, W1. pose proof (written_end _ _ _ _ W1) as B1. pose proof (zlen_nonneg (text_of (opt_list o1 (fun u => [(Some t_pre, u); break ind])))) as L1.
    assert (K1 : K (snd y1)) by (rewrite E1; apply HK; assumption). assert (Y1 : 0 <= fst y1 <= e) by (rewrite E1; cbn [fst]; lia).
    destruct (zp_simple s e K He HK (st_start st) Ss y1 y2 Y1 K1 H2) as (ps2 & (u2 & -> & _) & C2 & W2 & E2). pose proof (written_end _ _ _ _ W2) as B2. pose proof (zlen_nonneg (text_of [(@None pystr, u2)])) as L2.
    assert (K2 : K (snd y2)) by (rewrite E2; cbn [snd]; apply HK; assumption). assert (Y2 : 0 <= fst y2 <= e) by (rewrite E2; cbn [fst]; lia).
    destruct (zq_header st s e K ind He HK HP Ok_ y2 y3 Y2 K2 H3) as (ps3 & (o3 & -> & _) & C3 & W3 & E3). pose proof (written_end _ _ _ _ W3) as B3. pose proof (zlen_nonneg (text_of (opt_list o3 (lines_of ind t_header)))) as L3.
    assert (K3 : K (snd y3)) by (rewrite E3; cbn [snd]; apply HK; assumption). assert (Y3 : 0 <= fst y3 <= e) by (rewrite E3; cbn [fst]; lia).
    assert (N3 : forall x, ~ In (t_row, x) (snd y3)).
    { intros x H. rewrite E3 in H. cbn [snd] in H. apply in_app_or in H. destruct H as [H|H]; [rewrite E2 in H; cbn [snd] in H; apply in_app_or in H; destruct H as [H|H]; [rewrite E1 in H; cbn [snd] in H; apply in_app_or in H; destruct H as [H|H]; [exact (Nc x H)|]|]|].
      - revert H. apply no_rows_caps. destruct o1; cbn [opt_list]; [|constructor]. constructor; [discriminate|]. constructor; [discriminate|constructor].
      - revert H. apply no_rows_caps. constructor; [discriminate|constructor].
      - revert H. apply no_rows_caps. destruct o3; cbn [opt_list]; [|constructor]. unfold lines_of, break. repeat (apply Forall_cons; [discriminate|]). constructor. }
    clear H1 H2 H3 E1 E2 E3 W1 W2 W3.
    (* what follows the last row *)
    set (post := fun a : state => flat_map g (zways (ZSeq post_rx (ZStr [])) s e a)) in *.
    assert (psim : forall x y, alike K x y -> Forall2 (alike K) (post x) (post y)).
    { intros x y Hxy. subst post. cbn beta. apply F2_flat; [exact gsim|]. apply (ways_alike s e K (st_equi st) HK1 HKr); [|exact Hxy]. cbn [indent_only]. rewrite post_only. reflexivity. }
    assert (pcap : forall y v x, 0 <= fst y <= e -> K (snd y) -> In v (post y) -> In (t_row, x) (snd v) -> In (t_row, x) (snd y)).
    { intros y v x Hy Ky Hv Hx. subst post. cbn beta in Hv. apply in_flat_map in Hv. destruct Hv as (z & Hz & Hv). rewrite seq_ways in Hz. apply in_flat_map in Hz. destruct Hz as (z' & Hz' & Hz). apply nil_ways in Hz. subst z'. apply (post_caps K ind y z x HK HP Hy Ky Hz'). exact (gcap z v x Hv Hx). }
    clearbody post. clear gsim gcap g.
    assert (same : forall (F : state -> list state), (forall x y, alike K x y -> Forall2 (alike K) (F x) (F y)) -> forall x y, fst x = fst y -> K (snd x) -> K (snd y) -> F x <> [] -> F y <> []).
    { intros F HF x y E1 Kx Ky N Q. specialize (HF x y (conj E1 (conj Kx Ky))). rewrite Q in HF. inversion HF as [Q1|]. congruence. }
    pose proof Ok_ as (_ & Sp & _ & _ & Se & _).
    destruct (st_end st) as [re|] eqn:En.
    - cbn [ZSeqs fold_right] in E. rewrite seq_ways, flat_map_flat in E.
      set (rest := fun a : state => flat_map post (zways (ZSeq A (ZSeq (ZSeq nl_rx (ZSeq ind_rx re)) (ZStr []))) s e a)) in *.
      set (rest2 := fun a : state => flat_map post (zways (ZSeq (ZSeq nl_rx (ZSeq ind_rx re)) (ZStr [])) s e a)).
      cbn [simple_opt] in Se.
      assert (r2sim : forall x y, alike K x y -> Forall2 (alike K) (rest2 x) (rest2 y)).
      { intros x y Hxy. subst rest2. cbn beta. apply F2_flat; [exact psim|]. apply (ways_alike s e K (st_equi st) HK1 HKr); [|exact Hxy]. cbn [indent_only]. rewrite ind_only, (opt_only re Se). reflexivity. }
      assert (Er : forall a, rest a = flat_map rest2 (zways A s e a)) by (intros a; subst rest rest2; cbn beta; rewrite seq_ways, flat_map_flat; reflexivity).
      assert (rsim : forall x y, alike K x y -> Forall2 (alike K) (rest x) (rest y)).
      { intros x y Hxy. rewrite !Er. apply F2_flat; [exact r2sim|]. apply (ways_alike s e K (st_equi st) HK1 HKr); [|exact Hxy]. cbn [indent_only]. rewrite ind_only. reflexivity. }
      assert (r2cap : forall y v x, 0 <= fst y <= e -> K (snd y) -> In v (rest2 y) -> In (t_row, x) (snd v) -> In (t_row, x) (snd y)).
      { intros y v x Hy Ky Hv Hx. subst rest2. cbn beta in Hv. apply in_flat_map in Hv. destruct Hv as (z & Hz & Hv). rewrite seq_ways in Hz. apply in_flat_map in Hz. destruct Hz as (z' & Hz' & Hz). apply nil_ways in Hz. subst z'.
        destruct (zq_below st s e K ind He HK HP _ _ (zp_simple s e K He HK re Se) y z Hy Ky Hz') as (ps & (p2 & -> & v2 & -> & _) & Cz & Wz & Ez). pose proof (written_end _ _ _ _ Wz) as Bz. pose proof (zlen_nonneg (text_of [break ind; (None, v2)])) as Lz.
        assert (Q : In (t_row, x) (snd z)) by (apply (pcap z v x); [rewrite Ez; cbn [fst]; lia|rewrite Ez; cbn [snd]; apply HK; assumption|exact Hv|exact Hx]). rewrite Ez in Q. cbn [snd] in Q. apply in_app_or in Q. destruct Q as [Q|Q]; [exact Q|]. exfalso. revert Q. apply no_rows_caps. constructor; [discriminate|]. constructor; [discriminate|constructor]. }
      clearbody rest rest2. change (flat_map rest (zrep true (zways row_rx s e) (S (Z.to_nat (e - fst y3))) 0 None y3) = w :: ws3) in E.
      refine (_ (rows_inner st s e K ind He HK HP HC Ok_ rest (same rest rsim) _ (S (Z.to_nat (e - fst y3))) 0 y3 w ws3 _ Y3 _ K3 E p q Hr)); [|clear p q Hr|lia|lia].
      + intros [Q|Q]; [exfalso; exact (N3 _ Q)|exact Q].
      + intros y v vs Hy Ky Ey p q Hr. rewrite Er in Ey. apply head_flat in Ey. destruct Ey as (r & vs' & Hin & Ey).
        destruct (zq_below st s e K ind He HK HP _ _ (zp_some s e K He HK t_row ltac:(discriminate)) y r Hy Ky Hin) as (ps & (p1 & -> & u & -> & Nu) & C & W & Ew).
        assert (Tx : text_of [break ind; (Some t_row, u)] = ([10] ++ ind) ++ u) by (unfold text_of, break; cbn [flat_map snd]; rewrite app_nil_r; reflexivity). rewrite Tx in W, Ew. pose proof (written_end _ _ _ _ W) as Be. rewrite zlen_app in Be. pose proof (zlen_nonneg ([10] ++ ind)) as Z1. pose proof (zlen_nonneg u) as Z2.
        assert (Lu : 0 < zlen u) by (destruct u; [congruence|rewrite zlen_cons; pose proof (zlen_nonneg u); lia]).
        assert (Kr : K (snd r)) by (rewrite Ew; cbn [snd]; apply (HK (snd y) (fst y) [break ind; (Some t_row, u)]); assumption). assert (Br : 0 <= fst r <= e) by (rewrite Ew; cbn [fst]; rewrite zlen_app; lia).
        pose proof (r2cap r v (p, q) Br Kr ltac:(rewrite Ey; left; reflexivity) Hr) as Q. rewrite Ew in Q. cbn [snd] in Q. assert (Ec : caps_of (fst y) [break ind; (Some t_row, u)] = [(t_row, (fst y + zlen ([10] ++ ind), fst y + zlen ([10] ++ ind) + zlen u))]) by reflexivity. rewrite Ec in Q. apply in_app_or in Q. destruct Q as [Q|[[= <- <-]|[]]]; [left; exact Q|]. right.
        apply (written_app s e He) in W; [|lia]. destruct W as [Wi Wu]. split; [reflexivity|]. change (10 :: ind) with ([10] ++ ind).
        split; [lia|]. split; [exact Wi|]. intros z Hz Kz Wz Lz.
        set (n := fst z + zlen ([10] ++ ind)) in *. set (q := fst y + zlen ([10] ++ ind) + zlen u) in *.
        assert (Lv : zlen (zsub s n q) = q - n) by (rewrite zsub_len; lia).
        assert (W2 : written s e (fst z) (text_of [break ind; (Some t_row, zsub s n q)])). { unfold text_of, break. cbn [flat_map snd]. rewrite app_nil_r. apply (written_app s e He); [lia|]. split; [exact Wz|]. split; [lia|]. rewrite Lv. split; [fold n; lia|]. fold n. f_equal; lia. }
        pose proof (zc_below st s e K ind He HK HC _ _ (zc_some s e K He HK t_row (zsub s n q) ltac:(intros Q0; rewrite Q0 in Lv; change (zlen (@nil Z)) with 0 in Lv; lia)) z ltac:(lia) Kz ltac:(constructor; [discriminate|]; constructor; [discriminate|constructor]) W2) as Hr2.
        rewrite Er. apply (flat_nil rest2 _ _ Hr2). apply (same rest2 r2sim r); [|exact Kr| |rewrite Ey; discriminate].
        * assert (T2 : text_of [break ind; (Some t_row, zsub s n q)] = ([10] ++ ind) ++ zsub s n q) by (unfold text_of, break; cbn [flat_map snd]; rewrite app_nil_r; reflexivity). rewrite Ew, T2. cbn [fst]. rewrite (zlen_app ([10] ++ ind) u), (zlen_app ([10] ++ ind) (zsub s n q)), Lv. unfold q, n. lia.
        * cbn [snd]. apply HK; [constructor; [discriminate|]; constructor; [discriminate|constructor]|exact Kz].
    - change (flat_map post (zrep true (zways row_rx s e) (S (Z.to_nat (e - fst y3))) 1 None y3) = w :: ws3) in E.
      refine (_ (rows_inner st s e K ind He HK HP HC Ok_ post (same post psim) _ (S (Z.to_nat (e - fst y3))) 1 y3 w ws3 _ Y3 _ K3 E p q Hr)); [|clear p q Hr|lia|lia].
      + intros [Q|Q]; [exfalso; exact (N3 _ Q)|exact Q].
      + intros y v vs Hy Ky Ey p q Hr. left. apply (pcap y v (p, q) Hy Ky); [rewrite Ey; left; reflexivity|exact Hr].
  Qed.
  Lemma inner_reads i w ws : 0 <= i <= e -> zways (build_rx st) s e (i, []) = w :: ws ->
    exists ind l, reads st s e i ind l /\ w = (i + zlen ind + zlen (text_of (chips ind l)), read_caps st i ind l) /\ forall p q, In (t_row, (p, q)) (snd w) -> no_separator_inside st s e ind p q.
  Proof.
    intros Hi E. destruct (ways_read st s e He Ok_ i w Hi ltac:(rewrite E; left; reflexivity)) as (ind & l & R & Ew). exists ind, l. split; [exact R|]. split; [exact Ew|].
    change (build_rx st) with (ZSeq (if st_equi st then ZGrp t_indent indent_rx else ZLine) (ZSeqs [ZGrp t_table (inner_rx st); eol_rx])) in E. rewrite seq_ways in E. apply head_flat in E. destruct E as (y & ws' & Hy & E). pose proof tail_inner as TC. destruct (st_equi st) eqn:Eq.
    - destruct (indent_ways s e He i y Hi Hy) as (g & Fg & Wg & ->). pose proof (written_end _ _ _ _ Wg) as Bg. pose proof (zlen_nonneg g) as Lg.
      assert (HK : forall c k ps, clean ps -> KI i g c -> KI i g (c ++ caps_of k ps)) by (intros c k ps Cp H; exact (KI_ok i g c k ps Cp H)).
      assert (Kc : KI i g [(t_indent, (i, i + zlen g))]) by exact (last_snoc t_indent [] i (i + zlen g)).
      assert (HP : zp s e (KI i g) (ZRef t_indent) (fun ps => ps = [(None, g)])) by exact (zp_ref s e i g Wg).
      assert (Eg : g = ind).
      { destruct (tail_ways st s e He Ok_ (KI i g) g (i + zlen g) [(t_indent, (i, i + zlen g))] w HK ltac:(rewrite Eq; exact HP) ltac:(lia) Kc (eq_ind_r (fun l => In w l) (in_eq w ws') E)) as (l' & _ & _ & _ & Ew'). rewrite Ew in Ew'. unfold read_caps in Ew'. rewrite Eq in Ew'. cbn [app] in Ew'. injection Ew' as _ Ei _. assert (El : zlen g = zlen ind) by lia.
        destruct R as (_ & _ & _ & (_ & _ & Wi) & _). destruct Wg as (_ & _ & Wg). rewrite El in Wg. congruence. }
      subst g. refine (TC (KI i ind) ind (i + zlen ind) [(t_indent, (i, i + zlen ind))] w ws' HK _ _ HP _ ltac:(lia) Kc _ E).
      + intros c k p q Nk Kc1. unfold KI, last_span in *. rewrite named_app, (named_none k t_indent _ Nk), app_nil_r. exact Kc1.
      + intros _ c d H1 H2. unfold KI in H1, H2. congruence.
      + intros x Hx Kx _ Wx. cbn [text_of flat_map snd caps_of app] in *. rewrite !app_nil_r in *. cbn [zways]. rewrite Kx. destruct Wg as (_ & _ & W2). rewrite W2, (str_written s e ind (fst x) Hx Wx). left. f_equal. lia.
      + intros x [H|[]]. discriminate H.
    - destruct R as (_ & _ & Q & _). rewrite Eq in Q. destruct Q as [-> _]. cbn [zways] in Hy. destruct (_ || _) in Hy; [|destruct Hy]. destruct Hy as [<-|[]].
      refine (TC (fun _ => True) [] i [] w ws' ltac:(auto) ltac:(auto) ltac:(discriminate) _ _ Hi Logic.I ltac:(intros x []) E); [apply zp_str; auto|apply zc_str].
  Qed.
End Top.
(** the tree of a match, its rows not divided *)
Lemma inner_found st s a b m : 0 <= a <= b -> b <= zlen s -> style_ok st -> In m (zfound (build_rx st) s a b) ->
  exists t ind, gives default_desc (re_keys (style_re st) table_keys) (to_match (style_re st) s m) t /\ is_table st s b ind t /\ rows_undivided st s b ind t.
Proof.
  intros Hab Hb Ok_ Hm. destruct (zfind_in _ s b (style_fwd st s b Hb Ok_) _ a m ltac:(lia) Hm) as (B & w & ws & E & E1 & E2). destruct (inner_reads st s b Hb Ok_ (fst (fst m)) w ws ltac:(lia) E) as (ind & l & R & Ew & C).
  destruct m as [[i j] c]. cbn [fst snd] in *. subst w. cbn [fst snd] in *. subst c j. set (t := at_ s (i + zlen ind) (i + zlen ind + zlen (text_of (chips ind l))) t_table (itos_at s (i + zlen ind) (chips ind l))).
  exists t, ind. split; [exact (read_gives st s b i ind l _ Hb R)|]. split.
  - destruct R as (Lo & Fi & Hb' & Wi & W & LE). pose proof (zlen_nonneg ind) as Li. pose proof (zlen_nonneg (text_of (chips ind l))) as Lt. destruct W as (W1 & W2 & W3). unfold is_table, t, at_, t_start, t_stop. cbn [t_f f_start f_stop].
    exists l. split; [exact Lo|]. split; [exact W3|]. split; [reflexivity|]. split; [lia|]. split; [exact W2|]. split; [exact LE|]. split; [|split; [exact Fi|]].
    + unfold ends_in, written. rewrite Z.add_simpl_r. destruct Wi as (_ & _ & Wi). split; [lia|]. split; [lia|exact Wi].
    + intros Q. rewrite Q in Hb'. tauto.
  - apply Forall_forall. intros r Hr Hd. subst t. cbn [at_ t_kids] in Hr. destruct (itos_caps s _ _ r Hr) as (k & p & q & -> & Q). unfold at_, t_start, t_stop in *. cbn [t_f f_desc f_start f_stop] in *. injection Hd as ->. apply C. unfold read_caps. apply in_or_app. right. apply in_or_app. left. exact Q.
Qed.
