(** Facts for Table.v: where the expression of a style matches, and the search. *)
From Verif Require Import SpecTable SpecXml PyFacts NlpFacts NlpFacts2 NlpFacts7 NlpFacts9 XmlFacts5 TableFacts TableFacts2 TableFacts4 TableFacts5.
From Coq Require Import Sorted.

Section Top.
  Variables (st : style) (s : pystr) (e : Z).
  Hypothesis He : e <= zlen s.
  Hypothesis Ok_ : style_ok st.
  Lemma chips_clean ind l : clean (chips ind l).
  Proof.
    assert (H : forall k r, k <> t_indent -> clean (flat_map (lines_of ind k) r)).
    { intros k r N. induction r as [|p r IH]; [constructor|]. cbn [flat_map]. apply clean_app; [|exact IH]. unfold lines_of, break. repeat (apply Forall_cons; [cbn [fst]; congruence|]). apply Forall_nil. }
    assert (O : forall k (o : option (pystr * pystr)), k <> t_indent -> clean (opt_list o (lines_of ind k))).
    { intros k [p|] N; [|constructor]. pose proof (H k [p] N) as Q. cbn [flat_map] in Q. rewrite app_nil_r in Q. exact Q. }
    unfold chips. repeat apply clean_app.
    - destruct (ly_pre l); cbn [opt_list]; [|constructor]. constructor; [discriminate|]. constructor; [discriminate|constructor].
    - constructor; [discriminate|constructor].
    - apply O. discriminate.
    - apply H. discriminate.
    - apply O. discriminate.
    - destruct (ly_post l); cbn [opt_list]; [|constructor]. constructor; [discriminate|]. constructor; [discriminate|constructor].
  Qed.
  Lemma blanks_lang ind : Forall (fun c => c = 32 \/ c = 9) ind -> lang indent_rx ind.
  Proof.
    intros F. exists (map (fun c => [c]) ind). split; [clear F; induction ind as [|c u IH]; [reflexivity|]; cbn; f_equal; exact IH|]. split; [|split; [lia|exact Logic.I]]. apply Forall_map. eapply Forall_impl; [|exact F]. cbn beta. intros c Hc. split; [discriminate|]. exists c. split; [reflexivity|]. unfold among. cbn. lia.
  Qed.
  Lemma read_ways i ind l : 0 <= i -> reads st s e i ind l -> In (i + zlen ind + zlen (text_of (chips ind l)), read_caps st i ind l) (zways (build_rx st) s e (i, [])).
  Proof.
    intros Hi (Lo & Fi & Hb & Wi & W & LE). pose proof (chips_clean ind l) as C. pose proof (zlen_nonneg ind) as Z0. pose proof (zlen_nonneg (text_of (chips ind l))) as Z1. pose proof (written_end _ _ _ _ W) as Z2.
    change (build_rx st) with (ZSeq (if st_equi st then ZGrp t_indent indent_rx else ZLine) (ZSeqs [ZGrp t_table (inner_rx st); eol_rx])).
    assert (Tail : forall (K : list (pystr * span) -> Prop) c, (forall c i ps, clean ps -> K c -> K (c ++ caps_of i ps)) -> zc s e K (if st_equi st then ZRef t_indent else ZStr []) [(None, ind)] -> K c ->
      In (i + zlen ind + zlen (text_of (chips ind l)), c ++ caps_of (i + zlen ind) (chips ind l) ++ [(t_table, (i + zlen ind, i + zlen ind + zlen (text_of (chips ind l))))]) (zways (ZSeqs [ZGrp t_table (inner_rx st); eol_rx]) s e (i + zlen ind, c))).
    { intros K c HK Hind Kc. cbn [ZSeqs fold_right]. rewrite seq_ways. apply in_flat_map. exists (i + zlen ind + zlen (text_of (chips ind l)), (c ++ caps_of (i + zlen ind) (chips ind l)) ++ [(t_table, (i + zlen ind, i + zlen ind + zlen (text_of (chips ind l))))]). split.
      - rewrite grp_ways. apply in_map_iff. exists (i + zlen ind + zlen (text_of (chips ind l)), c ++ caps_of (i + zlen ind) (chips ind l)). split; [reflexivity|]. refine (zc_inner st s e K ind He HK Hind Ok_ l Lo (i + zlen ind, c) _ Kc C W LE). cbn [fst]. lia.
      - rewrite seq_ways, eol_ways; [|lia|exact LE]. cbn [flat_map]. rewrite app_nil_r. cbn [zways fst snd]. rewrite str_written; [|lia|apply written_nil; lia]. left. change (zlen (@nil Z)) with 0. rewrite Z.add_0_r, <- app_assoc. reflexivity. }
    rewrite seq_ways. apply in_flat_map. unfold read_caps. destruct (st_equi st).
    - exists (i + zlen ind, [(t_indent, (i, i + zlen ind))]). split.
      + rewrite grp_ways. apply in_map_iff. exists (i + zlen ind, []). split; [reflexivity|]. exact (simple_writes s e (fun _ => True) He (fun _ _ _ _ _ => Logic.I) indent_rx eq_refl ind (i, []) (blanks_lang ind Fi) Hi Wi).
      + apply (Tail (fun c => last_span t_indent c = Some (i, i + zlen ind))).
        * intros c k ps Cp H. rewrite last_clean by exact Cp. exact H.
        * intros x Hx Kx _ Wx. cbn [text_of flat_map snd caps_of app] in *. rewrite !app_nil_r in *. cbn [zways]. rewrite Kx. destruct Wi as (_ & _ & W2). rewrite W2, (str_written s e ind (fst x) Hx Wx). left. f_equal. lia.
        * exact (last_snoc t_indent [] i (i + zlen ind)).
    - destruct Hb as [-> Hb]. change (zlen (@nil Z)) with 0 in *. rewrite Z.add_0_r in *. exists (i, []). split.
      + cbn [zways fst snd]. assert (E : (i =? 0) || char_is (Z.eqb 10) s e (i - 1) && (0 <? i) = true); [|rewrite E; left; reflexivity]. destruct Hb as [->|Hb]; [reflexivity|]. apply orb_true_iff. right. pose proof (proj1 (zget_bounds _ _ _ Hb)). rewrite (char_is_at (Z.eqb 10) s e (i - 1) 10); [lia|lia|exact Hb|reflexivity].
      + apply (Tail (fun _ => True)); [auto|apply zc_str|exact Logic.I].
  Qed.
  (** the texts of tables are not empty *)
  Lemma layout_len ind l : layout_ok st l -> 0 < zlen (text_of (chips ind l)).
  Proof.
    intros (_ & _ & _ & _ & L & _). unfold chips. change pre_caption_desc with t_pre. change header_row_desc with t_header. change row_desc with t_row. change post_caption_desc with t_post. rewrite !text_app, !zlen_app. pose proof (zlen_nonneg (text_of (opt_list (ly_pre l) (fun u => [(Some t_pre, u); break ind])))). pose proof (zlen_nonneg (text_of [(None, ly_start l)])). pose proof (zlen_nonneg (text_of (opt_list (ly_header l) (lines_of ind t_header)))). pose proof (zlen_nonneg (text_of (opt_list (ly_post l) (fun u => [break ind; (Some t_post, u)])))).
    pose proof (zlen_nonneg (text_of (flat_map (lines_of ind t_row) (ly_rows l)))). pose proof (zlen_nonneg (text_of (opt_list (ly_last l) (lines_of ind t_row)))).
    assert (P : forall p ps, 0 < zlen (text_of (lines_of ind t_row p ++ ps))). { intros p ps. unfold text_of, lines_of, break. cbn [flat_map snd app]. rewrite zlen_cons. match goal with |- context [zlen ?x] => pose proof (zlen_nonneg x) end. lia. }
    destruct (st_end st).
    - destruct L as (u & x & E & _). rewrite E in *. cbn [opt_list] in *. pose proof (P (u, x) []) as Q. rewrite app_nil_r in Q. lia.
    - destruct L as [N _]. destruct (ly_rows l) as [|p ps]; [congruence|]. cbn [flat_map] in *. pose proof (P p (flat_map (lines_of ind t_row) ps)) as Q. lia.
  Qed.
End Top.

(** ** the search *)
Section Search.
  Variables (r : trx) (s : pystr) (e : Z).
  Hypothesis Fwd : forall i w, 0 <= i <= e -> In w (zways r s e (i, [])) -> i < fst w.
  Lemma zfind_in : forall n k m, 0 <= k -> In m (zfind n r s e k) -> k <= fst (fst m) <= e /\ exists w ws, zways r s e (fst (fst m), []) = w :: ws /\ fst w = snd (fst m) /\ snd w = snd m.
  Proof.
    induction n as [|n IH]; intros k m Hk Hm; [destruct Hm|]. cbn [zfind] in Hm. destruct (Z.ltb_spec e k) as [Q|Q]; [destruct Hm|]. destruct (zways r s e (k, [])) as [|w ws] eqn:E.
    - destruct (IH (k + 1) m ltac:(lia) Hm) as [B R]. split; [lia|exact R].
    - destruct Hm as [<-|Hm]; [cbn [fst snd]; split; [lia|]; exists w, ws; auto|]. assert (k < fst w) by (apply Fwd; [lia|rewrite E; left; reflexivity]). destruct (Z.ltb_spec k (fst w)); [|lia]. destruct (IH (fst w) m ltac:(lia) Hm) as [B R]. split; [lia|exact R].
  Qed.
  Lemma zfind_sorted : forall n k, 0 <= k -> StronglySorted (fun x y : span * list (pystr * span) => snd (fst x) <= fst (fst y)) (zfind n r s e k).
  Proof.
    induction n as [|n IH]; intros k Hk; [constructor|]. cbn [zfind]. destruct (Z.ltb_spec e k) as [Q|Q]; [constructor|]. destruct (zways r s e (k, [])) as [|w ws] eqn:E; [apply IH; lia|]. assert (k < fst w) by (apply Fwd; [lia|rewrite E; left; reflexivity]). destruct (Z.ltb_spec k (fst w)); [|lia].
    constructor; [apply IH; lia|]. apply Forall_forall. intros m Hm. apply zfind_in in Hm; [|lia]. cbn [fst snd]. lia.
  Qed.
  Lemma zfind_all : forall n k i, 0 <= k <= i -> i <= e -> zways r s e (i, []) <> [] -> e + 1 - k < Z.of_nat n -> exists m, In m (zfind n r s e k) /\ fst (fst m) <= i < snd (fst m).
  Proof.
    induction n as [|n IH]; intros k i Hk Hi N Ln; [lia|]. cbn [zfind]. destruct (Z.ltb_spec e k) as [Q|Q]; [lia|]. destruct (zways r s e (k, [])) as [|w ws] eqn:E.
    - assert (k <> i) by congruence. destruct (IH (k + 1) i ltac:(lia) Hi N ltac:(lia)) as (m & Hm & B). exists m. auto.
    - assert (k < fst w) by (apply Fwd; [lia|rewrite E; left; reflexivity]). destruct (Z.ltb_spec k (fst w)); [|lia]. destruct (Z.lt_ge_cases i (fst w)) as [C|C].
      + exists ((k, fst w), snd w). split; [left; reflexivity|cbn [fst snd]; lia].
      + destruct (IH (fst w) i ltac:(lia) Hi N ltac:(lia)) as (m & Hm & B). exists m. split; [right; exact Hm|exact B].
  Qed.
End Search.
