(** Facts for Table.v: what a match of the expression of a style is, and the Ito it gives. *)
From Verif Require Import SpecTable SpecXml PyFacts HeapFacts4 NlpFacts NlpFacts2 NlpFacts7 NlpFacts9 XmlFacts5 XmlFacts6 TableFacts TableFacts2 TableFacts3.
From Coq Require Import Sorted.

Lemma last_snoc k c x y : last_span k (c ++ [(k, (x, y))]) = Some (x, y).
Proof. unfold last_span. rewrite named_app. unfold named_spans at 2. cbn [filter fst]. rewrite (proj2 (eqb_str_eq k k) eq_refl). cbn [map snd]. rewrite rev_app_distr. reflexivity. Qed.
Lemma seq_ways a b s e x : zways (ZSeq a b) s e x = flat_map (zways b s e) (zways a s e x). Proof. reflexivity. Qed.
Lemma grp_ways k a s e x : zways (ZGrp k a) s e x = map (fun y => (fst y, snd y ++ [(k, (fst x, fst y))])) (zways a s e x). Proof. reflexivity. Qed.
Lemma nil_ways s e x w : In w (zways (ZStr []) s e x) -> w = x.
Proof. cbn [zways]. destruct (str_at [] s e (fst x)); [|intros []]. change (zlen (@nil Z)) with 0. rewrite Z.add_0_r. intros [<-|[]]. destruct x; reflexivity. Qed.
(** how the matches of a style look *)
Definition reads (st : style) (s : pystr) (e i : Z) (ind : pystr) (l : layout) : Prop :=
  layout_ok st l /\ Forall (fun c => c = 32 \/ c = 9) ind /\ (if st_equi st then True else ind = [] /\ line_begins s i) /\
  written s e i ind /\ written s e (i + zlen ind) (text_of (chips ind l)) /\ line_ends s e (i + zlen ind + zlen (text_of (chips ind l))).
Definition read_caps (st : style) (i : Z) (ind : pystr) (l : layout) : list (pystr * span) :=
  (if st_equi st then [(t_indent, (i, i + zlen ind))] else []) ++ caps_of (i + zlen ind) (chips ind l) ++ [(t_table, (i + zlen ind, i + zlen ind + zlen (text_of (chips ind l))))].
Section Top.
  Variables (st : style) (s : pystr) (e : Z).
  Hypothesis He : e <= zlen s.
  Hypothesis Ok_ : style_ok st.
  Lemma indent_ways i w : 0 <= i <= e -> In w (zways (ZGrp t_indent indent_rx) s e (i, [])) ->
    exists ind, Forall (fun c => c = 32 \/ c = 9) ind /\ written s e i ind /\ w = (i + zlen ind, [(t_indent, (i, i + zlen ind))]).
  Proof.
    intros Hi Hw. cbn [zways] in Hw. apply in_map_iff in Hw. destruct Hw as (y & <- & Hy). destruct (zp_simple s e (fun _ => True) He ltac:(auto) indent_rx eq_refl (i, []) y Hi Logic.I Hy) as (ps & (u & -> & Lu) & _ & W & ->).
    cbn [fst snd text_of flat_map caps_of app] in *. rewrite app_nil_r in *. exists u. split; [|split; [exact W|reflexivity]].
    destruct Lu as (us & -> & F & _). clear W Hy. induction F as [|v us [_ (c & -> & Hc)] F IH]; [constructor|]. cbn [concat app]. constructor; [|exact IH]. unfold among in Hc. cbn in Hc; lia.
  Qed.
  Lemma tail_ways (K : list (pystr * span) -> Prop) ind i c w : (forall c i ps, clean ps -> K c -> K (c ++ caps_of i ps)) -> zp s e K (if st_equi st then ZRef t_indent else ZStr []) (fun ps => ps = [(None, ind)]) ->
    0 <= i <= e -> K c -> In w (zways (ZSeqs [ZGrp t_table (inner_rx st); eol_rx]) s e (i, c)) ->
    exists l, layout_ok st l /\ written s e i (text_of (chips ind l)) /\ line_ends s e (i + zlen (text_of (chips ind l))) /\
      w = (i + zlen (text_of (chips ind l)), c ++ caps_of i (chips ind l) ++ [(t_table, (i, i + zlen (text_of (chips ind l))))]).
  Proof.
    intros HK Hind Hi Kc Hw. cbn [ZSeqs fold_right] in Hw. rewrite seq_ways in Hw. apply in_flat_map in Hw. destruct Hw as (y & Hy & Hw). rewrite grp_ways in Hy. apply in_map_iff in Hy. destruct Hy as (x & <- & Hx).
    destruct (zq_inner st s e K ind He HK Hind Ok_ (i, c) x Hi Kc Hx) as (ps & (l & Lo & ->) & C & W & ->). cbn [fst snd] in *.
    rewrite seq_ways in Hw. apply in_flat_map in Hw. destruct Hw as (v & Hv & Hw). apply nil_ways in Hw. subst w. pose proof (written_end _ _ _ _ W) as B. pose proof (zlen_nonneg (text_of (chips ind l))) as L0.
    assert (Ne : zways eol_rx s e (i + zlen (text_of (chips ind l)), (c ++ caps_of i (chips ind l)) ++ [(t_table, (i, i + zlen (text_of (chips ind l))))]) <> []) by (intros Q; exact (eq_ind _ (fun l => In v l) Hv _ Q)).
    destruct (line_ends_spec s e (i + zlen (text_of (chips ind l))) _ _ eq_refl (Z.add_nonneg_nonneg _ _ (proj1 Hi) L0) Ne) as [LE Ev]. assert (Hv' : In v [(i + zlen (text_of (chips ind l)), (c ++ caps_of i (chips ind l)) ++ [(t_table, (i, i + zlen (text_of (chips ind l))))])]) by exact (eq_ind _ (fun l => In v l) Hv _ Ev). destruct Hv' as [<-|[]].
    exists l. split; [exact Lo|]. split; [exact W|]. split; [exact LE|]. rewrite <- app_assoc. reflexivity.
  Qed.
  Lemma ways_read i w : 0 <= i <= e -> In w (zways (build_rx st) s e (i, [])) ->
    exists ind l, reads st s e i ind l /\ w = (i + zlen ind + zlen (text_of (chips ind l)), read_caps st i ind l).
  Proof.
    intros Hi Hw. unfold reads, read_caps. change (build_rx st) with (ZSeq (if st_equi st then ZGrp t_indent indent_rx else ZLine) (ZSeqs [ZGrp t_table (inner_rx st); eol_rx])) in Hw.
    rewrite seq_ways in Hw. apply in_flat_map in Hw. destruct Hw as (y & Hy & Hw). pose proof (tail_ways) as TW. destruct (st_equi st) eqn:Eq.
    - destruct (indent_ways i y Hi Hy) as (ind & Fi & Wi & ->). pose proof (written_end _ _ _ _ Wi) as B. pose proof (zlen_nonneg ind) as L0.
      destruct (TW (fun c => last_span t_indent c = Some (i, i + zlen ind)) ind (i + zlen ind) [(t_indent, (i, i + zlen ind))] w) as (l & Lo & W & LE & ->).
      + intros c k ps C H. rewrite last_clean by exact C. exact H.
      + intros x v Hx Kx Hv. cbn [zways] in Hv. rewrite Kx in Hv. destruct Wi as (W0 & W1 & W2). rewrite W2 in Hv. destruct (str_at ind s e (fst x)) eqn:E; [|destruct Hv]. destruct Hv as [<-|[]]. exists [(None, ind)]. split; [reflexivity|]. split; [constructor; [discriminate|constructor]|].
        cbn [text_of flat_map snd caps_of app]. rewrite !app_nil_r. split; [|f_equal; lia]. unfold str_at in E. apply andb_true_iff in E. destruct E as [E1 E2]. apply eqb_str_eq in E2. split; [lia|]. split; [lia|exact E2].
      + lia.
      + exact (last_snoc t_indent [] i (i + zlen ind)).
      + exact Hw.
      + exists ind, l. split; [split; [exact Lo|]; split; [exact Fi|]; split; [exact Logic.I|]; auto|]. reflexivity.
    - cbn [zways] in Hy. cbn [fst] in Hy. destruct ((i =? 0) || char_is (Z.eqb 10) s e (i - 1) && (0 <? i)) eqn:E; [|destruct Hy]. destruct Hy as [<-|[]].
      destruct (TW (fun _ => True) [] i [] w) as (l & Lo & W & LE & ->); [auto|apply zp_str; auto|exact Hi|exact Logic.I|exact Hw|].
      exists [], l. change (zlen (@nil Z)) with 0. rewrite Z.add_0_r. cbn [app]. split; [|reflexivity]. split; [exact Lo|]. split; [constructor|]. split; [split; [reflexivity|]|split; [apply written_nil; exact Hi|auto]].
      unfold line_begins. apply orb_true_iff in E. destruct E as [E|E]; [left; lia|]. apply andb_true_iff in E. destruct E as [E E0]. right. apply char_is_spec in E. destruct E as [_ E]. destruct (E ltac:(lia)) as (c & Hc & Q). apply Z.eqb_eq in Q. subst c. exact Hc.
  Qed.
End Top.

(** ** the captures, key by key *)
Definition swap (c : pystr * span) : span * gkey := (snd c, KStr (fst c)).
Definition only (k : pystr) (ps : list chip) : Prop := Forall (fun p => fst p = None \/ fst p = Some k) ps.
Lemma only_same k ps : forall i, only k ps -> map (fun x => (x, KStr k)) (named_spans k (caps_of i ps)) = map swap (caps_of i ps).
Proof.
  induction ps as [|[d u] ps IH]; intros i O; [reflexivity|]. inversion O as [|? ? Hd O']; subst. cbn [caps_of]. rewrite named_app, !map_app, (IH _ O'). f_equal. destruct Hd as [E|E]; cbn [fst] in E; subst d; [reflexivity|]. unfold named_spans. cbn [filter fst]. rewrite (proj2 (eqb_str_eq k k) eq_refl). reflexivity.
Qed.
Lemma only_other k k' ps : k <> k' -> forall i, only k ps -> named_spans k' (caps_of i ps) = [].
Proof.
  intros N. induction ps as [|[d u] ps IH]; intros i O; [reflexivity|]. inversion O as [|? ? Hd O']; subst. cbn [caps_of]. rewrite named_app, (IH _ O'), app_nil_r. destruct Hd as [E|E]; cbn [fst] in E; subst d; [reflexivity|]. unfold named_spans. cbn [filter fst]. destruct (eqb_str k k') eqn:Q; [apply eqb_str_eq in Q; congruence|reflexivity].
Qed.
Lemma named_one k x : named_spans k [(k, x)] = [x]. Proof. unfold named_spans. cbn [filter fst]. rewrite (proj2 (eqb_str_eq k k) eq_refl). reflexivity. Qed.
Lemma named_none k k' x : k <> k' -> named_spans k' [(k, x)] = []. Proof. intros N. unfold named_spans. cbn [filter fst]. destruct (eqb_str k k') eqn:E; [apply eqb_str_eq in E; congruence|reflexivity]. Qed.
Ltac each_only := repeat (apply Forall_cons; [cbn [fst]; auto|]); apply Forall_nil.
Lemma only_lines ind k l : only k (flat_map (lines_of ind k) l).
Proof. induction l as [|p l IH]; [constructor|]. cbn [flat_map]. apply Forall_app. split; [|exact IH]. unfold lines_of, break. each_only. Qed.
Definition flat_opt (d : pystr) (o : option trx) : list gkey := match o with Some _ => [KStr d] | None => [] end.
Lemma keys_style st m : re_keys (style_re st) table_keys m = [KStr t_table] ++ flat_opt t_pre (st_pre st) ++ flat_opt t_header (st_header st) ++ [KStr t_row] ++ flat_opt t_post (st_post st).
Proof. destruct st as [[p|] start [h|] sep [n|] [q|] []]; reflexivity. Qed.
Lemma style_caps st s sp i ind l m : layout_ok st l -> m = to_match (style_re st) s (sp, read_caps st i ind l) ->
  captures m (re_keys (style_re st) table_keys m) = ((i + zlen ind, i + zlen ind + zlen (text_of (chips ind l))), KStr t_table) :: map swap (caps_of (i + zlen ind) (chips ind l)).
Proof.
  intros Lo Em. rewrite keys_style. unfold captures. rewrite !flat_map_app. 
  assert (N : forall k, rm_spans m (KStr k) = named_spans k (read_caps st i ind l)) by (intros k; rewrite Em; reflexivity). clear Em.
  set (a := i + zlen ind) in *. set (b := a + zlen (text_of (chips ind l))).
  set (P1 := opt_list (ly_pre l) (fun u => [(Some t_pre, u); break ind]) ++ [(None, ly_start l)]). set (P2 := opt_list (ly_header l) (lines_of ind t_header)).
  set (P3 := flat_map (lines_of ind t_row) (ly_rows l) ++ opt_list (ly_last l) (lines_of ind t_row)). set (P4 := opt_list (ly_post l) (fun u => [break ind; (Some t_post, u)])).
  assert (E : chips ind l = P1 ++ P2 ++ P3 ++ P4) by (unfold chips, P1, P2, P3, P4; rewrite <- !app_assoc; reflexivity).
  assert (O1 : only t_pre P1) by (subst P1; unfold break; destruct (ly_pre l); cbn [opt_list app]; each_only).
  assert (O2 : only t_header P2) by (subst P2; unfold lines_of, break; destruct (ly_header l); cbn [opt_list app]; each_only).
  assert (O3 : only t_row P3) by (apply Forall_app; split; [apply only_lines|]; unfold lines_of, break; destruct (ly_last l); cbn [opt_list app]; each_only).
  assert (O4 : only t_post P4) by (subst P4; unfold break; destruct (ly_post l); cbn [opt_list app]; each_only).
  assert (R : forall k, k <> t_indent -> named_spans k (read_caps st i ind l) = named_spans k (caps_of a (chips ind l)) ++ named_spans k [(t_table, (a, b))]).
  { intros k Nk. unfold read_caps. fold a. fold b. rewrite !named_app. destruct (st_equi st); [rewrite named_none by congruence|]; reflexivity. }
  rewrite E in R |- *. rewrite !caps_app in R |- *. set (c1 := caps_of a P1) in *. set (c2 := caps_of _ P2) in *. set (c3 := caps_of _ P3) in *. set (c4 := caps_of _ P4) in *. rewrite !map_app.
  assert (Z0 : t_table <> t_pre /\ t_table <> t_header /\ t_table <> t_row /\ t_table <> t_post /\ t_pre <> t_header /\ t_pre <> t_row /\ t_pre <> t_post /\ t_header <> t_row /\ t_header <> t_post /\ t_row <> t_post) by (repeat split; discriminate).
  destruct Z0 as (Z1 & Z2 & Z3 & Z4 & Z5 & Z6 & Z7 & Z8 & Z9 & Z10).
  assert (H0 : named_spans t_table (read_caps st i ind l) = [(a, b)]). { subst c1 c2 c3 c4. rewrite R by discriminate. rewrite !named_app, (only_other t_pre t_table P1 ltac:(congruence) _ O1), (only_other t_header t_table P2 ltac:(congruence) _ O2), (only_other t_row t_table P3 ltac:(congruence) _ O3), (only_other t_post t_table P4 ltac:(congruence) _ O4). apply named_one. }
  assert (H1 : map (fun x => (x, KStr t_pre)) (named_spans t_pre (read_caps st i ind l)) = map swap c1). { subst c1 c2 c3 c4. rewrite R by discriminate. rewrite !named_app, (only_other t_header t_pre P2 ltac:(congruence) _ O2), (only_other t_row t_pre P3 ltac:(congruence) _ O3), (only_other t_post t_pre P4 ltac:(congruence) _ O4), named_none by exact Z1. rewrite !app_nil_r. apply only_same. exact O1. }
  assert (H2 : map (fun x => (x, KStr t_header)) (named_spans t_header (read_caps st i ind l)) = map swap c2). { subst c1 c2 c3 c4. rewrite R by discriminate. rewrite !named_app, (only_other t_pre t_header P1 ltac:(congruence) _ O1), (only_other t_row t_header P3 ltac:(congruence) _ O3), (only_other t_post t_header P4 ltac:(congruence) _ O4), named_none by exact Z2. rewrite !app_nil_r. apply only_same. exact O2. }
  assert (H3 : map (fun x => (x, KStr t_row)) (named_spans t_row (read_caps st i ind l)) = map swap c3). { subst c1 c2 c3 c4. rewrite R by discriminate. rewrite !named_app, (only_other t_pre t_row P1 ltac:(congruence) _ O1), (only_other t_header t_row P2 ltac:(congruence) _ O2), (only_other t_post t_row P4 ltac:(congruence) _ O4), named_none by exact Z3. rewrite !app_nil_r. apply only_same. exact O3. }
  assert (H4 : map (fun x => (x, KStr t_post)) (named_spans t_post (read_caps st i ind l)) = map swap c4). { subst c1 c2 c3 c4. rewrite R by discriminate. rewrite !named_app, (only_other t_pre t_post P1 ltac:(congruence) _ O1), (only_other t_header t_post P2 ltac:(congruence) _ O2), (only_other t_row t_post P3 ltac:(congruence) _ O3), named_none by exact Z4. rewrite !app_nil_r. apply only_same. exact O4. }
  destruct Lo as (L1 & _ & L2 & _ & _ & L3).
  assert (F1 : flat_map (fun gk => map (fun x => (x, gk)) (rm_spans m gk)) (flat_opt t_pre (st_pre st)) = map swap c1).
  { unfold flat_opt. destruct (st_pre st) as [r|]; [cbn [flat_map]; rewrite N, app_nil_r; exact H1|]. unfold fits_opt in L1. subst c1 P1. destruct (ly_pre l) as [u|]; [destruct L1 as (r & Q & _); discriminate Q|reflexivity]. }
  assert (F2 : flat_map (fun gk => map (fun x => (x, gk)) (rm_spans m gk)) (flat_opt t_header (st_header st)) = map swap c2).
  { unfold flat_opt. destruct (st_header st) as [r|]; [cbn [flat_map]; rewrite N, app_nil_r; exact H2|]. subst c2 P2. destruct (ly_header l) as [[u x]|]; [destruct L2 as (_ & r & Q & _); discriminate Q|reflexivity]. }
  assert (F4 : flat_map (fun gk => map (fun x => (x, gk)) (rm_spans m gk)) (flat_opt t_post (st_post st)) = map swap c4).
  { unfold flat_opt. destruct (st_post st) as [r|]; [cbn [flat_map]; rewrite N, app_nil_r; exact H4|]. subst c4 P4. rewrite L3. reflexivity. }
  cbn [flat_map]. rewrite (N t_row), (N t_table), F1, F2, F4, H0, H3, !app_nil_r. subst b. rewrite E. reflexivity.
Qed.

(** ** the captures lie apart *)
Fixpoint spread (ok : bool) (ps : list chip) : Prop :=
  match ps with
  | [] => True
  | (None, u) :: r => spread (ok || (0 <? zlen u)) r
  | (Some _, u) :: r => ok = true /\ spread false r
  end.
Lemma spread_caps ps : forall ok i, spread ok ps -> Forall (fun c : span * gkey => (if ok then i <= fst (fst c) else i < fst (fst c)) /\ fst (fst c) <= snd (fst c) /\ snd (fst c) <= i + zlen (text_of ps)) (map swap (caps_of i ps)) /\
  StronglySorted (fun x y : span * gkey => snd (fst x) < fst (fst y)) (map swap (caps_of i ps)).
Proof.
  induction ps as [|[d u] ps IH]; intros ok i H; [split; constructor|]. cbn [caps_of]. rewrite map_app. pose proof (zlen_nonneg u) as Lu. unfold text_of in IH |- *. cbn [flat_map snd]. rewrite zlen_app. fold (text_of ps) in IH |- *. pose proof (zlen_nonneg (text_of ps)) as Lp. destruct d as [k|].
  - destruct H as [-> H]. destruct (IH _ (i + zlen u) H) as [F S]. cbn [map app]. unfold swap at 1. cbn [fst snd]. split.
    + constructor; [cbn [fst snd]; lia|]. eapply Forall_impl; [|exact F]. cbn beta. intros c Q. lia.
    + constructor; [exact S|]. eapply Forall_impl; [|exact F]. cbn beta. intros c Q. cbn [fst snd swap]. lia.
  - cbn [spread] in H. destruct (IH _ (i + zlen u) H) as [F S]. cbn [map app]. split; [|exact S]. eapply Forall_impl; [|exact F]. cbn beta. intros c Q. destruct ok; cbn [orb] in Q; [lia|]. destruct (Z.ltb_spec 0 (zlen u)); lia.
Qed.
Lemma spread_up ps : forall ok, spread ok ps -> spread true ps.
Proof.
  induction ps as [|[[k|] u] ps IH]; intros ok H; [exact Logic.I|destruct H as [_ H]; split; [reflexivity|exact H]|]. cbn [spread] in *. exact (IH _ H).
Qed.
Lemma break_len ind : (0 <? zlen ([10] ++ ind)) = true.
Proof. cbn [app]. rewrite zlen_cons. pose proof (zlen_nonneg ind). lia. Qed.
Lemma spread_break ok ind ps : spread true ps -> spread ok (break ind :: ps).
Proof. intros H. unfold break. cbn [spread]. rewrite break_len, orb_true_r. exact H. Qed.
Lemma spread_lines ok ind k p ps : spread true ps -> spread ok (lines_of ind k p ++ ps).
Proof. intros H. unfold lines_of. cbn [app]. apply spread_break. refine (conj eq_refl _). change (spread false (break ind :: (None, snd p) :: ps)). apply spread_break. exact H. Qed.
Lemma spread_all ok ind k l ps : (forall ok, spread ok ps) -> spread ok (flat_map (lines_of ind k) l ++ ps).
Proof. revert ok. induction l as [|p l IH]; intros ok H; [apply H|]. cbn [flat_map]. rewrite <- app_assoc. apply spread_lines. apply IH. exact H. Qed.
Lemma spread_chips ind l : spread true (chips ind l).
Proof.
  unfold chips. assert (H4 : forall ok, spread ok (opt_list (ly_post l) (fun u => [break ind; (Some t_post, u)]))). { intros ok. destruct (ly_post l); [|exact Logic.I]. cbn [opt_list]. apply spread_break. cbn. auto. }
  assert (H3 : forall ok, spread ok (opt_list (ly_last l) (lines_of ind t_row) ++ opt_list (ly_post l) (fun u => [break ind; (Some t_post, u)]))). { intros ok. destruct (ly_last l); [|apply H4]. cbn [opt_list]. apply spread_lines. apply H4. }
  assert (H2 : forall ok, spread ok (opt_list (ly_header l) (lines_of ind t_header) ++ flat_map (lines_of ind t_row) (ly_rows l) ++ opt_list (ly_last l) (lines_of ind t_row) ++ opt_list (ly_post l) (fun u => [break ind; (Some t_post, u)]))).
  { intros ok. destruct (ly_header l); cbn [opt_list]; [apply spread_lines|cbn [app]]; apply spread_all; exact H3. }
  assert (H1 : forall ok, spread ok ([(None, ly_start l)] ++ opt_list (ly_header l) (lines_of ind t_header) ++ flat_map (lines_of ind t_row) (ly_rows l) ++ opt_list (ly_last l) (lines_of ind t_row) ++ opt_list (ly_post l) (fun u => [break ind; (Some t_post, u)]))).
  { intros ok. cbn [app spread]. apply H2. }
  destruct (ly_pre l) as [u|]; cbn [opt_list]; [|apply H1]. refine (conj eq_refl _). exact (spread_break false ind _ (H1 true)).
Qed.
Lemma kids_itos s m ps : forall i, map (flat_kid s (default_desc m)) (map swap (caps_of i ps)) = itos_at s i ps.
Proof. induction ps as [|[[k|] u] ps IH]; intros i; [reflexivity| |]; cbn [caps_of itos_at app map]; rewrite IH; reflexivity. Qed.
Lemma read_gives st s e i ind l sp : e <= zlen s -> reads st s e i ind l ->
  gives default_desc (re_keys (style_re st) table_keys) (to_match (style_re st) s (sp, read_caps st i ind l))
    (at_ s (i + zlen ind) (i + zlen ind + zlen (text_of (chips ind l))) t_table (itos_at s (i + zlen ind) (chips ind l))).
Proof.
  intros He (Lo & _ & _ & Wi & W & _). set (m := to_match (style_re st) s (sp, read_caps st i ind l)).
  pose proof (style_caps st s sp i ind l m Lo eq_refl) as Ec. pose proof (spread_caps _ true (i + zlen ind) (spread_chips ind l)) as [F S].
  pose proof (flat_gives (i + zlen ind, i + zlen ind + zlen (text_of (chips ind l))) (KStr t_table) (map swap (caps_of (i + zlen ind) (chips ind l))) F S default_desc (re_keys (style_re st) table_keys) m) as G.
  pose proof (written_le _ _ _ _ W) as [B1 B2]. pose proof (written_end _ _ _ _ W) as B3. pose proof (zlen_nonneg (text_of (chips ind l))) as B4.
  specialize (G ltac:(unfold cap_valid; cbn [fst snd]; change (rm_string m) with s; lia) Ec). rewrite kids_itos in G. exact G.
Qed.
