(** Facts for XmlHelp.v: qualified names and Clark names. *)
From Verif Require Import XmlHelp SpecXml SpecStr PyFacts ItoStrFacts ItoStrFacts2 ItoStrFacts5 HeapFacts HeapFacts4 XmlFacts3 XmlFacts4 XmlFacts5 XmlFacts6 CombinFacts CombinFacts2 CombinFacts3 CombinFacts4 ArborFacts3 ArborFacts4 FormatFacts.

Lemma find_char c : forall l, match find_in [c] l with
  | Some i => exists u v, l = u ++ c :: v /\ ~ In c u /\ zlen u = i
  | None => ~ In c l
  end.
Proof.
  induction l as [|x l IH]; [intros []|]. cbn [find_in prefixb]. destruct (Z.eqb_spec c x) as [->|N].
  - cbn [andb]. exists [], l. auto.
  - cbn [andb]. destruct (find_in [c] l) as [i|].
    + destruct IH as (u & v & -> & Nu & L). exists (x :: u), v. split; [reflexivity|]. split; [intros [E|E]; [congruence|exact (Nu E)]|]. rewrite zlen_cons. lia.
    + intros [E|E]; [congruence|exact (IH E)].
Qed.
Lemma split_once c (l u v u' v' : pystr) : l = u ++ c :: v -> l = u' ++ c :: v' -> ~ In c u -> ~ In c u' -> u = u' /\ v = v'.
Proof.
  intros -> E. revert u' E. induction u as [|x u IH]; intros u' E N N'; destruct u' as [|y u'].
  - injection E as ->. auto.
  - exfalso. injection E as -> E. apply N'. left. reflexivity.
  - exfalso. injection E as -> E. apply N. left. reflexivity.
  - injection E as -> E. destruct (IH u' E) as [-> ->]; [intros I; apply N; right; exact I|intros I; apply N'; right; exact I|]. auto.
Qed.
(** ** QualifiedName.from_src *)
Lemma qn_parts f : fwf f -> exists q, qn_from_src f = Ok q /\ qn_str q = ito_str f /\
  match fst q with
  | None => snd q = f /\ ~ In 58 (ito_str f)
  | Some p => within p f /\ within (snd q) f /\ f_start p = f_start f /\ f_start (snd q) = f_stop p + 1 /\ f_stop (snd q) = f_stop f /\
              ito_str f = ito_str p ++ 58 :: ito_str (snd q) /\ ~ In 58 (ito_str p)
  end.
Proof.
  intros W. pose proof W as [W1 W2]. unfold qn_from_src, str_split. change (lit ":") with [58]. cbv iota. change (1 =? 0) with false. cbv iota. cbn [split_loop].
  rewrite (py_find_abs (f_str f) [58] (f_start f) (f_stop f)) by lia. pose proof (ito_str_zsub f W) as Ef. rewrite <- Ef. pose proof (find_char 58 (ito_str f)) as FC.
  assert (QS : forall p x, f_str x = f_str f -> f_start p = f_start f -> f_stop x = f_stop f -> qn_str (Some p, x) = ito_str f).
  { intros p x E1 E2 E3. unfold qn_str. cbn [fst snd]. rewrite E1, E2, E3. destruct (Z.eqb_spec (f_stop f - f_start f) (zlen (f_str f))) as [E|E]; [|reflexivity]. rewrite Ef. assert (Z1 : f_start f = 0) by lia. assert (Z2 : f_stop f = zlen (f_str f)) by lia. rewrite Z1, Z2. rewrite zsub_full. reflexivity. }
  destruct (find_in [58] (ito_str f)) as [k|] eqn:Ek.
  - destruct FC as (u & v & Eu & Nu & Lu). pose proof (zlen_nonneg u). pose proof (ito_str_len f W) as Lf. unfold ito_len in Lf. rewrite Eu, zlen_app, zlen_cons in Lf. pose proof (zlen_nonneg v).
    assert (C : (0 <=? f_start f + k) && negb (1 =? 0) = true) by lia. rewrite C. change (1 - 1) with 0. change (zlen [58]) with 1.
    assert (D : forall j, (0 <=? j) && negb (0 =? 0) = false) by (intros j; apply andb_false_r). rewrite D. cbn [bind fst snd map app deref].
    destruct (Z.eqb_spec (f_start f + k + 1) (f_start f)) as [E|_]; [lia|]. cbn [deref].
    destruct (clone_f_seg f (f_start f) (f_start f + k) None W) as (E1 & V1 & _ & T1); [lia|lia|].
    destruct (clone_f_seg f (f_start f + k + 1) (f_stop f) None W) as (E2 & V2 & _ & T2); [lia|lia|]. rewrite clone_f_dstop by exact W.
    replace (f_start f + k - f_start f) with k in T1 by lia. replace (f_start f - f_start f) with 0 in T1 by lia. rewrite Eu, <- Lu, zsub_app_l, zsub_full in T1 by lia.
    replace (f_start f + k + 1 - f_start f) with (zlen u + 1) in T2 by lia. rewrite Eu in T2. change (58 :: v) with ([58] ++ v) in T2. rewrite app_assoc, zsub_app_r in T2 by (rewrite zlen_app; change (zlen [58]) with 1; lia).
    rewrite zlen_app in T2. change (zlen [58]) with 1 in T2. rewrite Z.sub_diag in T2. replace (f_stop f - f_start f - (zlen u + 1)) with (zlen v) in T2 by lia. rewrite zsub_full in T2.
    eexists. split; [reflexivity|]. split; [apply QS; [rewrite E2|rewrite E1|rewrite E2]; reflexivity|]. cbn [fst snd].
    rewrite <- Lu in *. rewrite T1, T2, E1, E2. unfold within. cbn. repeat split; try lia; assumption.
  - change (0 <=? -1) with false. cbn [andb bind fst snd map deref]. eexists. split; [reflexivity|]. split; [|split; [reflexivity|exact FC]].
    specialize (QS f f eq_refl eq_refl eq_refl). exact QS.
Qed.

(** ** Clark names *)
Lemma clark_parts tag :
  match get_namespace tag with
  | Some n => (exists u, n = u ++ [125] /\ ~ In 125 u) /\ tag = n ++ get_local_name tag
  | None => ~ In 125 tag /\ get_local_name tag = tag
  end.
Proof.
  unfold get_namespace, get_local_name. change (lit "}") with [125].
  assert (F : py_find tag [125] None None = match find_in [125] tag with Some k => k | None => -1 end) by (apply find_none_none; discriminate).
  rewrite F. pose proof (find_char 125 tag) as FC. destruct (find_in [125] tag) as [k|].
  - destruct FC as (u & v & E & N & L). pose proof (zlen_nonneg u). destruct (Z.leb_spec 0 k); [|lia].
    assert (E1 : tag = (u ++ [125]) ++ v) by (rewrite <- app_assoc; exact E). assert (L1 : k + 1 = zlen (u ++ [125])) by (rewrite zlen_app; change (zlen [125]) with 1; lia).
    pose proof (zlen_nonneg v). rewrite L1, E1, slice_to, slice_from by (rewrite (zlen_app (u ++ [125])); lia). rewrite zsub_app_l, zsub_full, zsub_app_r, Z.sub_diag by lia. rewrite (zlen_app (u ++ [125])). replace (zlen (u ++ [125]) + zlen v - zlen (u ++ [125])) with (zlen v) by lia. rewrite zsub_full. split; [exists u; auto|reflexivity].
  - cbn. auto.
Qed.
Lemma clark_whole u v : ~ In 125 u -> get_namespace (lit "{" ++ u ++ lit "}" ++ v) = Some (lit "{" ++ u ++ lit "}") /\ get_local_name (lit "{" ++ u ++ lit "}" ++ v) = v.
Proof.
  intros N. pose proof (clark_parts (lit "{" ++ u ++ lit "}" ++ v)) as P. set (tag := lit "{" ++ u ++ lit "}" ++ v) in *.
  assert (E0 : tag = (123 :: u) ++ 125 :: v) by reflexivity. assert (N0 : ~ In 125 (123 :: u)) by (intros [E|E]; [discriminate|exact (N E)]).
  destruct (get_namespace tag) as [n|].
  - destruct P as ((w & -> & Nw) & E). rewrite <- app_assoc in E. cbn [app] in E. destruct (split_once 125 tag _ _ _ _ E E0 Nw N0) as [E1 E2]. rewrite E1, E2. auto.
  - exfalso. destruct P as [P _]. apply P. rewrite E0. apply in_or_app. right. left. reflexivity.
Qed.
Lemma seq_head a b l i l1 i1 c1 ws l2 i2 c2 ws' : ways a l i = (l1, i1, c1) :: ws -> ways b l1 i1 = (l2, i2, c2) :: ws' -> exists w, ways (RSeq a b) l i = (l2, i2, c1 ++ c2) :: w.
Proof. intros E1 E2. change (ways (RSeq a b) l i) with (flat_map (fun w : way => map (fun v => (fst v, snd w ++ snd v)) (ways b (fst (fst w)) (snd (fst w)))) (ways a l i)). rewrite E1. cbn [flat_map fst snd]. rewrite E2. cbn [map fst snd app]. eexists. reflexivity. Qed.
Lemma grp_head k a l i l1 i1 c1 ws : ways a l i = (l1, i1, c1) :: ws -> exists w, ways (RGrp k a) l i = (l1, i1, c1 ++ [(k, (i, i1))]) :: w.
Proof. intros E. change (ways (RGrp k a) l i) with (map (fun w : way => (fst w, snd w ++ [(k, (i, snd (fst w)))])) (ways a l i)). rewrite E. cbn [map fst snd]. eexists. reflexivity. Qed.
Lemma opt_head a l i x ws : ways a l i = x :: ws -> exists w, ways (ROpt a) l i = x :: w.
Proof. intros E. change (ways (ROpt a) l i) with (ways a l i ++ [(l, i, [])]). rewrite E. eexists. reflexivity. Qed.
Lemma lazy_head z rest : forall v i, ~ In z v -> exists ws, ways (RSeq (RLazy any_char) (RStr [z])) (v ++ z :: rest) i = (rest, i + zlen v + 1, []) :: ws.
Proof.
  intros v i N. change (exists ws, flat_map (fun w : way => map (fun v => (fst v, snd w ++ snd v)) (ways (RStr [z]) (fst (fst w)) (snd (fst w)))) (lazy_ways any_char (v ++ z :: rest) i) = (rest, i + zlen v + 1, []) :: ws).
  revert i N. induction v as [|x v IH]; intros i N.
  - cbn [app lazy_ways flat_map fst snd ways prefixb]. rewrite Z.eqb_refl. cbn [andb map app fst snd skipn length]. change (zlen [z]) with 1. change (zlen (@nil Z)) with 0. rewrite Z.add_0_r. eexists. reflexivity.
  - cbn [app lazy_ways flat_map fst snd ways prefixb]. destruct (Z.eqb_spec z x) as [->|Nx]; [exfalso; apply N; left; reflexivity|]. cbn [andb map app]. change (any_char x) with true. cbv iota.
    destruct (IH (i + 1)) as (ws & E); [intros I; apply N; right; exact I|]. exists ws. rewrite (zlen_cons x v). replace (i + (1 + zlen v) + 1) with (i + 1 + zlen v + 1) by lia. exact E.
Qed.
Lemma all_chars (u : pystr) : forallb any_char u = true. Proof. induction u; [reflexivity|exact IHu]. Qed.
Lemma name_head v i : v <> [] -> exists ws, ways (RGrp d_name (RPlus any_char)) v i = ([], i + zlen v, [(d_name, (i, i + zlen v))]) :: ws.
Proof.
  intros N. destruct (plus_head any_char v [] i N (all_chars v) I) as (ws & E). rewrite app_nil_r in E. exact (grp_head d_name (RPlus any_char) v i [] (i + zlen v) [] ws E).
Qed.
Lemma finds_clark u v i : u <> [] -> v <> [] -> ~ In 125 u ->
  finds rx_et (lit "{" ++ u ++ lit "}" ++ v) i [((i, i + zlen u + 2 + zlen v), [(d_namespace, (i, i + zlen u + 2)); (d_name, (i + zlen u + 2, i + zlen u + 2 + zlen v))])].
Proof.
  intros Hu Hv N. destruct u as [|c u]; [congruence|]. assert (N' : ~ In 125 u) by (intros I; apply N; right; exact I).
  destruct (lazy_head 125 v u (i + 1 + 1) N') as (w1 & E1).
  assert (E2 : ways (RCls any_char) (c :: u ++ 125 :: v) (i + 1) = [(u ++ 125 :: v, i + 1 + 1, [])]) by reflexivity.
  destruct (seq_head _ _ _ _ _ _ _ _ _ _ _ _ E2 E1) as (w2 & E3).
  assert (E4 : ways (RStr (lit "{")) (123 :: c :: u ++ 125 :: v) i = [(c :: u ++ 125 :: v, i + 1, [])]) by reflexivity.
  destruct (seq_head _ _ _ _ _ _ _ _ _ _ _ _ E4 E3) as (w3 & E5). destruct (grp_head d_namespace _ _ _ _ _ _ _ E5) as (w4 & E6). destruct (opt_head _ _ _ _ _ E6) as (w5 & E7).
  destruct (name_head v (i + 1 + 1 + zlen u + 1) Hv) as (w6 & E8). destruct (seq_head _ _ _ _ _ _ _ _ _ _ _ _ E7 E8) as (w7 & E9).
  rewrite zlen_cons. replace (i + (1 + zlen u) + 2) with (i + 1 + 1 + zlen u + 1) by lia. eapply F_hit; [exact E9| |apply F_nil; reflexivity]. cbn. lia.
Qed.
Lemma finds_plain t i : t <> [] -> (forall r, t <> 123 :: r) ->
  finds rx_et t i [((i, i + zlen t), [(d_name, (i, i + zlen t))])].
Proof.
  intros Ht N. assert (E : ways (ROpt (RGrp d_namespace (RSeq (RStr (lit "{")) (RSeq (RCls any_char) (RSeq (RLazy any_char) (RStr (lit "}"))))))) t i = [(t, i, [])]).
  { destruct t as [|x t]; [congruence|]. assert (Nx : (123 =? x) = false) by (apply Z.eqb_neq; intros <-; exact (N t eq_refl)).
    change ((map (fun w : way => (fst w, snd w ++ [(d_namespace, (i, snd (fst w)))])) (flat_map (fun w : way => map (fun v => (fst v, snd w ++ snd v)) (ways (RSeq (RCls any_char) (RSeq (RLazy any_char) (RStr (lit "}")))) (fst (fst w)) (snd (fst w)))) (ways (RStr (lit "{")) (x :: t) i))) ++ [(x :: t, i, [])] = [(x :: t, i, [])]).
    assert (P : ways (RStr (lit "{")) (x :: t) i = []) by (change (lit "{") with [123]; cbn [ways prefixb]; rewrite Nx; reflexivity). rewrite P. reflexivity. }
  destruct (name_head t i Ht) as (w & E1). destruct (seq_head _ _ _ _ _ _ _ _ _ _ _ _ E E1) as (w' & E2). eapply F_hit; [exact E2| |apply F_nil; reflexivity]. destruct t; [congruence|cbn; lia].
Qed.
Lemma extract_one re r h i s a b m ts : fine h -> (i < length h)%nat -> h_string h i = s -> h_start h i = a -> h_stop h i = b -> finds r (zsub s a b) a [m] ->
  (forall h, fine h -> exists h' rs, from_match h (to_match re s m) (default_desc (to_match re s m)) (re_keys re default_filter (to_match re s m)) = (h', Ok rs) /\
     extends h h' /\ fine h' /\ Forall2 (own h') ts rs /\ Forall (fun c => (length h <= c)%nat) rs) ->
  exists h' rs, extract re r h i = (h', Ok rs) /\ extends h h' /\ fine h' /\ Forall2 (own h') ts rs /\ Forall (fun c => (length h <= c)%nat) rs.
Proof.
  intros [W A] Hi Es Ea Eb F G. destruct (clone_same h i W A Hi) as (h1 & Ec & X1 & L1 & W1 & A1 & Ef & _).
  destruct (G h1 (conj W1 A1)) as (h2 & rs & E2 & X2 & Hf2 & O2 & L2).
  exists h2, rs. split; [|split; [exact (extends_trans _ _ _ X1 X2)|]; split; [exact Hf2|]; split; [exact O2|]; eapply Forall_impl; [|exact L2]; cbn; intros; destruct X1; lia].
  unfold extract. assert (D : drain (call 1 (fun _ => Itor (TExtract re (finditer re r) None (Some default_desc) default_filter) [] PostNone) 0%nat i) h = (h2, (rs, None))).
  { unfold call. rewrite drain_act, Ec. cbn [traverse it_post it_tr it_cons run_post]. rewrite drain_plain. cbn [transform_of]. rewrite drain_act.
    assert (Es1 : h_string h1 (length h) = s) by (unfold h_string in *; rewrite Ef; exact Es). assert (Ea1 : h_start h1 (length h) = a) by (unfold h_start in *; rewrite Ef; exact Ea). assert (Eb1 : h_stop h1 (length h) = b) by (unfold h_stop in *; rewrite Ef; exact Eb).
    rewrite Es1, Ea1, Eb1. unfold finditer. rewrite (finds_finditer r (zsub s a b) a [m] F (S (length (zsub s a b)))) by lia. rewrite from_re_nolimit by exact I. cbn [map run_matches]. rewrite E2. unfold obind. cbn [fst snd]. rewrite drain_of_list. cbn [concat]. rewrite app_nil_r. reflexivity. }
  rewrite D. reflexivity.
Qed.
Lemma keys_et m : re_keys re_et default_filter m = [KStr d_namespace; KStr d_name]. Proof. reflexivity. Qed.
Lemma clark_match s a p b sp h : 0 <= a < p -> p < b <= zlen s -> fine h ->
  let m := to_match re_et s (sp, [(d_namespace, (a, p)); (d_name, (p, b))]) in
  exists h' rs, from_match h m (default_desc m) (re_keys re_et default_filter m) = (h', Ok rs) /\ extends h h' /\ fine h' /\
    Forall2 (own h') [at_ s a p d_namespace []; at_ s p b d_name []] rs /\ Forall (fun c => (length h <= c)%nat) rs.
Proof.
  intros Ha Hb Hf m. rewrite keys_et.
  destruct (from_match_shape h m (default_desc m) [KStr d_namespace; KStr d_name] [((a, p), KStr d_namespace); ((p, b), KStr d_name)] [None; None] Hf) as (h' & E1 & X1 & Hf1 & L1 & D).
  - assert (C : captures m [KStr d_namespace; KStr d_name] = [((a, p), KStr d_namespace); ((p, b), KStr d_name)]) by reflexivity. rewrite C. sorted_caps.
  - unfold m. caps_valid.
  - caps_clear.
  - caps_par.
  - eexists h', _. split; [exact E1|]. split; [exact X1|]. split; [exact Hf1|]. cbn in L1 |- *. pose proof (D 0%nat ltac:(cbn; lia)) as D0. pose proof (D 1%nat ltac:(cbn; lia)) as D1. cbn in D0, D1.
    split; [|repeat constructor; lia]. constructor; [|constructor; [|constructor]]; (split; [apply rep_unfold; rewrite ?D0, ?D1; split; [reflexivity|constructor]|split; [rewrite ?D0, ?D1; reflexivity|lia]]).
Qed.
Lemma plain_match s a b sp h : 0 <= a < b -> b <= zlen s -> fine h ->
  let m := to_match re_et s (sp, [(d_name, (a, b))]) in
  exists h' rs, from_match h m (default_desc m) (re_keys re_et default_filter m) = (h', Ok rs) /\ extends h h' /\ fine h' /\
    Forall2 (own h') [at_ s a b d_name []] rs /\ Forall (fun c => (length h <= c)%nat) rs.
Proof.
  intros Ha Hb Hf m. rewrite keys_et.
  destruct (from_match_shape h m (default_desc m) [KStr d_namespace; KStr d_name] [((a, b), KStr d_name)] [None] Hf) as (h' & E1 & X1 & Hf1 & L1 & D).
  - reflexivity.
  - unfold m. caps_valid.
  - caps_clear.
  - caps_par.
  - eexists h', _. split; [exact E1|]. split; [exact X1|]. split; [exact Hf1|]. cbn in L1 |- *. pose proof (D 0%nat ltac:(cbn; lia)) as D0. cbn in D0.
    split; [|repeat constructor; lia]. constructor; [|constructor]. split; [apply rep_unfold; rewrite D0; split; [reflexivity|constructor]|split; [rewrite D0; reflexivity|lia]].
Qed.
(** what from_item gives of a Clark name: two new Itos, of the namespace in braces and of the name *)
Lemma et_clark h i u v : fine h -> (i < length h)%nat -> ito_str (n_f (nd h i)) = lit "{" ++ u ++ lit "}" ++ v -> u <> [] -> v <> [] -> ~ In 125 u ->
  exists h' n x, et_from_item h i = (h', Ok (Some n, x)) /\ extends h h' /\ fine h' /\
    let s := h_string h i in let a := h_start h i in
    own h' (at_ s a (a + zlen u + 2) d_namespace []) n /\ own h' (at_ s (a + zlen u + 2) (h_stop h i) d_name []) x.
Proof.
  intros Hf Hi Et Hu Hv N. pose proof (hwf_span h (proj1 Hf) i) as W. pose proof W as [V1 V2]. set (s := h_string h i) in *. set (a := h_start h i) in *.
  pose proof (ito_str_len _ W) as L. rewrite Et, !zlen_app in L. unfold ito_len in L. change (zlen (lit "{")) with 1 in L. change (zlen (lit "}")) with 1 in L.
  pose proof (zlen_nonneg u) as Lu. pose proof (zlen_nonneg v) as Lv. assert (Eb : h_stop h i = a + zlen u + 2 + zlen v) by (unfold a, h_start, h_stop in *; lia).
  pose proof (finds_clark u v a Hu Hv N) as F. rewrite <- Et, (ito_str_zsub _ W) in F. change (f_str (n_f (nd h i))) with s in *. change (f_start (n_f (nd h i))) with a in *. change (f_stop (n_f (nd h i))) with (h_stop h i) in *. rewrite Eb in *.
  set (p := a + zlen u + 2) in *. set (b := p + zlen v) in *.
  assert (Lv1 : 0 < zlen v) by (destruct v as [|v0 v1]; [congruence|rewrite zlen_cons in *; pose proof (zlen_nonneg v1); lia]).
  destruct (extract_one re_et rx_et h i s a b _ [at_ s a p d_namespace []; at_ s p b d_name []] Hf Hi eq_refl eq_refl Eb F) as (h' & rs & E & X & Hf' & O & _).
  - intros h0 Hf0. apply clark_match; [lia|lia|exact Hf0].
  - inversion O as [|? n ? rs1 On O1]; subst. inversion O1 as [|? x ? rs2 Ox O2]; subst. inversion O2; subst.
    exists h', n, x. unfold et_from_item. rewrite E. unfold obind. cbn [fst snd]. auto.
Qed.
Lemma et_plain h i : fine h -> (i < length h)%nat -> ito_str (n_f (nd h i)) <> [] -> (forall r, ito_str (n_f (nd h i)) <> 123 :: r) ->
  exists h' x, et_from_item h i = (h', Ok (None, x)) /\ extends h h' /\ fine h' /\ own h' (at_ (h_string h i) (h_start h i) (h_stop h i) d_name []) x.
Proof.
  intros Hf Hi Ne N. pose proof (hwf_span h (proj1 Hf) i) as W. pose proof W as [V1 V2]. set (s := h_string h i) in *. set (a := h_start h i) in *.
  pose proof (ito_str_len _ W) as L. unfold ito_len in L. pose proof (finds_plain _ a Ne N) as F. rewrite L in F. rewrite (ito_str_zsub _ W) in F.
  change (f_str (n_f (nd h i))) with s in *. change (f_start (n_f (nd h i))) with a in *. change (f_stop (n_f (nd h i))) with (h_stop h i) in *. replace (a + (h_stop h i - a)) with (h_stop h i) in F by lia.
  assert (Lt : 0 < zlen (ito_str (n_f (nd h i)))) by (destruct (ito_str (n_f (nd h i))) as [|v0 v1]; [congruence|rewrite zlen_cons; pose proof (zlen_nonneg v1); lia]).
  destruct (extract_one re_et rx_et h i s a (h_stop h i) _ [at_ s a (h_stop h i) d_name []] Hf Hi eq_refl eq_refl eq_refl F) as (h' & rs & E & X & Hf' & O & _).
  - intros h0 Hf0. apply plain_match; [lia|lia|exact Hf0].
  - inversion O as [|? x ? rs1 Ox O1]; subst. inversion O1; subst.
    exists h', x. unfold et_from_item. rewrite E. unfold obind. cbn [fst snd]. auto.
Qed.
