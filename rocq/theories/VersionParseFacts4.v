(** Facts for VersionParse.v: matches and their groups. *)
From Verif Require Import SpecParse SpecNlp PyFacts NlpFacts NlpFacts2 NlpFacts7 NlpFacts9 TableFacts TableFacts4 TableFacts5 VersionFacts DenFacts VersionParseFacts VersionParseFacts2 VersionParseFacts3.

Lemma group_app s c1 c2 k : m_group s (c1 ++ c2) k = match m_group s c2 k with Some x => Some x | None => m_group s c1 k end.
Proof. unfold m_group, last_span, named_spans. rewrite filter_app, map_app, rev_app_distr. destruct (rev (map snd (filter _ c2))); reflexivity. Qed.
Lemma group_cons s a c k : m_group s (a :: c) k = match m_group s c k with Some x => Some x | None => m_group s [a] k end.
Proof. exact (group_app s [a] c k). Qed.
Lemma group_one s a b k k' : m_group s [(k', (a, b))] k = if eqb_str k' k then Some (zsub s a b) else None.
Proof. unfold m_group, last_span, named_spans. cbn [filter fst snd]. destruct (eqb_str k' k) eqn:E; reflexivity. Qed.
Lemma group_nil s k : m_group s [] k = None. Proof. reflexivity. Qed.
(** the last part may take a line feed more *)
Lemma dseq_feed C : vc_space C 10 = true -> forall rs i u c, dseq (rs ++ [p_space C]) i u c -> dseq (rs ++ [p_space C]) i (u ++ [10]) c.
Proof.
  intros Sp. induction rs as [|r rs IH]; intros i u c D.
  - destruct D as (u1 & u2 & c1 & c2 & -> & -> & D & -> & ->). apply space_run in D. destruct D as [-> F]. exists (u1 ++ [10]), [], [], []. rewrite !app_nil_r. split; [reflexivity|]. split; [reflexivity|]. split; [|split; reflexivity]. apply reads_space. apply Forall_app. auto.
  - destruct D as (u1 & u2 & c1 & c2 & -> & -> & D & D2). exists u1, (u2 ++ [10]), c1, c2. rewrite app_assoc. auto.
Qed.
Section Groups.
  Variable C : vclasses.
  Variables s : pystr.
  Notation W := (written s (zlen s)).
  Lemma w_zsub i u : W i u -> zsub s i (i + zlen u) = u. Proof. intros (_ & _ & H). exact H. Qed.
  Lemma w_app i u v : 0 <= i -> W i (u ++ v) -> W i u /\ W (i + zlen u) v. Proof. intros Hi. apply (written_app s (zlen s) (Z.le_refl _)). exact Hi. Qed.
  Lemma match_reads v m : v = s -> vc_space C 10 = true -> parse_match C v = Some m -> dseq (body C) 0 s m.
  Proof.
    intros -> Sp H. unfold parse_match in H. destruct (zways (parse_rx C) s (zlen s) (0, [])) as [|w r] eqn:E; [discriminate H|]. injection H as <-.
    assert (Iw : In w (zways (ZSeqs (body C ++ [ZEnd])) s (zlen s) (0, []))) by (change (ZSeqs (body C ++ [ZEnd])) with (parse_rx C); rewrite E; left; reflexivity).
    pose proof (zlen_nonneg s) as L. apply (ways_to_end s (zlen s) (Z.le_refl _) (body C) eq_refl (0, [])) in Iw; [|cbn [fst]; lia]. destruct Iw as (u & c & D & Wu & -> & En). cbn [fst snd app] in *. rewrite Z.add_0_l in En.
    destruct Wu as (_ & Lu & Eu). rewrite Z.add_0_l in *. destruct En as [En|[En Ch]].
    - rewrite En, zsub_full in Eu. subst u. exact D.
    - assert (Es : s = u ++ [10]); [|rewrite Es; exact (dseq_feed C Sp [p_space C; ZOpt (p_word C (lit "v")); p_epoch; p_release; p_pre C; p_post C; p_dev C; p_local C] 0 u c D)].
      pose proof (zlen_nonneg u). apply char_is_spec in Ch. destruct Ch as [_ Ch]. destruct (Ch ltac:(lia)) as (x & G & Ex). apply Z.eqb_eq in Ex. subst x. rewrite <- (zsub_full s) at 1. rewrite <- (zsub_app_split s 0 (zlen u) (zlen s)) by lia. rewrite Eu. f_equal. rewrite <- En. apply zsub_single. exact G.
  Qed.
  Lemma reads_match c : dseq (body C) 0 s c -> exists m, parse_match C s = Some m.
  Proof.
    intros D. pose proof (zlen_nonneg s) as L. unfold parse_match. assert (Iw : In (zlen s, c) (zways (ZSeqs (body C ++ [ZEnd])) s (zlen s) (0, []))).
    { apply (ways_to_end s (zlen s) (Z.le_refl _) (body C) eq_refl (0, [])); [cbn [fst]; lia|]. exists s, c. cbn [fst snd app]. rewrite !Z.add_0_l. split; [exact D|]. split; [|auto]. split; [lia|]. split; [lia|]. rewrite Z.add_0_l. apply zsub_full. }
    change (ZSeqs (body C ++ [ZEnd])) with (parse_rx C) in Iw. destruct (zways (parse_rx C) s (zlen s) (0, [])) as [|w r]; [destruct Iw|]. eexists. reflexivity.
  Qed.
  Lemma grp_epoch i o k : 0 <= i -> W i (text_if (fun n => n ++ lit "!") o) -> m_group s (w_epoch i o) k = if eqb_str (lit "epoch") k then o else None.
  Proof. intros Hi Hw. destruct o as [n|]; cbn [w_epoch text_if] in *; [|destruct (eqb_str _ k); reflexivity]. apply w_app in Hw; [|exact Hi]. destruct Hw as [Hw _]. rewrite group_one, (w_zsub _ _ Hw). reflexivity. Qed.
  Lemma grp_release i u k : W i u -> m_group s (w_release i u) k = if eqb_str (lit "release") k then Some u else None.
  Proof. intros Hw. unfold w_release. rewrite group_one, (w_zsub _ _ Hw). reflexivity. Qed.
  Lemma grp_local i o k : 0 <= i -> W i (text_if (fun u => lit "+" ++ u) o) -> m_group s (w_local i o) k = if eqb_str (lit "local") k then o else None.
  Proof. intros Hi Hw. destruct o as [n|]; cbn [w_local text_if] in *; [|destruct (eqb_str _ k); reflexivity]. apply w_app in Hw; [|exact Hi]. destruct Hw as [_ Hw]. change (zlen (lit "+")) with 1 in Hw. rewrite group_one, (w_zsub _ _ Hw). reflexivity. Qed.
  (** a labelled part *)
  Lemma grp_label l n kk i s1 t s2 d k : 0 <= i -> W i (s1 ++ t ++ s2 ++ d) -> eqb_str l n = false -> eqb_str l kk = false -> eqb_str n kk = false ->
    m_group s (label_caps l n i s1 t s2 d ++ [(kk, (i, i + zlen (s1 ++ t ++ s2 ++ d)))]) k =
    if eqb_str kk k then Some (s1 ++ t ++ s2 ++ d) else if eqb_str l k then Some t else if eqb_str n k then match d with [] => None | _ => Some d end else None.
  Proof.
    intros Hi Hw N1 N2 N3. rewrite group_app, group_one, (w_zsub _ _ Hw). destruct (eqb_str kk k); [reflexivity|]. pose proof (zlen_nonneg s1). pose proof (zlen_nonneg t). pose proof (zlen_nonneg s2). apply w_app in Hw; [|lia]. destruct Hw as [_ Hw]. apply w_app in Hw; [|lia]. destruct Hw as [Ht Hw]. apply w_app in Hw; [|lia]. destruct Hw as [_ Hn].
    unfold label_caps. rewrite group_cons, group_one, (w_zsub _ _ Ht). destruct d as [|c d]; [rewrite group_nil; destruct (eqb_str l k), (eqb_str n k); reflexivity|]. rewrite group_one, (w_zsub _ _ Hn). destruct (eqb_str n k) eqn:En; [|reflexivity]. destruct (eqb_str l k) eqn:El; [|reflexivity]. apply eqb_str_eq in En, El. subst. rewrite (proj2 (eqb_str_eq k k) eq_refl) in N1. discriminate N1.
  Qed.
  Definition only_if (b : pystr) (k : pystr) (o r : option pystr) : option pystr := if eqb_str b k then o else r.
  Lemma grp_pre i (o : option (pystr * pystr)) k : 0 <= i -> W i (text_if (fun p => fst p ++ snd p) o) -> if_any (fun p => snd p <> []) o ->
    m_group s (w_pre i o) k = only_if (lit "pre") k (option_map (fun p => fst p ++ snd p) o) (only_if (lit "pre_l") k (option_map fst o) (only_if (lit "pre_n") k (option_map snd o) None)).
  Proof.
    intros Hi Hw N. unfold only_if. destruct o as [[t d]|]; cbn [w_pre text_if fst snd option_map if_any] in *; [|destruct (eqb_str _ k); [reflexivity|]; destruct (eqb_str _ k); [reflexivity|]; destruct (eqb_str _ k); reflexivity].
    pose proof (grp_label (lit "pre_l") (lit "pre_n") (lit "pre") i [] t [] d k Hi Hw eq_refl eq_refl eq_refl) as G. cbn [app] in G. destruct d; [congruence|]. exact G.
  Qed.
  Lemma grp_dev i o k : 0 <= i -> W i (text_if (fun n => lit ".dev" ++ n) o) -> if_any (fun n => n <> []) o ->
    m_group s (w_dev i o) k = only_if (lit "dev") k (option_map (fun n => lit ".dev" ++ n) o) (only_if (lit "dev_l") k (option_map (fun _ => lit "dev") o) (only_if (lit "dev_n") k o None)).
  Proof.
    intros Hi Hw N. unfold only_if. destruct o as [d|]; cbn [w_dev text_if option_map if_any] in *; [|destruct (eqb_str _ k); [reflexivity|]; destruct (eqb_str _ k); [reflexivity|]; destruct (eqb_str _ k); reflexivity].
    pose proof (grp_label (lit "dev_l") (lit "dev_n") (lit "dev") i (lit ".") (lit "dev") [] d k Hi Hw eq_refl eq_refl eq_refl) as G. destruct d; [congruence|]. exact G.
  Qed.
  Lemma grp_post i o k : 0 <= i -> W i (text_if (fun n => lit ".post" ++ n) o) -> if_any (fun n => n <> []) o ->
    m_group s (w_post i o) k = only_if (lit "post") k (option_map (fun n => lit ".post" ++ n) o) (only_if (lit "post_l") k (option_map (fun _ => lit "post") o) (only_if (lit "post_n2") k o None)).
  Proof.
    intros Hi Hw N. unfold only_if. destruct o as [d|]; cbn [w_post text_if option_map if_any] in *; [|destruct (eqb_str _ k); [reflexivity|]; destruct (eqb_str _ k); [reflexivity|]; destruct (eqb_str _ k); reflexivity].
    pose proof (grp_label (lit "post_l") (lit "post_n2") (lit "post") i (lit ".") (lit "post") [] d k Hi Hw eq_refl eq_refl eq_refl) as G. destruct d; [congruence|]. exact G.
  Qed.
  Lemma want_groups i d k : 0 <= i -> id_ok d -> W i (id_text d) -> m_group s (want i d) k =
    match only_if (lit "local") k (id_local d) None with Some x => Some x | None =>
    match only_if (lit "dev") k (option_map (fun n => lit ".dev" ++ n) (id_dev d)) (only_if (lit "dev_l") k (option_map (fun _ => lit "dev") (id_dev d)) (only_if (lit "dev_n") k (id_dev d) None)) with Some x => Some x | None =>
    match only_if (lit "post") k (option_map (fun n => lit ".post" ++ n) (id_post d)) (only_if (lit "post_l") k (option_map (fun _ => lit "post") (id_post d)) (only_if (lit "post_n2") k (id_post d) None)) with Some x => Some x | None =>
    match only_if (lit "pre") k (option_map (fun p => fst p ++ snd p) (id_pre d)) (only_if (lit "pre_l") k (option_map fst (id_pre d)) (only_if (lit "pre_n") k (option_map snd (id_pre d)) None)) with Some x => Some x | None =>
    match only_if (lit "release") k (Some (id_release d)) None with Some x => Some x | None => only_if (lit "epoch") k (id_epoch d) None end end end end end.
  Proof.
    intros Hi (_ & _ & Hp & Ho & Hv & _) Hw. unfold id_text in Hw. unfold want.
    pose proof (zlen_nonneg (text_if (fun n => n ++ lit "!") (id_epoch d))). apply w_app in Hw; [|lia]. destruct Hw as [W1 Hw].
    pose proof (zlen_nonneg (id_release d)). apply w_app in Hw; [|lia]. destruct Hw as [W2 Hw].
    pose proof (zlen_nonneg (text_if (fun p : pystr * pystr => fst p ++ snd p) (id_pre d))). apply w_app in Hw; [|lia]. destruct Hw as [W3 Hw].
    pose proof (zlen_nonneg (text_if (fun n => lit ".post" ++ n) (id_post d))). apply w_app in Hw; [|lia]. destruct Hw as [W4 Hw].
    pose proof (zlen_nonneg (text_if (fun n => lit ".dev" ++ n) (id_dev d))). apply w_app in Hw; [|lia]. destruct Hw as [W5 W6].
    rewrite !group_app. rewrite grp_local, grp_dev, grp_post, grp_pre, grp_release, grp_epoch; try assumption; try lia.
    - fold (only_if (lit "local") k (id_local d) None) (only_if (lit "epoch") k (id_epoch d) None) (only_if (lit "release") k (Some (id_release d)) None). destruct (only_if (lit "local") k _ None); [reflexivity|]. destruct (only_if (lit "dev") k _ _); [reflexivity|]. destruct (only_if (lit "post") k _ _); [reflexivity|]. destruct (only_if (lit "pre") k _ _); [reflexivity|]. destruct (only_if (lit "release") k _ _); reflexivity.
    - destruct (id_pre d) as [p|]; [|exact I]. exact (proj1 (proj2 Hp)).
    - destruct (id_post d) as [p|]; [|exact I]. exact (proj1 Ho).
    - destruct (id_dev d) as [p|]; [|exact I]. exact (proj1 Hv).
  Qed.
End Groups.
