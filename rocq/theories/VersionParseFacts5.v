(** Facts for VersionParse.v: what the groups of any match are. *)
From Verif Require Import SpecParse SpecNlp PyFacts NlpFacts NlpFacts2 NlpFacts7 NlpFacts9 TableFacts TableFacts4 TableFacts5 VersionFacts DenFacts VersionParseFacts VersionParseFacts2 VersionParseFacts3 VersionParseFacts4.
Lemma sepo_sep u : sepo u -> a_sep u.
Proof. intros [->|(c & -> & H)]; [left; reflexivity|right]. cbn in H. destruct H as [<-|[<-|[<-|[]]]]; cbn; auto. Qed.
Lemma label_some i k l n L u c s : 0 <= i -> written s (zlen s) i u -> eqb_str l n = false -> eqb_str l k = false -> eqb_str n k = false -> labelled l n k L i u c ->
  m_group s c k = Some u /\ labelled_part (m_group s c k) (m_group s c l) (m_group s c n) /\ forall x, existsb (eqb_str x) [k; l; n] = false -> m_group s c x = None.
Proof.
  intros Hi Hw N1 N2 N3 (s1 & t & s2 & d & -> & S1 & _ & S2 & F & ->). pose proof (fun x => grp_label s l n k i s1 t s2 d x Hi Hw N1 N2 N3) as G. assert (R : forall x, eqb_str x x = true) by (intros x; apply eqb_str_eq; reflexivity).
  assert (Sy : forall x y, eqb_str x y = false -> eqb_str y x = false) by (intros x y Hxy; destruct (eqb_str y x) eqn:Q; [|reflexivity]; apply eqb_str_eq in Q; subst; rewrite R in Hxy; discriminate Hxy).
  split; [rewrite G, R; reflexivity|]. split.
  - rewrite (G k), R. cbn [labelled_part]. exists s1, t, s2. rewrite (G l), (Sy _ _ N2), R, (G n), (Sy _ _ N3), N1, R. split; [destruct d; reflexivity|]. split; [reflexivity|]. split; [exact (sepo_sep _ S1)|]. split; [exact (sepo_sep _ S2)|]. destruct d; [exact I|]. split; [discriminate|exact F].
  - intros x Hx. cbn [existsb] in Hx. apply orb_false_iff in Hx. destruct Hx as [X1 Hx]. apply orb_false_iff in Hx. destruct Hx as [X2 Hx]. apply orb_false_iff in Hx. destruct Hx as [X3 _]. rewrite G, (Sy _ _ X1), (Sy _ _ X2), (Sy _ _ X3). reflexivity.
Qed.
Section Whole.
  Variable C : vclasses.
  Variable s : pystr.
  Notation W := (written s (zlen s)).
  Notation self := (text_if (fun y : pystr => y)).
  Notation g c k := (m_group s c (lit k)) (only parsing).
  Lemma none_part : labelled_part None None None. Proof. split; reflexivity. Qed.
  Lemma pre_part i u c : 0 <= i -> W i u -> den (p_pre C) i u c -> self (m_group s c (lit "pre")) = u /\ labelled_part (m_group s c (lit "pre")) (m_group s c (lit "pre_l")) (m_group s c (lit "pre_n")) /\ forall x, existsb (eqb_str x) [lit "pre"; lit "pre_l"; lit "pre_n"] = false -> m_group s c x = None.
  Proof. intros Hi Hw D. apply den_pre in D. destruct D as [[-> ->]|D]; [split; [reflexivity|]; split; [exact none_part|reflexivity]|]. destruct (label_some i (lit "pre") (lit "pre_l") (lit "pre_n") _ u c s Hi Hw eq_refl eq_refl eq_refl D) as (E & P). rewrite E at 1. split; [reflexivity|exact P]. Qed.
  Lemma dev_part i u c : 0 <= i -> W i u -> den (p_dev C) i u c -> self (m_group s c (lit "dev")) = u /\ labelled_part (m_group s c (lit "dev")) (m_group s c (lit "dev_l")) (m_group s c (lit "dev_n")) /\ forall x, existsb (eqb_str x) [lit "dev"; lit "dev_l"; lit "dev_n"] = false -> m_group s c x = None.
  Proof. intros Hi Hw D. apply den_dev in D. destruct D as [[-> ->]|D]; [split; [reflexivity|]; split; [exact none_part|reflexivity]|]. destruct (label_some i (lit "dev") (lit "dev_l") (lit "dev_n") _ u c s Hi Hw eq_refl eq_refl eq_refl D) as (E & P). rewrite E at 1. split; [reflexivity|exact P]. Qed.
  Lemma post_part i u c : 0 <= i -> W i u -> den (p_post C) i u c -> self (m_group s c (lit "post")) = u /\ post_release (m_group s c (lit "post")) (m_group s c (lit "post_n1")) (m_group s c (lit "post_l")) (m_group s c (lit "post_n2")) /\
    forall x, existsb (eqb_str x) [lit "post"; lit "post_l"; lit "post_n2"; lit "post_n1"] = false -> m_group s c x = None.
  Proof.
    intros Hi Hw D. apply den_post in D. destruct D as [[-> ->]|[(n & -> & Hn & ->)|D]].
    - split; [reflexivity|]. split; [left; split; [reflexivity|exact none_part]|reflexivity].
    - pose proof (w_zsub _ _ _ Hw) as E0. apply w_app in Hw; [|exact Hi]. destruct Hw as [_ Hw]. change (zlen (lit "-")) with 1 in Hw. assert (G : forall x, m_group s [(lit "post_n1", (i + 1, i + 1 + zlen n)); (lit "post", (i, i + zlen (lit "-" ++ n)))] x = if eqb_str (lit "post") x then Some (lit "-" ++ n) else if eqb_str (lit "post_n1") x then Some n else None).
      { intros x. rewrite group_cons, !group_one, E0, (w_zsub _ _ _ Hw). destruct (eqb_str (lit "post") x); reflexivity. }
      split; [rewrite G; reflexivity|]. split; [right; exists n; rewrite !G; repeat split; auto; apply Hn|]. intros x Hx. cbn [existsb] in Hx. apply orb_false_iff in Hx. destruct Hx as [X1 Hx]. apply orb_false_iff in Hx. destruct Hx as [X2 Hx]. apply orb_false_iff in Hx. destruct Hx as [X3 Hx]. apply orb_false_iff in Hx. destruct Hx as [X4 _]. rewrite G.
      assert (Sy : forall x y, eqb_str x y = false -> eqb_str y x = false) by (intros x' y Hxy; destruct (eqb_str y x') eqn:Q; [|reflexivity]; apply eqb_str_eq in Q; subst; rewrite (proj2 (eqb_str_eq x' x') eq_refl) in Hxy; discriminate Hxy). rewrite (Sy _ _ X1), (Sy _ _ X4). reflexivity.
    - destruct (label_some i (lit "post") (lit "post_l") (lit "post_n2") _ u c s Hi Hw eq_refl eq_refl eq_refl D) as (E & P1 & P2). rewrite E at 1. split; [reflexivity|]. split; [left; split; [apply P2; reflexivity|exact P1]|]. intros x Hx. apply P2. cbn [existsb] in Hx |- *. apply orb_false_iff in Hx. destruct Hx as [X1 Hx]. apply orb_false_iff in Hx. destruct Hx as [X2 Hx]. apply orb_false_iff in Hx. destruct Hx as [X3 Hx]. rewrite X1, X2, X3. reflexivity.
  Qed.
  Lemma epoch_part i u c : 0 <= i -> W i u -> den p_epoch i u c -> text_if (fun n => n ++ lit "!") (m_group s c (lit "epoch")) = u /\ if_any is_number (m_group s c (lit "epoch")) /\ forall x, eqb_str (lit "epoch") x = false -> m_group s c x = None.
  Proof.
    intros Hi Hw D. apply den_epoch in D. destruct D as [[-> ->]|(n & -> & Hn & ->)]; [split; [reflexivity|]; split; [exact I|reflexivity]|]. apply w_app in Hw; [|exact Hi]. destruct Hw as [Hw _]. assert (G : forall x, m_group s [(lit "epoch", (i, i + zlen n))] x = if eqb_str (lit "epoch") x then Some n else None) by (intros x; rewrite group_one, (w_zsub _ _ _ Hw); reflexivity).
    rewrite G. split; [reflexivity|]. split; [exact Hn|]. intros x Hx. rewrite G, Hx. reflexivity.
  Qed.
  Lemma local_part_ i u c : 0 <= i -> W i u -> den (p_local C) i u c -> text_if (fun n => lit "+" ++ n) (m_group s c (lit "local")) = u /\ forall x, eqb_str (lit "local") x = false -> m_group s c x = None.
  Proof.
    intros Hi Hw D. apply den_local in D. destruct D as [[-> ->]|(n & -> & Hn & ->)]; [split; reflexivity|]. apply w_app in Hw; [|exact Hi]. destruct Hw as [_ Hw]. change (zlen (lit "+")) with 1 in Hw. assert (G : forall x, m_group s [(lit "local", (i + 1, i + 1 + zlen n))] x = if eqb_str (lit "local") x then Some n else None) by (intros x; rewrite group_one, (w_zsub _ _ _ Hw); reflexivity).
    rewrite G. split; [reflexivity|]. intros x Hx. rewrite G, Hx. reflexivity.
  Qed.
  Lemma whole c : dseq (body C) 0 s c -> exists w1 pv w2 r,
    s = w1 ++ pv ++ text_if (fun n => n ++ lit "!") (m_group s c (lit "epoch")) ++ r ++ self (m_group s c (lit "pre")) ++ self (m_group s c (lit "post")) ++ self (m_group s c (lit "dev")) ++ text_if (fun u => lit "+" ++ u) (m_group s c (lit "local")) ++ w2 /\
    Forall (fun x => vc_space C x = true) (w1 ++ w2) /\ (pv = [] \/ exists x, pv = [x] /\ vc_same C 118 x = true) /\ if_any is_number (m_group s c (lit "epoch")) /\ m_group s c (lit "release") = Some r /\ release_like r /\
    labelled_part (m_group s c (lit "pre")) (m_group s c (lit "pre_l")) (m_group s c (lit "pre_n")) /\ post_release (m_group s c (lit "post")) (m_group s c (lit "post_n1")) (m_group s c (lit "post_l")) (m_group s c (lit "post_n2")) /\ labelled_part (m_group s c (lit "dev")) (m_group s c (lit "dev_l")) (m_group s c (lit "dev_n")).
  Proof.
    intros D. unfold body in D. cbn [dseq] in D.
    destruct D as (a1 & u1 & c1 & e1 & E1 & -> & D1 & a2 & u2 & c2 & e2 & -> & -> & D2 & a3 & u3 & c3 & e3 & -> & -> & D3 & a4 & u4 & c4 & e4 & -> & -> & D4 & a5 & u5 & c5 & e5 & -> & -> & D5 & a6 & u6 & c6 & e6 & -> & -> & D6 & a7 & u7 & c7 & e7 & -> & -> & D7 & a8 & u8 & c8 & e8 & -> & -> & D8 & a9 & u9 & c9 & e9 & -> & -> & D9 & -> & ->).
    assert (Hw : W 0 s) by (unfold written; rewrite Z.add_0_l, zsub_full; repeat split; lia). rewrite E1 in Hw at 3.
    apply space_run in D1. destruct D1 as [-> P1]. apply space_run in D9. destruct D9 as [-> P9]. apply den_release in D4. destruct D4 as [-> P4].
    assert (Dv : c2 = [] /\ (a2 = [] \/ exists x, a2 = [x] /\ vc_same C 118 x = true)).
    { apply den_opt in D2. destruct D2 as [[-> ->]|[_ D2]]; [auto|]. apply den_word in D2. destruct D2 as [-> D2]. split; [reflexivity|]. change (lit "v") with [118] in D2. inversion D2 as [|? x ? r Q D2']; subst. inversion D2'; subst. right. exists x. auto. }
    destruct Dv as [-> P2]. rewrite !app_nil_r in *. cbn [app] in *. 
    pose proof (zlen_nonneg a1). apply w_app in Hw; [|lia]. destruct Hw as [_ Hw]. pose proof (zlen_nonneg a2). apply w_app in Hw; [|lia]. destruct Hw as [_ Hw].
    pose proof (zlen_nonneg a3). apply w_app in Hw; [|lia]. destruct Hw as [W3 Hw]. pose proof (zlen_nonneg a4). apply w_app in Hw; [|lia]. destruct Hw as [W4 Hw]. pose proof (zlen_nonneg a5). apply w_app in Hw; [|lia]. destruct Hw as [W5 Hw].
    pose proof (zlen_nonneg a6). apply w_app in Hw; [|lia]. destruct Hw as [W6 Hw]. pose proof (zlen_nonneg a7). apply w_app in Hw; [|lia]. destruct Hw as [W7 Hw]. apply w_app in Hw; [|lia]. destruct Hw as [W8 _].
    assert (I3 : 0 <= 0 + zlen a1 + zlen a2) by lia. assert (I5 : 0 <= 0 + zlen a1 + zlen a2 + zlen a3 + zlen a4) by lia. assert (I6 : 0 <= 0 + zlen a1 + zlen a2 + zlen a3 + zlen a4 + zlen a5) by lia. assert (I7 : 0 <= 0 + zlen a1 + zlen a2 + zlen a3 + zlen a4 + zlen a5 + zlen a6) by lia. assert (I8 : 0 <= 0 + zlen a1 + zlen a2 + zlen a3 + zlen a4 + zlen a5 + zlen a6 + zlen a7) by lia.
    destruct (epoch_part _ _ _ I3 W3 D3) as (K3 & J3 & N3). destruct (pre_part _ _ _ I5 W5 D5) as (K5 & J5 & N5). destruct (post_part _ _ _ I6 W6 D6) as (K6 & J6 & N6). destruct (dev_part _ _ _ I7 W7 D7) as (K7 & J7 & N7). destruct (local_part_ _ _ _ I8 W8 D8) as (K8 & N8).
    pose proof (fun k => group_one s (0 + zlen a1 + zlen a2 + zlen a3) (0 + zlen a1 + zlen a2 + zlen a3 + zlen a4) k (lit "release")) as N4. rewrite (w_zsub _ _ _ W4) in N4.
    match goal with |- context [m_group s ?X (lit "epoch")] => set (c := X) end.
    assert (Ge : m_group s c (lit "epoch") = m_group s c3 (lit "epoch")) by (unfold c; rewrite group_app, group_cons, !group_app, N8, N7, N6, N5, N4 by reflexivity; reflexivity).
    assert (Gr : m_group s c (lit "release") = Some a4) by (unfold c; rewrite group_app, group_cons, !group_app, N8, N7, N6, N5, N4 by reflexivity; reflexivity).
    assert (Gp : forall k, existsb (eqb_str k) [lit "pre"; lit "pre_l"; lit "pre_n"] = true -> m_group s c k = m_group s c5 k).
    { intros k Hk. unfold c. rewrite group_app, group_cons, !group_app. cbn [existsb] in Hk. assert (B : k = lit "pre" \/ k = lit "pre_l" \/ k = lit "pre_n") by (apply orb_true_iff in Hk; destruct Hk as [Hk|Hk]; [apply eqb_str_eq in Hk; auto|]; apply orb_true_iff in Hk; destruct Hk as [Hk|Hk]; [apply eqb_str_eq in Hk; auto|]; apply orb_true_iff in Hk; destruct Hk as [Hk|Hk]; [apply eqb_str_eq in Hk; auto|discriminate Hk]).
      destruct B as [->|[->| ->]]; rewrite N8, N7, N6, N4, N3 by reflexivity; (match goal with |- context [m_group s c5 ?k] => destruct (m_group s c5 k); reflexivity end). }
    assert (Go : forall k, existsb (eqb_str k) [lit "post"; lit "post_l"; lit "post_n2"; lit "post_n1"] = true -> m_group s c k = m_group s c6 k).
    { intros k Hk. unfold c. rewrite group_app, group_cons, !group_app. cbn [existsb] in Hk. assert (B : k = lit "post" \/ k = lit "post_l" \/ k = lit "post_n2" \/ k = lit "post_n1") by (repeat (apply orb_true_iff in Hk; destruct Hk as [Hk|Hk]; [apply eqb_str_eq in Hk; auto|]); discriminate Hk).
      destruct B as [->|[->|[->| ->]]]; rewrite N8, N7, N5, N4, N3 by reflexivity; (match goal with |- context [m_group s c6 ?k] => destruct (m_group s c6 k); reflexivity end). }
    assert (Gd : forall k, existsb (eqb_str k) [lit "dev"; lit "dev_l"; lit "dev_n"] = true -> m_group s c k = m_group s c7 k).
    { intros k Hk. unfold c. rewrite group_app, group_cons, !group_app. cbn [existsb] in Hk. assert (B : k = lit "dev" \/ k = lit "dev_l" \/ k = lit "dev_n") by (repeat (apply orb_true_iff in Hk; destruct Hk as [Hk|Hk]; [apply eqb_str_eq in Hk; auto|]); discriminate Hk).
      destruct B as [->|[->| ->]]; rewrite N8, N6, N5, N4, N3 by reflexivity; (match goal with |- context [m_group s c7 ?k] => destruct (m_group s c7 k); reflexivity end). }
    assert (Gl : m_group s c (lit "local") = m_group s c8 (lit "local")) by (unfold c; rewrite group_app, group_cons, !group_app, N7, N6, N5, N4, N3 by reflexivity; (match goal with |- context [m_group s c8 ?k] => destruct (m_group s c8 k); reflexivity end)).
    clearbody c. rewrite Ge, Gr, Gl, (Gp (lit "pre")), (Gp (lit "pre_l")), (Gp (lit "pre_n")), (Go (lit "post")), (Go (lit "post_n1")), (Go (lit "post_l")), (Go (lit "post_n2")), (Gd (lit "dev")), (Gd (lit "dev_l")), (Gd (lit "dev_n")) by reflexivity. exists a1, a2, a9, a4. rewrite K3, K5, K6, K7, K8. split; [exact E1|]. split; [apply Forall_app; auto|]. split; [exact P2|]. split; [exact J3|]. split; [reflexivity|]. split; [exact P4|]. auto.
  Qed.
End Whole.
