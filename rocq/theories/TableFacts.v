(** Facts for Table.v: what the engine reads. *)
From Verif Require Import SpecTable PyFacts NlpFacts NlpFacts2 NlpFacts7 NlpFacts9.

(** the captures the pieces from position i on leave *)
Fixpoint caps_of (i : Z) (ps : list chip) : list (pystr * span) :=
  match ps with
  | [] => []
  | (d, u) :: r => match d with Some k => [(k, (i, i + zlen u))] | None => [] end ++ caps_of (i + zlen u) r
  end.
Lemma text_app p q : text_of (p ++ q) = text_of p ++ text_of q. Proof. unfold text_of. apply flat_map_app. Qed.
Lemma caps_app p : forall i q, caps_of i (p ++ q) = caps_of i p ++ caps_of (i + zlen (text_of p)) q.
Proof.
  induction p as [|[d u] p IH]; intros i q; [cbn; rewrite Z.add_0_r; reflexivity|]. cbn [app caps_of]. rewrite IH, <- app_assoc. do 2 f_equal. f_equal. cbn [text_of flat_map snd]. rewrite zlen_app. unfold text_of. lia.
Qed.
Definition clean (ps : list chip) : Prop := Forall (fun p => fst p <> Some t_indent) ps.
Lemma clean_app p q : clean p -> clean q -> clean (p ++ q). Proof. intros Hp Hq. apply Forall_app. auto. Qed.
Lemma named_app k c d : named_spans k (c ++ d) = named_spans k c ++ named_spans k d. Proof. unfold named_spans. rewrite filter_app, map_app. reflexivity. Qed.
Lemma clean_caps ps : forall i, clean ps -> named_spans t_indent (caps_of i ps) = [].
Proof.
  induction ps as [|[d u] ps IH]; intros i C; [reflexivity|]. inversion C as [|? ? N C']; subst. cbn [caps_of]. rewrite named_app, (IH _ C'), app_nil_r. destruct d as [k|]; [|reflexivity]. cbn [fst] in N. unfold named_spans. cbn [filter fst]. destruct (eqb_str k t_indent) eqn:E; [|reflexivity]. apply eqb_str_eq in E. congruence.
Qed.
Lemma last_clean c i ps : clean ps -> last_span t_indent (c ++ caps_of i ps) = last_span t_indent c.
Proof. intros C. unfold last_span. rewrite named_app, (clean_caps ps i C), app_nil_r. reflexivity. Qed.
Lemma char_is_spec p s e i : char_is p s e i = true -> i < e /\ (0 <= i -> exists c, zget s i = Some c /\ p c = true).
Proof.
  unfold char_is. rewrite andb_true_iff, Z.ltb_lt. intros [H1 H2]. split; [exact H1|]. intros H0. unfold zget. destruct (Z.ltb_spec i 0); [lia|]. destruct (nth_error s (Z.to_nat i)) as [c|]; [|discriminate H2]. exists c. auto.
Qed.
Lemma char_is_at p s e i c : i < e -> zget s i = Some c -> p c = true -> char_is p s e i = true.
Proof. intros H1 H2 H3. unfold char_is. rewrite (proj2 (Z.ltb_lt i e) H1). unfold zget in H2. destruct (Z.ltb_spec i 0); [discriminate H2|]. rewrite H2. exact H3. Qed.
Lemma line_ends_spec s e i x c : zways eol_rx s e (i, c) = x -> 0 <= i -> x <> [] -> line_ends s e i /\ x = [(i, c)].
Proof.
  unfold eol_rx, nl_rx. cbn [zways fst snd]. intros E H N. destruct ((i =? e) || ((i + 1 =? e) && char_is (Z.eqb 10) s e i)) eqn:E1.
  - cbn [app] in E. subst x. split; [|reflexivity]. apply orb_true_iff in E1. destruct E1 as [E1|E1]; [left; lia|]. apply andb_true_iff in E1. destruct E1 as [_ E1]. apply char_is_spec in E1. destruct E1 as [_ E1]. destruct (E1 H) as (c' & Hc & Q). apply Z.eqb_eq in Q. subst c'. right. exact Hc.
  - destruct (str_at [10] s e i) eqn:E2; cbn [app] in E; [|congruence]. subst x. split; [|reflexivity]. right. unfold str_at in E2. apply andb_true_iff in E2. destruct E2 as [L E2]. apply eqb_str_eq in E2. change (zlen [10]) with 1 in *.
    destruct (zget s i) as [d|] eqn:G; [rewrite (zsub_single s i d G) in E2; congruence|]. exfalso. apply zget_none in G. assert (Q : zlen (zsub s i (i + 1)) = 1) by (rewrite E2; reflexivity). unfold zsub, zlen in Q, G. rewrite firstn_length, skipn_length in Q. lia.
Qed.

Section Reads.
  Variables (s : pystr) (e : Z) (K : list (pystr * span) -> Prop) (ind : pystr).
  Hypothesis He : e <= zlen s.
  Hypothesis HK : forall c i ps, clean ps -> K c -> K (c ++ caps_of i ps).
  Definition zp (r : trx) (Q : list chip -> Prop) : Prop :=
    forall x w, 0 <= fst x <= e -> K (snd x) -> In w (zways r s e x) ->
      exists ps, Q ps /\ clean ps /\ written s e (fst x) (text_of ps) /\ w = (fst x + zlen (text_of ps), snd x ++ caps_of (fst x) ps).
  Lemma zp_imp r (Q Q' : list chip -> Prop) : (forall ps, Q ps -> Q' ps) -> zp r Q -> zp r Q'.
  Proof. intros H P x w Hx Kx Hw. destruct (P x w Hx Kx Hw) as (ps & q & R). exists ps. auto. Qed.
  Lemma zp_seq a b Qa Qb : zp a Qa -> zp b Qb -> zp (ZSeq a b) (fun ps => exists p q, ps = p ++ q /\ Qa p /\ Qb q).
  Proof.
    intros Pa Pb x w Hx Kx Hw. cbn [zways] in Hw. apply in_flat_map in Hw. destruct Hw as (y & Hy & Hw). destruct (Pa x y Hx Kx Hy) as (p & Qp & Cp & Wp & ->). cbn [fst snd] in *.
    pose proof (written_end _ _ _ _ Wp) as B. pose proof (zlen_nonneg (text_of p)) as L. destruct (Pb (fst x + zlen (text_of p), snd x ++ caps_of (fst x) p) w ltac:(cbn [fst]; lia) (HK _ _ _ Cp Kx) Hw) as (q & Qq & Cq & Wq & ->). cbn [fst snd] in *.
    exists (p ++ q). split; [exists p, q; auto|]. split; [apply clean_app; assumption|]. rewrite text_app. split; [apply written_app; [exact He|lia|auto]|]. rewrite caps_app, zlen_app, !app_assoc, !Z.add_assoc. reflexivity.
  Qed.
  Lemma zp_str l : zp (ZStr l) (fun ps => ps = [(None, l)]).
  Proof.
    intros x w Hx Kx Hw. cbn [zways] in Hw. destruct (str_at l s e (fst x)) eqn:E; [|destruct Hw]. destruct Hw as [<-|[]]. exists [(None, l)]. split; [reflexivity|]. split; [constructor; [discriminate|constructor]|]. cbn [text_of flat_map snd caps_of app]. rewrite !app_nil_r. split; [|reflexivity].
    unfold str_at in E. apply andb_true_iff in E. destruct E as [E1 E2]. apply eqb_str_eq in E2. split; [lia|]. split; [lia|exact E2].
  Qed.
  Lemma zp_nil : zp (ZStr []) (fun ps => ps = []).
  Proof.
    intros x w Hx Kx Hw. cbn [zways] in Hw. destruct (str_at [] s e (fst x)) eqn:E; [|destruct Hw]. destruct Hw as [<-|[]]. exists []. split; [reflexivity|]. split; [constructor|]. cbn. rewrite app_nil_r. split; [|reflexivity]. apply written_nil. exact Hx.
  Qed.
  Lemma zrep_reads g a (Q : list chip -> Prop) : zp a Q -> forall fuel least most x w, 0 <= fst x <= e -> K (snd x) -> In w (zrep g (zways a s e) fuel least most x) ->
    exists pss, Forall (fun ps => Q ps /\ text_of ps <> []) pss /\ (least <= length pss)%nat /\ match most with Some m => (length pss <= m)%nat | None => True end /\ clean (concat pss) /\
      written s e (fst x) (text_of (concat pss)) /\ w = (fst x + zlen (text_of (concat pss)), snd x ++ caps_of (fst x) (concat pss)).
  Proof.
    intros P. induction fuel as [|fuel IH]; intros least most x w Hx Kx Hw; [destruct Hw|]. cbn [zrep] in Hw.
    assert (S0 : In w (match least with O => [x] | S _ => [] end) -> exists pss, Forall (fun ps => Q ps /\ text_of ps <> []) pss /\ (least <= length pss)%nat /\ match most with Some m => (length pss <= m)%nat | None => True end /\ clean (concat pss) /\ written s e (fst x) (text_of (concat pss)) /\ w = (fst x + zlen (text_of (concat pss)), snd x ++ caps_of (fst x) (concat pss))).
    { intros H. destruct least; [|destruct H]. destruct H as [<-|[]]. exists []. split; [constructor|]. split; [cbn; lia|]. split; [destruct most; cbn; [lia|exact Logic.I]|]. split; [constructor|]. cbn. rewrite Z.add_0_r, app_nil_r. split; [apply written_nil; exact Hx|]. destruct x; reflexivity. }
    match type of Hw with In _ (if g then ?mm ++ _ else _) => assert (M0 : In w mm -> exists pss, Forall (fun ps => Q ps /\ text_of ps <> []) pss /\ (least <= length pss)%nat /\ match most with Some m => (length pss <= m)%nat | None => True end /\ clean (concat pss) /\ written s e (fst x) (text_of (concat pss)) /\ w = (fst x + zlen (text_of (concat pss)), snd x ++ caps_of (fst x) (concat pss))) end.
    { intros H. destruct most as [[|m]|]; [destruct H| |].
      all: apply in_flat_map in H; destruct H as (y & Hy & H); apply filter_In in Hy; destruct Hy as [Hy Ly]; destruct (P x y Hx Kx Hy) as (p & Qp & Cp & Wp & ->); cbn [fst snd] in *; pose proof (written_end _ _ _ _ Wp) as B; pose proof (zlen_nonneg (text_of p)) as L.
      all: destruct (IH _ _ (fst x + zlen (text_of p), snd x ++ caps_of (fst x) p) _ ltac:(cbn [fst]; lia) (HK _ _ _ Cp Kx) H) as (pss & F & L1 & L2 & C & W & ->); cbn [fst snd option_map] in *.
      all: exists (p :: pss); split; [constructor; [split; [exact Qp|intros E; rewrite E in Ly; change (zlen (@nil Z)) with 0 in Ly; lia]|exact F]|]; split; [cbn [length]; lia|]; split; [cbn [length]; try lia; exact Logic.I|]; cbn [concat]; split; [apply clean_app; assumption|]; rewrite text_app; split; [apply written_app; [exact He|lia|auto]|]; rewrite caps_app, zlen_app, !app_assoc, !Z.add_assoc; reflexivity. }
    destruct g; apply in_app_or in Hw; destruct Hw as [Hw|Hw]; auto.
  Qed.
  Lemma zp_rep g least most a Q : zp a Q -> zp (ZRep g least most a) (fun ps => exists pss, ps = concat pss /\ Forall (fun p => Q p /\ text_of p <> []) pss /\ (least <= length pss)%nat /\ match most with Some m => (length pss <= m)%nat | None => True end).
  Proof. intros P x w Hx Kx Hw. cbn [zways] in Hw. destruct (zrep_reads g a Q P _ _ _ _ _ Hx Kx Hw) as (pss & F & L1 & L2 & C & W & E). exists (concat pss). split; [exists pss; auto|]. auto. Qed.
  Lemma zp_opt a Q : zp a Q -> zp (ZOpt a) (fun ps => ps = [] \/ Q ps).
  Proof.
    intros P. eapply zp_imp; [|apply zp_rep; exact P]. cbn beta. intros ps (pss & -> & F & _ & L). destruct pss as [|p [|q pss]]; [left; reflexivity| |cbn in L; lia]. right. inversion F as [|? ? [Qp _] _]; subst. cbn. rewrite app_nil_r. exact Qp.
  Qed.
  (** a piece of text *)
  Definition one (L : pystr -> Prop) (ps : list chip) : Prop := exists u, ps = [(None, u)] /\ L u.
  (** patterns without groups: no captures *)
  Lemma simple_reads : forall r, simple r = true -> forall x w, 0 <= fst x <= e -> In w (zways r s e x) -> exists u, lang r u /\ written s e (fst x) u /\ w = (fst x + zlen u, snd x).
  Proof.
    induction r as [p|l|a IHa b IHb|a IHa b IHb|g least most a IHa|k a IHa|k|a IHa| |]; intros S x w Hx Hw; cbn [simple] in S; try discriminate S; cbn [zways] in Hw.
    - destruct (char_is p s e (fst x)) eqn:E; [|destruct Hw]. destruct Hw as [<-|[]]. apply char_is_spec in E. destruct E as [E1 E2]. destruct (E2 ltac:(lia)) as (c & Hc & Pc). exists [c]. split; [exists c; auto|]. split; [|reflexivity]. split; [lia|]. change (zlen [c]) with 1. split; [lia|]. apply zsub_single. exact Hc.
    - destruct (str_at l s e (fst x)) eqn:E; [|destruct Hw]. destruct Hw as [<-|[]]. unfold str_at in E. apply andb_true_iff in E. destruct E as [E1 E2]. apply eqb_str_eq in E2. exists l. split; [reflexivity|]. split; [|reflexivity]. split; [lia|]. split; [lia|exact E2].
    - apply andb_true_iff in S. destruct S as [Sa Sb]. apply in_flat_map in Hw. destruct Hw as (y & Hy & Hw). destruct (IHa Sa x y Hx Hy) as (u & Lu & Wu & ->). pose proof (written_end _ _ _ _ Wu) as B. pose proof (zlen_nonneg u). destruct (IHb Sb (fst x + zlen u, snd x) w ltac:(cbn [fst]; lia) Hw) as (v & Lv & Wv & ->). cbn [fst snd] in *. exists (u ++ v). split; [exists u, v; auto|]. split; [apply written_app; [exact He|lia|auto]|]. rewrite zlen_app, Z.add_assoc. reflexivity.
    - apply andb_true_iff in S. destruct S as [Sa Sb]. apply in_app_or in Hw. destruct Hw as [Hw|Hw]; [destruct (IHa Sa x w Hx Hw) as (u & Lu & R)|destruct (IHb Sb x w Hx Hw) as (u & Lu & R)]; exists u; (split; [cbn; auto|exact R]).
    - assert (P : forall fuel least most x w, 0 <= fst x <= e -> In w (zrep g (zways a s e) fuel least most x) -> exists us, Forall (fun v => v <> [] /\ lang a v) us /\ (least <= length us)%nat /\ match most with Some m => (length us <= m)%nat | None => True end /\ written s e (fst x) (concat us) /\ w = (fst x + zlen (concat us), snd x)).
      { clear least most x w Hx Hw. specialize (IHa S). induction fuel as [|fuel IH]; intros least most x w Hx Hw; [destruct Hw|]. cbn [zrep] in Hw.
        assert (S0 : In w (match least with O => [x] | S _ => [] end) -> exists us, Forall (fun v => v <> [] /\ lang a v) us /\ (least <= length us)%nat /\ match most with Some m => (length us <= m)%nat | None => True end /\ written s e (fst x) (concat us) /\ w = (fst x + zlen (concat us), snd x)).
        { intros H. destruct least; [|destruct H]. destruct H as [<-|[]]. exists []. split; [constructor|]. split; [cbn; lia|]. split; [destruct most; cbn; [lia|exact Logic.I]|]. cbn. rewrite Z.add_0_r. split; [apply written_nil; exact Hx|]. destruct x; reflexivity. }
        match type of Hw with In _ (if g then ?mm ++ _ else _) => assert (M0 : In w mm -> exists us, Forall (fun v => v <> [] /\ lang a v) us /\ (least <= length us)%nat /\ match most with Some m => (length us <= m)%nat | None => True end /\ written s e (fst x) (concat us) /\ w = (fst x + zlen (concat us), snd x)) end.
        { intros H. destruct most as [[|m]|]; [destruct H| |].
          all: apply in_flat_map in H; destruct H as (y & Hy & H); apply filter_In in Hy; destruct Hy as [Hy Ly]; destruct (IHa x y Hx Hy) as (u & Lu & Wu & ->); cbn [fst snd] in *; pose proof (written_end _ _ _ _ Wu) as B; pose proof (zlen_nonneg u) as L.
          all: destruct (IH _ _ (fst x + zlen u, snd x) _ ltac:(cbn [fst]; lia) H) as (us & F & L1 & L2 & W & ->); cbn [fst snd option_map] in *.
          all: exists (u :: us); split; [constructor; [split; [intros ->; change (zlen (@nil Z)) with 0 in Ly; lia|exact Lu]|exact F]|]; split; [cbn [length]; lia|]; split; [cbn [length]; try lia; exact Logic.I|]; cbn [concat]; split; [apply written_app; [exact He|lia|auto]|]; rewrite zlen_app, !Z.add_assoc; reflexivity. }
        destruct g; apply in_app_or in Hw; destruct Hw as [Hw|Hw]; auto. }
      destruct (P _ _ _ _ _ Hx Hw) as (us & F & L1 & L2 & W & E). exists (concat us). split; [exists us; auto|auto].
  Qed.
  Lemma zp_simple r : simple r = true -> zp r (one (lang r)).
  Proof.
    intros S x w Hx Kx Hw. destruct (simple_reads r S x w Hx Hw) as (u & Lu & Wu & ->). exists [(None, u)]. split; [exists u; auto|]. split; [constructor; [discriminate|constructor]|]. cbn [text_of flat_map snd caps_of app]. rewrite !app_nil_r. auto.
  Qed.
  Lemma zp_grp k r : simple r = true -> k <> t_indent -> zp (ZGrp k r) (fun ps => exists u, ps = [(Some k, u)] /\ lang r u).
  Proof.
    intros S N x w Hx Kx Hw. cbn [zways] in Hw. apply in_map_iff in Hw. destruct Hw as (y & <- & Hy). destruct (simple_reads r S x y Hx Hy) as (u & Lu & Wu & ->). cbn [fst snd]. exists [(Some k, u)]. split; [exists u; auto|]. split; [constructor; [cbn [fst]; congruence|constructor]|]. cbn [text_of flat_map snd caps_of app]. rewrite !app_nil_r. auto.
  Qed.
  (** .+? *)
  Lemma any_lang u : lang (ZPlusL ZAny) u -> u <> [].
  Proof. intros (us & -> & F & L & _). destruct us as [|v us]; [cbn in L; lia|]. inversion F as [|? ? [N _] _]; subst. destruct v; [congruence|discriminate]. Qed.
  Lemma zp_some k : k <> t_indent -> zp (ZGrp k (ZPlusL ZAny)) (fun ps => exists u, ps = [(Some k, u)] /\ u <> []).
  Proof. intros N. eapply zp_imp; [|apply zp_grp; [reflexivity|exact N]]. cbn beta. intros ps (u & -> & Lu). exists u. split; [reflexivity|exact (any_lang u Lu)]. Qed.
  Lemma zp_eol : zp eol_rx (fun ps => ps = []).
  Proof.
    intros x w Hx Kx Hw. assert (E : w = x). { unfold eol_rx in Hw. cbn [zways] in Hw. destruct (_ ++ _) in Hw; [destruct Hw|]. destruct Hw as [<-|[]]. reflexivity. }
    subst w. exists []. split; [reflexivity|]. split; [constructor|]. cbn. rewrite app_nil_r, Z.add_0_r. split; [apply written_nil; exact Hx|]. destruct x; reflexivity.
  Qed.
End Reads.
