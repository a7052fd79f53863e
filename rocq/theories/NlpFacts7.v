(** Facts for Nlp.v: what is written is matched. *)
From Verif Require Import NlpDoc PyFacts NlpFacts NlpFacts2.

Section Accepts.
  Variables (s : pystr) (e : Z).
  Hypothesis He : e <= zlen s.
  (** the text u stands at i, before e *)
  Definition stands (i : Z) (u : pystr) : Prop := written s e i u.
  Definition accepts (r : nrx) (i : Z) (u : pystr) : Prop := exists c, In (i + zlen u, c) (nways r s e i).
  Lemma stands_app i u v : stands i (u ++ v) -> stands i u /\ stands (i + zlen u) v.
  Proof.
    intros (H0 & H1 & H2). rewrite zlen_app in *. pose proof (zlen_nonneg u). pose proof (zlen_nonneg v).
    assert (E : zsub s i (i + zlen u) ++ zsub s (i + zlen u) (i + (zlen u + zlen v)) = u ++ v) by (rewrite zsub_app_split by lia; exact H2).
    apply app_eq_app in E. assert (L : zlen (zsub s i (i + zlen u)) = zlen u) by (rewrite zsub_len by lia; lia).
    assert (K : zsub s i (i + zlen u) = u /\ zsub s (i + zlen u) (i + (zlen u + zlen v)) = v).
    { destruct E as (x & [[E1 E2]|[E1 E2]]).
      - rewrite E1, zlen_app in L. assert (zlen x = 0) by lia. destruct x; [|rewrite zlen_cons in *; pose proof (zlen_nonneg x); lia]. rewrite app_nil_r in E1. cbn in E2. auto.
      - rewrite E1 in L at 2. rewrite zlen_app in L. assert (zlen x = 0) by lia. destruct x; [|rewrite zlen_cons in *; pose proof (zlen_nonneg x); lia]. rewrite app_nil_r in E1. cbn in E2. auto. }
    destruct K as [K1 K2]. split; [split; [lia|]; split; [lia|exact K1]|]. split; [lia|]. split; [lia|]. replace (i + zlen u + zlen v) with (i + (zlen u + zlen v)) by lia. exact K2.
  Qed.
  Lemma accepts_seq a b i u v : accepts a i u -> accepts b (i + zlen u) v -> accepts (NSeq a b) i (u ++ v).
  Proof. intros (c1 & H1) (c2 & H2). exists (c1 ++ c2). apply in_seq_ways. exists (i + zlen u, c1), (i + zlen u + zlen v, c2). cbn [fst snd]. rewrite zlen_app, Z.add_assoc. auto. Qed.
  Lemma accepts_alt_l a b i u : accepts a i u -> accepts (NAlt a b) i u.
  Proof. intros (c & H). exists c. cbn [nways]. apply in_or_app. auto. Qed.
  Lemma accepts_alt_r a b i u : accepts b i u -> accepts (NAlt a b) i u.
  Proof. intros (c & H). exists c. cbn [nways]. apply in_or_app. auto. Qed.
  Lemma accepts_grp k a i u : accepts a i u -> accepts (NGrp k a) i u.
  Proof. intros (c & H). eexists. apply in_grp_ways. exists (i + zlen u, c). split; [exact H|reflexivity]. Qed.
  Lemma accepts_str l i : stands i l -> accepts (NStr l) i l.
  Proof. intros (H0 & H1 & H2). exists []. apply in_str_ways. split; [|reflexivity]. unfold str_at. rewrite H2. apply andb_true_iff. split; [lia|]. apply eqb_str_eq. reflexivity. Qed.
  Lemma accepts_set ls i l : stands i l -> In l ls -> accepts (NSet ls) i l.
  Proof. intros (H0 & H1 & H2) Hl. exists []. apply in_set_ways. exists l. split; [exact Hl|]. split; [|reflexivity]. unfold str_at. rewrite H2. apply andb_true_iff. split; [lia|]. apply eqb_str_eq. reflexivity. Qed.
  Lemma stands_char i c u : stands i (c :: u) -> i < e /\ nth_error s (Z.to_nat i) = Some c.
  Proof.
    intros H. change (c :: u) with ([c] ++ u) in H. apply stands_app in H. destruct H as [(H0 & H1 & H2) _]. change (zlen [c]) with 1 in *. split; [lia|].
    destruct (nth_error s (Z.to_nat i)) as [x|] eqn:E.
    - rewrite (zsub_single s i x) in H2; [congruence|]. unfold zget. destruct (Z.ltb_spec i 0); [lia|exact E].
    - apply nth_error_None in E. unfold zlen in *. lia.
  Qed.
  Lemma accepts_cls p i c : stands i [c] -> p c = true -> accepts (NCls p) i [c].
  Proof. intros H Hp. destruct (stands_char _ _ _ H) as [H1 H2]. exists []. apply in_cls_ways. split; [|reflexivity]. unfold char_is. rewrite H2, Hp. apply andb_true_iff. split; [lia|reflexivity]. Qed.
  (** repetition *)
  Inductive rounds_of (r : nrx) : nat -> Z -> pystr -> Prop :=
  | RO_nil i : rounds_of r 0 i []
  | RO_cons n i u v : u <> [] -> accepts r i u -> rounds_of r n (i + zlen u) v -> rounds_of r (S n) i (u ++ v).
  Lemma accepts_rep least most r i u n : i <= e -> rounds_of r n i u -> (least <= n)%nat -> match most with Some m => (n <= m)%nat | None => True end -> accepts (NRep least most r) i u.
  Proof.
    intros Hi R L M. assert (G : exists c, rounds (nways r s e) n i (i + zlen u, c)).
    { clear L M Hi. induction R as [i|n i u v N (c & Hc) R (c' & IH)]; [exists []; change (zlen (@nil Z)) with 0; rewrite Z.add_0_r; constructor|]. exists (c ++ c'). rewrite zlen_app, Z.add_assoc. apply (R_more _ n i (i + zlen u, c) (i + zlen u + zlen v, c')); [exact Hc| |exact IH]. cbn [fst]. pose proof (nonempty_len u N). lia. }
    destruct G as (c & G). exists c. cbn [nways].
    assert (G' : forall f n i x, rounds f n i x -> (forall j w, j <= e -> In w (f j) -> fst w <= e) -> i <= e -> rounds (fun j => if j <=? e then f j else []) n i x).
    { clear. intros f n i x R B. induction R as [i|n i w v Hw Lw R IH]; intros Hi; [constructor|]. apply (R_more _ n i w v); [cbn beta; destruct (Z.leb_spec i e); [exact Hw|lia]|exact Lw|]. apply IH. exact (B _ _ Hi Hw). }
    assert (B : forall j w, j <= e -> In w (nways r s e j) -> fst w <= e) by (intros j w Hj Hw; apply (nways_bound s e r j w Hj Hw)).
    pose proof (rounds_rep (fun j => if j <=? e then nways r s e j else []) e) as Q. specialize (Q ltac:(intros j w; cbn beta; destruct (Z.leb_spec j e); [apply B; assumption|intros []]) n i _ (G' _ _ _ _ G B Hi) Hi (S (Z.to_nat (e - i))) least most ltac:(lia) L M).
    clear - Q Hi B. revert Q. generalize (S (Z.to_nat (e - i))) as fuel. intros fuel. generalize (i + zlen u, c) as x. revert least most i Hi. induction fuel as [|fuel IH]; intros least most i Hi x; [auto|]. cbn [rep_ways]. intros Q. apply in_or_app. apply in_app_or in Q. destruct Q as [Q|Q]; [left|right; exact Q].
    destruct most as [[|m]|]; [destruct Q| |]; apply in_then in Q; destruct Q as (w & v & Hw & Hv & ->); apply in_then; apply filter_In in Hw; destruct Hw as [Hw Lw]; (destruct (Z.leb_spec i e) in Hw; [|destruct Hw]); exists w, v; (split; [apply filter_In; auto|]; split; [|reflexivity]; apply IH; [exact (B _ _ Hi Hw)|exact Hv]).
  Qed.
  Lemma accepts_opt r i u : i <= e -> u = [] \/ (u <> [] /\ accepts r i u) -> accepts (NOpt r) i u.
  Proof.
    intros Hi [->|[N H]]; [apply (accepts_rep 0 (Some 1%nat) r i [] 0 Hi); [constructor|lia|lia]|]. rewrite <- (app_nil_r u). apply (accepts_rep 0 (Some 1%nat) r i (u ++ []) 1 Hi); [|lia|lia]. constructor; [exact N|exact H|constructor].
  Qed.
  Lemma rounds_cls p : forall u i, stands i u -> Forall (fun c => p c = true) u -> rounds_of (NCls p) (length u) i u.
  Proof.
    induction u as [|c u IH]; intros i H F; [constructor|]. inversion F as [|? ? F1 F2]; subst. change (c :: u) with ([c] ++ u) in *. apply stands_app in H. destruct H as [H1 H2]. cbn [length app]. change (c :: u) with ([c] ++ u). constructor; [discriminate|apply accepts_cls; assumption|apply IH; assumption].
  Qed.
  Lemma accepts_cls_rep p least most i u : stands i u -> Forall (fun c => p c = true) u -> (least <= length u)%nat -> match most with Some m => (length u <= m)%nat | None => True end -> accepts (NRep least most (NCls p)) i u.
  Proof. intros H F L M. apply (accepts_rep least most (NCls p) i u (length u)); [destruct H as (H0 & H1 & _); pose proof (zlen_nonneg u); lia|apply rounds_cls; assumption|exact L|exact M]. Qed.
  Lemma stands_nil i : 0 <= i <= e -> stands i [].
  Proof. intros H. unfold stands, written. change (zlen (@nil Z)) with 0. split; [lia|]. split; [lia|]. apply zsub_nil. lia. Qed.
  Lemma stands_le i u : stands i u -> 0 <= i <= e.
  Proof. intros (H0 & H1 & _). pose proof (zlen_nonneg u). lia. Qed.
End Accepts.

Section Number.
  Variables (C : classes) (point sep : pystr) (optional : bool) (s : pystr) (e : Z).
  Hypothesis He : e <= zlen s.
  Notation accepts := (accepts s e).
  Notation stands := (stands s e).
  Lemma digits_accepted i u : stands i u -> digits C u -> accepts (NPlus (NCls (cls_d C))) i u.
  Proof. intros H [N F]. apply (accepts_cls_rep s e He); [exact H|exact F|destruct u; [congruence|cbn; lia]|exact Logic.I]. Qed.
  Lemma sign_accepted i u : stands i u -> u = [] \/ sign_text u -> accepts (NOpt sign_rx) i u.
  Proof.
    intros H Hu. apply accepts_opt; [apply stands_le in H; lia|]. destruct Hu as [->|Hu]; [left; reflexivity|]. right. split; [destruct Hu as [->| ->]; discriminate|]. apply accepts_grp. destruct Hu as [->| ->]; (apply (accepts_cls s e He); [exact H|reflexivity]).
  Qed.
  Lemma space_accepted i u : stands i u -> space_opt u -> accepts (NOpt (NStr (lit " "))) i u.
  Proof. intros H Hu. apply accepts_opt; [apply stands_le in H; lia|]. destruct Hu as [->| ->]; [left; reflexivity|]. right. split; [discriminate|]. apply accepts_str. exact H. Qed.
  Lemma empty_accepted i : 0 <= i <= e -> accepts (NStr []) i [].
  Proof. intros H. apply accepts_str. apply stands_nil. exact H. Qed.
  Ltac cut_off H := match type of H with NlpFacts7.stands _ _ _ (?u ++ ?v) => apply (stands_app s e He) in H; let H' := fresh "S" in destruct H as [H' H] end.
  Lemma seqs_end r i u : stands i u -> accepts r i u -> accepts (NSeq r (NStr [])) i u.
  Proof. intros H A. rewrite <- (app_nil_r u). apply accepts_seq; [exact A|]. apply empty_accepted. destruct H as (H0 & H1 & _). pose proof (zlen_nonneg u). lia. Qed.
  Lemma exponent_accepted i m g d : stands i (m ++ g ++ d) -> mark_text m -> g = [] \/ sign_text g -> digits C d -> accepts (exponent_rx C) i (m ++ g ++ d).
  Proof.
    intros H Hm Hg Hd. apply accepts_grp. apply (stands_app s e He) in H. destruct H as [Sm H]. pose proof H as Sgd. apply (stands_app s e He) in H. destruct H as [Sg Sd].
    assert (Tail : accepts (NSeq (NOpt sign_rx) (NSeq (NPlus (NCls (cls_d C))) (NStr []))) (i + zlen m) (g ++ d)) by (apply accepts_seq; [apply sign_accepted; assumption|]; apply seqs_end; [exact Sd|]; apply digits_accepted; assumption).
    destruct Hm as [->|[->|(p & x & q & r & -> & Hp & Hq & Hr & Hx)]].
    - apply accepts_alt_l. apply accepts_seq; [apply (accepts_cls s e He); [exact Sm|reflexivity]|exact Tail].
    - apply accepts_alt_l. apply accepts_seq; [apply (accepts_cls s e He); [exact Sm|reflexivity]|exact Tail].
    - apply accepts_alt_r. unfold exp_x10_rx, NSeqs. cbn [fold_right]. rewrite <- !app_assoc. rewrite !zlen_app, !Z.add_assoc in Tail.
      cut_off Sm. cut_off Sm. cut_off Sm. cut_off Sm.
      apply accepts_seq; [apply space_accepted; assumption|]. apply accepts_seq; [destruct Hx as [->|[->| ->]]; (apply (accepts_cls s e He); [assumption|reflexivity])|].
      apply accepts_seq; [apply space_accepted; assumption|]. apply accepts_seq; [apply accepts_str; assumption|]. apply accepts_seq; [apply space_accepted; assumption|exact Tail].
  Qed.
  Lemma groups_rounds g : groups C sep g -> forall i, stands i g -> exists n, (1 <= n)%nat /\ rounds_of s e (NSeq (NStr sep) (NRep 3 (Some 3%nat) (NCls (cls_d C)))) n i g.
  Proof.
    assert (One : forall u i, digits C u -> zlen u = 3 -> stands i (sep ++ u) -> accepts (NSeq (NStr sep) (NRep 3 (Some 3%nat) (NCls (cls_d C)))) i (sep ++ u) /\ sep ++ u <> []).
    { intros u i [N F] L H. split.
      - apply (stands_app s e He) in H. destruct H as [H1 H2]. apply accepts_seq; [apply accepts_str; exact H1|]. apply (accepts_cls_rep s e He); [exact H2|exact F|unfold zlen in L; lia|unfold zlen in L; lia].
      - intros E. apply app_eq_nil in E. destruct E as [_ E]. contradiction. }
    induction 1 as [u Du Lu|u v Du Lu G IH]; intros i H.
    - destruct (One u i Du Lu H) as [A N]. exists 1%nat. split; [lia|]. rewrite <- (app_nil_r (sep ++ u)). constructor; [exact N|exact A|constructor].
    - rewrite app_assoc in H. pose proof H as H'. apply (stands_app s e He) in H'. destruct H' as [H1 H2]. destruct (One u i Du Lu H1) as [A N]. destruct (IH _ H2) as (n & Ln & R). exists (S n). split; [lia|]. rewrite app_assoc. constructor; [exact N|exact A|exact R].
  Qed.
  Lemma integer_accepted i u : stands i u -> integer_text C sep optional u -> accepts (integer_rx C sep optional) i u.
  Proof.
    intros H Hu. apply accepts_grp. assert (G : (exists v g, u = v ++ g /\ digits C v /\ zlen v <= 3 /\ groups C sep g) -> accepts (NSeq (NRep 1 (Some 3%nat) (NCls (cls_d C))) (NPlus (NSeq (NStr sep) (NRep 3 (Some 3%nat) (NCls (cls_d C)))))) i u).
    { intros (v & g & -> & [N F] & L & G). apply (stands_app s e He) in H. destruct H as [H1 H2]. apply accepts_seq; [apply (accepts_cls_rep s e He); [exact H1|exact F|destruct v; [congruence|cbn; lia]|unfold zlen in L; lia]|].
      destruct (groups_rounds g G _ H2) as (n & Ln & R). apply (accepts_rep s e 1 None _ _ _ n); [apply stands_le in H2; lia|exact R|exact Ln|exact Logic.I]. }
    destruct Hu as [Hu|[-> Hu]].
    - destruct optional; [apply accepts_alt_l|]; apply G; exact Hu.
    - apply accepts_alt_r. apply digits_accepted; assumption.
  Qed.
  Lemma decimal_accepted i u : stands i u -> decimal_text C point u -> accepts (decimal_rx C point) i u.
  Proof. intros H (v & -> & D). apply (stands_app s e He) in H. destruct H as [H1 H2]. apply accepts_grp. apply accepts_seq; [apply accepts_str; exact H1|apply digits_accepted; assumption]. Qed.
  Theorem number_accepted i n : numeral_ok C point sep optional n -> stands i (nu_text n) -> accepts (number_rx C point sep optional) i (nu_text n).
  Proof.
    intros (Hg & Hv & Hx) H. unfold nu_text, nu_exponent in *. apply accepts_grp. unfold NSeqs. cbn [fold_right].
    cut_off H. apply accepts_seq; [apply sign_accepted; assumption|]. rewrite app_assoc in *. cut_off H. apply accepts_seq.
    - destruct Hv as [[Hi Hd]|[Hi Hd]].
      + apply accepts_alt_l. cut_off S0. apply accepts_seq; [apply integer_accepted; assumption|]. apply accepts_opt; [apply stands_le in S0; lia|]. destruct Hd as [->|Hd]; [left; reflexivity|]. right. split; [|apply decimal_accepted; assumption]. intros E. pose proof (decimal_len C point _ Hd) as L. rewrite E in L. discriminate L.
      + apply accepts_alt_r. rewrite Hi in *. apply decimal_accepted; assumption.
    - apply seqs_end; [exact H|]. apply accepts_opt; [apply stands_le in H; lia|]. destruct Hx as [(-> & -> & ->)|(Hm & Hgx & Hd)]; [left; reflexivity|]. right. split; [|apply exponent_accepted; assumption]. destruct Hd as [Hd _]. destruct (nu_mark n), (nu_esign n), (nu_exp n); try discriminate; congruence.
  Qed.
End Number.
