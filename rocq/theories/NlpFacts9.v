(** Facts for Nlp.v: the engine as a relation. *)
From Verif Require Import NlpDoc PyFacts NlpFacts NlpFacts2 NlpFacts7.

Section Relation.
  Variables (s : pystr) (e : Z).
  Hypothesis He : e <= zlen s.
  Definition hits (r : nrx) (i j : Z) : Prop := exists c, In (j, c) (nways r s e i).
  Lemma hits_some r i : (exists j, hits r i j) <-> nways r s e i <> [].
  Proof.
    split; [intros (j & c & H) E; rewrite E in H; destruct H|]. destruct (nways r s e i) as [|[j c] ws] eqn:E; [congruence|]. intros _. exists j, c. rewrite E. left. reflexivity.
  Qed.
  Lemma hits_bound r i j : i <= e -> hits r i j -> i <= j <= e.
  Proof. intros Hi (c & H). exact (nways_bound s e r i _ Hi H). Qed.
  Lemma hits_seq a b i j : hits (NSeq a b) i j <-> exists k, hits a i k /\ hits b k j.
  Proof.
    split.
    - intros (c & H). apply in_seq_ways in H. destruct H as ([k c1] & [j' c2] & H1 & H2 & E). cbn [fst snd] in *. injection E as -> ->. exists k. split; eexists; eassumption.
    - intros (k & (c1 & H1) & (c2 & H2)). exists (c1 ++ c2). apply in_seq_ways. exists (k, c1), (j, c2). auto.
  Qed.
  Lemma hits_alt a b i j : hits (NAlt a b) i j <-> hits a i j \/ hits b i j.
  Proof.
    split; [intros (c & H); cbn [nways] in H; apply in_app_or in H; destruct H; [left|right]; eexists; eassumption|].
    intros [(c & H)|(c & H)]; exists c; cbn [nways]; apply in_or_app; auto.
  Qed.
  Lemma hits_alts l i j : hits (NAlts l) i j <-> exists r, In r l /\ hits r i j.
  Proof.
    induction l as [|r l IH]; cbn [NAlts fold_right].
    - split; [intros (c & H); destruct H|intros (r & [] & _)].
    - fold (NAlts l). rewrite hits_alt, IH. split; [intros [H|(r' & H1 & H2)]; [exists r|exists r']; split; auto; [left; reflexivity|right; exact H1]|intros (r' & [<-|H1] & H2); [left; exact H2|right; exists r'; auto]].
  Qed.
  Lemma hits_grp k a i j : hits (NGrp k a) i j <-> hits a i j.
  Proof.
    split; [intros (c & H); apply in_grp_ways in H; destruct H as ([j' c'] & H & E); cbn [fst snd] in E; injection E as -> _; eexists; exact H|].
    intros (c & H). eexists. apply in_grp_ways. exists (j, c). split; [exact H|reflexivity].
  Qed.
  Lemma hits_ahead a i j : hits (NAhead a) i j <-> j = i /\ exists k, hits a i k.
  Proof.
    rewrite hits_some. unfold hits at 1. cbn [nways]. destruct (nways a s e i) as [|w ws].
    - split; [intros (c & [])|intros [_ H]; congruence].
    - split; [intros (c & [E|[]]); injection E as <- _; split; [reflexivity|discriminate]|intros [-> _]; exists []; left; reflexivity].
  Qed.
  Lemma hits_behind want a i j : 0 <= i <= e -> hits (NBehind want a) i j <-> j = i /\ ((exists k, 0 <= k <= i /\ hits a k i) <-> want = true).
  Proof.
    intros Hi. unfold hits at 1. cbn [nways]. match goal with |- context [eqb ?b want] => set (f := b) end.
    assert (F : f = true <-> exists k, 0 <= k <= i /\ hits a k i).
    { unfold f. rewrite existsb_exists. split.
      - intros (n & Hn & H). apply existsb_exists in H. destruct H as ([k c] & H & E). cbn [fst] in E. apply Z.eqb_eq in E. subst k. apply in_seq in Hn. exists (Z.of_nat n). split; [lia|]. exists c. exact H.
      - intros (k & Hk & (c & H)). exists (Z.to_nat k). split; [apply in_seq; lia|]. apply existsb_exists. exists (i, c). rewrite Z2Nat.id by lia. split; [exact H|]. cbn. apply Z.eqb_refl. }
    rewrite <- F. clearbody f. destruct (eqb f want) eqn:E.
    - apply eqb_prop in E. subst want. split; [intros (c & [Q|[]]); injection Q as <- _; split; [reflexivity|tauto]|intros [-> _]; exists []; left; reflexivity].
    - apply eqb_false_iff in E. split; [intros (c & [])|]. intros [_ Q]. exfalso. apply E. destruct f, want; intuition congruence.
  Qed.
  Lemma hits_end i j : i <= e -> hits NEnd i j -> j = i /\ (i = e \/ (i + 1 = e /\ (0 <= i -> written s e i [10]))).
  Proof.
    intros Hi (c & H). cbn [nways] in H. destruct (_ || _) eqn:E; [|destruct H]. destruct H as [Q|[]]. injection Q as <- _. split; [reflexivity|]. apply orb_true_iff in E. destruct E as [E|E]; [left; lia|]. right. apply andb_true_iff in E. destruct E as [E1 E2]. split; [lia|].
    intros H0. unfold char_is in E2. apply andb_true_iff in E2. destruct E2 as [_ E2]. destruct (nth_error s (Z.to_nat i)) as [x|] eqn:En; [|discriminate E2]. apply Z.eqb_eq in E2. subst x. split; [lia|]. change (zlen [10]) with 1. split; [lia|]. apply zsub_single. unfold zget. destruct (Z.ltb_spec i 0); [lia|exact En].
  Qed.
  Lemma hits_at_end : hits NEnd e e.
  Proof. exists []. cbn [nways]. rewrite Z.eqb_refl. left. reflexivity. Qed.
  (** ** patterns without look-around *)
  (** r matches the texts in L *)
  Definition plain (r : nrx) (L : pystr -> Prop) : Prop := forall i j, 0 <= i <= e -> hits r i j <-> exists u, L u /\ written s e i u /\ j = i + zlen u.
  Lemma plain_imp r (L L' : pystr -> Prop) : (forall u, L u <-> L' u) -> plain r L -> plain r L'.
  Proof. intros E P i j Hi. rewrite (P i j Hi). split; intros (u & H1 & H2); exists u; (split; [apply E; exact H1|exact H2]). Qed.
  Lemma written_app i u v : 0 <= i -> written s e i (u ++ v) <-> written s e i u /\ written s e (i + zlen u) v.
  Proof.
    intros Hi. split; [apply (stands_app s e He)|]. intros [(A1 & A2 & A3) (B1 & B2 & B3)]. unfold written. rewrite zlen_app, Z.add_assoc. pose proof (zlen_nonneg u). pose proof (zlen_nonneg v). split; [lia|]. split; [lia|]. rewrite <- (zsub_app_split s i (i + zlen u) (i + zlen u + zlen v)) by lia. congruence.
  Qed.
  Lemma written_le i u : written s e i u -> 0 <= i /\ i <= e. Proof. intros (H0 & H1 & _). pose proof (zlen_nonneg u). lia. Qed.
  Lemma written_end i u : written s e i u -> i + zlen u <= e. Proof. intros (_ & H & _). exact H. Qed.
  Lemma written_nil i : 0 <= i <= e -> written s e i []. Proof. intros H. unfold written. change (zlen (@nil Z)) with 0. rewrite Z.add_0_r, zsub_nil by lia. repeat split; lia. Qed.
  Lemma plain_seq a b La Lb : plain a La -> plain b Lb -> plain (NSeq a b) (fun u => exists v w, u = v ++ w /\ La v /\ Lb w).
  Proof.
    intros Pa Pb i j Hi. rewrite hits_seq. split.
    - intros (k & Ha & Hb). pose proof (hits_bound a i k (proj2 Hi) Ha) as B. apply (Pa i k Hi) in Ha. apply (Pb k j ltac:(lia)) in Hb. destruct Ha as (v & Lv & Wv & ->). destruct Hb as (w & Lw & Ww & ->). exists (v ++ w). split; [exists v, w; auto|]. split; [apply written_app; [lia|]; auto|rewrite zlen_app; lia].
    - intros (u & (v & w & -> & Lv & Lw) & W & ->). apply written_app in W; [|lia]. destruct W as [Wv Ww]. exists (i + zlen v). split; [apply (Pa i _ Hi); exists v; auto|]. apply Pb; [apply written_le in Ww; lia|]. exists w. split; [exact Lw|]. split; [exact Ww|rewrite zlen_app; lia].
  Qed.
  Lemma plain_alt a b La Lb : plain a La -> plain b Lb -> plain (NAlt a b) (fun u => La u \/ Lb u).
  Proof.
    intros Pa Pb i j Hi. rewrite hits_alt, (Pa i j Hi), (Pb i j Hi). split; [intros [(u & H1 & H2)|(u & H1 & H2)]; exists u; auto|]. intros (u & [H1|H1] & H2); [left|right]; exists u; auto.
  Qed.
  Lemma plain_cls p : plain (NCls p) (fun u => exists c, u = [c] /\ p c = true).
  Proof.
    intros i j Hi. split.
    - intros (c & H). pose proof (reads_cls s e p i _ Hi H) as (_ & x & E & Px). apply in_cls_ways in H. destruct H as [Hc Q]. injection Q as -> _. cbn [fst] in E. exists [x]. split; [exists x; auto|]. split; [|reflexivity]. unfold char_is in Hc. apply andb_true_iff in Hc. destruct Hc as [Hc _]. split; [lia|]. change (zlen [x]) with 1. split; [lia|exact E].
    - intros (u & (x & -> & Px) & W & ->). exact (accepts_cls s e He p i x W Px).
  Qed.
  Lemma plain_set ls : plain (NSet ls) (fun u => In u ls).
  Proof.
    intros i j Hi. split.
    - intros (c & H). apply in_set_ways in H. destruct H as (l & Hl & Hs & E). injection E as -> _. exists l. split; [exact Hl|]. split; [|reflexivity]. unfold str_at in Hs. apply andb_true_iff in Hs. destruct Hs as [H1 H2]. apply eqb_str_eq in H2. split; [lia|]. split; [lia|exact H2].
    - intros (u & Hu & W & ->). exact (accepts_set s e ls i u W Hu).
  Qed.
  Lemma plain_str l : plain (NStr l) (fun u => u = l).
  Proof.
    intros i j Hi. split.
    - intros (c & H). apply in_str_ways in H. destruct H as (Hs & E). injection E as -> _. exists l. split; [reflexivity|]. split; [|reflexivity]. unfold str_at in Hs. apply andb_true_iff in Hs. destruct Hs as [H1 H2]. apply eqb_str_eq in H2. split; [lia|]. split; [lia|exact H2].
    - intros (u & -> & W & ->). exact (accepts_str s e l i W).
  Qed.
  Lemma plain_chars cs : plain (NChars cs) (fun u => exists c, u = [c] /\ In c cs).
  Proof. eapply plain_imp; [|apply plain_set]. intros u. rewrite in_map_iff. split; intros (c & H1 & H2); exists c; auto. Qed.
  Lemma plain_rep least r L : plain r L -> (forall u, L u -> u <> []) -> plain (NRep least None r) (fun u => exists us, (least <= length us)%nat /\ u = concat us /\ Forall L us).
  Proof.
    intros P N i j Hi. split.
    - intros (c & H). cbn [nways] in H. apply rep_rounds in H. destruct H as (n & Ln & _ & R). remember (j, c) as x eqn:Ex. assert (Ej : j = fst x) by (subst x; reflexivity). rewrite Ej. clear Ex Ej j c.
      assert (G : exists us, length us = n /\ Forall L us /\ written s e i (concat us) /\ fst x = i + zlen (concat us)).
      { clear Ln. revert Hi. induction R as [i|n i [k c] v Hw Lw R IH]; intros Hi.
        - exists []. split; [reflexivity|]. split; [constructor|]. cbn [fst concat]. split; [apply written_nil; lia|]. change (zlen (@nil Z)) with 0. lia.
        - cbn [fst snd] in *. pose proof (nways_bound s e r i (k, c) ltac:(lia) Hw) as B. cbn [fst] in B. destruct (proj1 (P i k Hi)) as (u & Lu & Wu & ->); [exists c; exact Hw|]. destruct (IH ltac:(lia)) as (us & L1 & L2 & L3 & L4). exists (u :: us). cbn [length concat fst]. split; [lia|]. split; [constructor; assumption|]. split; [apply written_app; [lia|]; auto|]. rewrite L4, zlen_app. lia. }
      destruct G as (us & <- & G2 & G3 & G4). exists (concat us). split; [exists us; auto|]. auto.
    - intros (u & (us & Ln & -> & F) & W & ->). apply (accepts_rep s e least None r i (concat us) (length us)); [lia| |exact Ln|exact Logic.I].
      clear Ln. revert i Hi W. induction F as [|u us Lu F IH]; intros i Hi W; [constructor|]. cbn [concat length] in *. apply written_app in W; [|lia]. destruct W as [Wu Wr]. constructor; [apply N; exact Lu| |apply IH; [apply written_le in Wr; lia|exact Wr]]. apply P; [exact Hi|]. exists u. auto.
  Qed.
  Lemma plain_star_chars cs : plain (NStar (NChars cs)) (fun u => Forall (fun c => In c cs) u).
  Proof.
    eapply plain_imp; [|apply plain_rep; [apply plain_chars|intros u (c & -> & _); discriminate]]. intros u. split.
    - intros (us & _ & -> & F). induction F as [|v us (c & -> & Hc) F IH]; [constructor|]. cbn. constructor; assumption.
    - intros F. exists (map (fun c => [c]) u). split; [lia|]. induction F as [|c u Hc F [IH1 IH2]]; [split; [reflexivity|constructor]|]. cbn. split; [f_equal; exact IH1|constructor; [exists c; auto|exact IH2]].
  Qed.
  Lemma plain_cls_rep least p : plain (NRep least None (NCls p)) (fun u => (least <= length u)%nat /\ Forall (fun c => p c = true) u).
  Proof.
    eapply plain_imp; [|apply plain_rep; [apply plain_cls|intros u (c & -> & _); discriminate]]. intros u. split.
    - intros (us & L & -> & F). assert (G : length (concat us) = length us /\ Forall (fun c => p c = true) (concat us)); [|destruct G as [-> G]; auto]. clear L. induction F as [|v us (c & -> & Hc) F [IH1 IH2]]; [split; [reflexivity|constructor]|]. cbn. split; [lia|constructor; assumption].
    - intros (L & F). exists (map (fun c => [c]) u). rewrite map_length. split; [exact L|]. clear L. induction F as [|c u Hc F [IH1 IH2]]; [split; [reflexivity|constructor]|]. cbn. split; [f_equal; exact IH1|constructor; [exists c; auto|exact IH2]].
  Qed.
  Lemma plain_alts l (Ls : list (pystr -> Prop)) : Forall2 plain l Ls -> plain (NAlts l) (fun u => Exists (fun L => L u) Ls).
  Proof.
    intros F. induction F as [|r L l Ls P F IH]; cbn [NAlts fold_right].
    - eapply plain_imp; [|apply plain_set]. intros u. split; [intros []|intros H; inversion H].
    - fold (NAlts l). eapply plain_imp; [|apply (plain_alt _ _ _ _ P IH)]. cbn beta. intros u. split; [intros [H|H]; [left|right]; exact H|intros H; inversion H; auto].
  Qed.
  (** plain patterns at a given end *)
  Lemma plain_some r L i : plain r L -> 0 <= i <= e -> (exists k, hits r i k) <-> exists u, L u /\ written s e i u.
  Proof. intros P Hi. split; [intros (k & H); apply (P i k Hi) in H; destruct H as (u & H1 & H2 & _); exists u; auto|]. intros (u & H1 & H2). exists (i + zlen u). apply (P i _ Hi). exists u. auto. Qed.
  Lemma plain_before r L i : plain r L -> 0 <= i <= e -> (exists k, 0 <= k <= i /\ hits r k i) <-> exists u, L u /\ ends_in s i u.
  Proof.
    intros P Hi. split.
    - intros (k & Hk & H). apply (P k i ltac:(lia)) in H. destruct H as (u & Lu & (W0 & W1 & W2) & E). exists u. split; [exact Lu|]. unfold ends_in, written. replace (i - zlen u) with k by lia. split; [lia|]. split; [lia|exact W2].
    - intros (u & Lu & (W0 & W1 & W2)). pose proof (zlen_nonneg u). exists (i - zlen u). split; [lia|]. apply (P (i - zlen u) i ltac:(lia)). exists u. split; [exact Lu|]. split; [|lia]. split; [lia|]. split; [lia|exact W2].
  Qed.
  (** greedy repetition ends where no further round is possible *)
  Lemma rep_head r : (forall i w, In w (nways r s e i) -> i < fst w) -> forall fuel i, i <= e -> (Z.to_nat (e - i) < fuel)%nat ->
    exists w ws, rep_ways (nways r s e) fuel 0 None i = w :: ws /\ i <= fst w <= e /\ nways r s e (fst w) = [].
  Proof.
    intros Go. assert (Fi : forall i, filter (fun w => i <? fst w) (nways r s e i) = nways r s e i).
    { intros i. pose proof (Go i) as G. induction (nways r s e i) as [|w ws IH]; [reflexivity|]. cbn. destruct (Z.ltb_spec i (fst w)) as [L|L]; [f_equal; apply IH; intros v Hv; apply G; right; exact Hv|]. specialize (G w (or_introl eq_refl)). lia. }
    induction fuel as [|fuel IH]; intros i Hi Hf; [lia|]. cbn [rep_ways Nat.pred option_map]. rewrite Fi. destruct (nways r s e i) as [|w ws] eqn:E.
    - exists (i, []), []. split; [reflexivity|]. cbn [fst]. split; [lia|exact E].
    - pose proof (nways_bound s e r i w Hi ltac:(rewrite E; left; reflexivity)) as B. pose proof (Go i w ltac:(rewrite E; left; reflexivity)) as Lw. destruct (IH (fst w) ltac:(lia) ltac:(lia)) as (v & vs & E1 & B1 & E2).
      unfold then_. cbn [flat_map]. rewrite E1. cbn [map app]. eexists _, _. split; [reflexivity|]. cbn [fst]. split; [lia|exact E2].
  Qed.
End Relation.
