(** Facts for Nlp.v: what a document holds. *)
From Verif Require Import NlpDoc PyFacts HeapFacts4 ArborFacts3 ArborFacts4 NlpFacts NlpFacts2 NlpFacts3 NlpFacts5 NlpFacts6 NlpFacts7 NlpFacts8 NlpFacts9 NlpFacts10 NlpFacts11 NlpFacts12 NlpFacts13 NlpFacts14.

Section Toks.
  Variables (C : classes) (s : pystr).
  Definition spans_ok (x : span) (t : tree) : Prop := t_start t = fst x /\ t_stop t = snd x.
  Lemma tokens_nums : forall nums a b, incl nums (tokens C s a nums b).
  Proof. induction nums as [|t nums IH]; intros a b u Hu; [destruct Hu|]. cbn [tokens]. apply in_or_app. right. destruct Hu as [<-|Hu]; [left; reflexivity|right; apply IH; exact Hu]. Qed.
  Lemma tokens_from : forall sp nums a b u, Forall2 spans_ok sp nums -> ordered a sp b -> In u (tokens C s a nums b) ->
    In u nums \/ exists a' b', In u (words C s a' b') /\ a <= a' /\ b' <= b /\ (b' = b \/ exists v, In v nums /\ t_start v = b').
  Proof.
    intros sp nums a b u F. revert a. induction F as [|x t sp nums [F1 F2] F IH]; intros a O Hu; cbn [tokens] in Hu.
    - right. exists a, b. cbn in O. split; [exact Hu|]. split; [lia|]. split; [lia|left; reflexivity].
    - destruct x as [p q]. cbn [fst snd] in *. cbn in O. destruct O as (O1 & O2 & O3). pose proof (ordered_le _ _ _ O3) as L. apply in_app_or in Hu. destruct Hu as [Hu|[<-|Hu]].
      + right. exists a, (t_start t). split; [exact Hu|]. split; [lia|]. split; [lia|]. right. exists t. split; [left; reflexivity|reflexivity].
      + left. left. reflexivity.
      + rewrite F2 in Hu. destruct (IH q O3 Hu) as [H|(a' & b' & H1 & H2 & H3 & H4)]; [left; right; exact H|]. right. exists a', b'. split; [exact H1|]. split; [lia|]. split; [lia|]. destruct H4 as [H4|(v & Hv & Ev)]; [left; exact H4|right; exists v; split; [right; exact Hv|exact Ev]].
  Qed.
  Lemma tokens_at : forall sp nums a b k, Forall2 spans_ok sp nums -> ordered a sp b -> a <= k < b ->
    (exists v, In v nums /\ takes_in v k) \/ exists a' b', a <= a' <= k /\ k < b' /\ b' <= b /\ incl (words C s a' b') (tokens C s a nums b).
  Proof.
    intros sp nums a b k F. revert a. induction F as [|x t sp nums [F1 F2] F IH]; intros a O Hk; cbn [tokens].
    - right. exists a, b. split; [lia|]. split; [lia|]. split; [lia|apply incl_refl].
    - destruct x as [p q]. cbn [fst snd] in *. cbn in O. destruct O as (O1 & O2 & O3). pose proof (ordered_le _ _ _ O3) as L. destruct (Z.lt_ge_cases k p).
      + right. exists a, p. split; [lia|]. split; [lia|]. split; [lia|]. rewrite F1. apply incl_appl, incl_refl.
      + destruct (Z.lt_ge_cases k q); [left; exists t; split; [left; reflexivity|unfold takes_in; lia]|]. destruct (IH q O3 ltac:(lia)) as [(v & Hv & T)|(a' & b' & H1 & H2 & H3 & H4)]; [left; exists v; split; [right; exact Hv|exact T]|].
        right. exists a', b'. split; [lia|]. split; [lia|]. split; [lia|]. rewrite F2. apply incl_appr, incl_tl. exact H4.
  Qed.
End Toks.

Definition le_before (a b : tree) : Prop := t_stop a <= t_start b.
Lemma SS_imp {A} (R Q : A -> A -> Prop) l : (forall x y, In x l -> In y l -> R x y -> Q x y) -> StronglySorted R l -> StronglySorted Q l.
Proof.
  intros H SS. induction SS as [|x l SS IH F]; constructor.
  - apply IH. intros y z Hy Hz. apply H; right; assumption.
  - rewrite Forall_forall in *. intros y Hy. apply H; [left; reflexivity|right; exact Hy|apply F; exact Hy].
Qed.
Lemma kids_le l : StronglySorted le_before l -> Forall twf l -> StronglySorted le_before (flat_map t_kids l) /\ Forall twf (flat_map t_kids l).
Proof.
  intros SS. induction SS as [|x l SS IH F]; intros W; [split; constructor|]. inversion W as [|? ? Wx W']; subst. destruct (IH W') as [I1 I2]. destruct x as [f ts]. apply twf_unfold in Wx. destruct Wx as (_ & S1 & S2 & S3). cbn [flat_map t_kids]. split; [|apply Forall_app; split; assumption].
  apply SS_app; [eapply SS_imp; [|exact S1]; intros y z _ _ [_ Q]; exact Q|exact I1|].
  intros u v Hu Hv. rewrite Forall_forall in S2. specialize (S2 u Hu). apply in_flat_map in Hv. destruct Hv as (y & Hy & Hv). rewrite Forall_forall in F, W'. specialize (F y Hy). specialize (W' y Hy). destruct y as [fy ty]. apply twf_unfold in W'. destruct W' as (_ & _ & Q & _). rewrite Forall_forall in Q. specialize (Q v Hv). unfold t_fits, le_before in *. lia.
Qed.

Section Doc.
  Variables (C : classes) (point sep : pystr) (optional : bool) (s : pystr).
  Notation numrx := (number_rx C point sep optional).
  Notation is_num := (is_number C point sep optional s).
  Notation is_sent := (is_sentence C point sep optional s).
  Notation is_para := (is_paragraph C point sep optional s).
  Notation is_doc := (is_document C point sep optional s).
  Lemma nums_spans a b nums : 0 <= a <= b -> b <= zlen s -> Forall2 is_num (found_spans numrx s a b) nums -> Forall2 spans_ok (found_spans numrx s a b) nums.
  Proof.
    intros Ha Hb. pose proof (found_ordered numrx s a b ltac:(lia)) as O. fold (found_spans numrx s a b) in O. revert O. generalize (found_spans numrx s a b) as sp. intros sp O F. revert O. assert (A0 : a <= a) by lia. revert A0. generalize a at 2 3 as a0. induction F as [|x t sp nums (n & On & Et & ->) F IH]; intros a0 A0 O; constructor.
    - destruct x as [p q]. cbn in O. destruct O as (O1 & O2 & O3). apply ordered_le in O3. destruct (num_tree_span s n p) as (T1 & T2 & _). cbn [fst snd] in *. split; [exact T1|]. pose proof (zsub_len s p q ltac:(lia) ltac:(lia) ltac:(lia)) as Lq. rewrite Et in Lq. rewrite T2. cbn [snd]. lia.
    - destruct x as [p q]. cbn in O. destruct O as (O1 & O2 & O3). apply (IH q); [cbn [fst snd] in *; lia|exact O3].
  Qed.
  (** a sentence of the document *)
  Lemma sent_of t q : is_doc t -> In q (sentences t) -> exists y nums, 0 <= t_start q <= t_stop q /\ t_stop q <= zlen s /\ y = (t_start q, t_stop q) /\
    Forall2 is_num (found_spans numrx s (t_start q) (t_stop q)) nums /\ Forall2 spans_ok (found_spans numrx s (t_start q) (t_stop q)) nums /\ t_kids q = tokens C s (t_start q) nums (t_stop q).
  Proof.
    intros Ht Hq. rewrite (doc_sentences _ _ _ _ _ t Ht) in Hq. apply in_flat_map in Hq. destruct Hq as (p & Hp & Hq). destruct (para_in _ _ _ _ _ t p Ht Hp) as (x & Px & B1 & B2).
    destruct (sent_in _ _ _ _ _ p q x Px B1 B2 Hq) as ([u v] & (nums & F & ->) & B3 & B4). cbn [fst snd] in *. exists (u, v), nums. unfold t_start, t_stop. cbn [t_f at_ f_start f_stop t_kids].
    split; [lia|]. split; [lia|]. split; [reflexivity|]. split; [exact F|]. split; [apply nums_spans; [lia|lia|exact F]|reflexivity].
  Qed.
  Lemma num_ordered a b : a <= b -> ordered a (found_spans numrx s a b) b. Proof. intros H. exact (found_ordered numrx s a b H). Qed.
  Lemma words_desc a b u : In u (words C s a b) -> desc_is word_desc u = true /\ desc_is number_desc u = false.
  Proof. intros H. unfold words in H. apply in_map_iff in H. destruct H as (x & <- & _). split; reflexivity. Qed.
  Lemma num_desc x v : is_num x v -> desc_is number_desc v = true /\ desc_is word_desc v = false.
  Proof. intros (n & _ & _ & ->). split; reflexivity. Qed.
  Lemma in_nums t q y nums v : is_doc t -> 0 <= t_start q <= t_stop q -> t_stop q <= zlen s -> Forall2 is_num (found_spans numrx s (t_start q) (t_stop q)) nums ->
    Forall2 spans_ok (found_spans numrx s (t_start q) (t_stop q)) nums -> t_kids q = tokens C s (t_start q) nums (t_stop q) -> y = tt -> In v (t_kids q) -> desc_is number_desc v = true -> In v nums.
  Proof.
    intros _ B1 B2 F Fs K _ Hv D. rewrite K in Hv. destruct (tokens_from C s _ _ _ _ v Fs (num_ordered (t_start q) (t_stop q) ltac:(lia)) Hv) as [H|(a' & b' & H & _)]; [exact H|]. apply words_desc in H. destruct H as [_ H]. congruence.
  Qed.
  (** numbers *)
  Theorem number_nodes t q v : is_doc t -> In q (sentences t) -> In v (t_kids q) -> desc_is number_desc v = true ->
    In (t_start v, t_stop v) (found_spans numrx s (t_start q) (t_stop q)) /\
    exists n, numeral_ok C point sep optional n /\ v = num_tree s (t_start v) n /\ written s (t_stop q) (t_start v) (nu_text n) /\ t_start q <= t_start v.
  Proof.
    intros Ht Hq Hv D. destruct (sent_of t q Ht Hq) as (y & nums & B1 & B2 & _ & F & Fs & K). pose proof (in_nums t q tt nums v Ht B1 B2 F Fs K eq_refl Hv D) as Hn.
    assert (F' : Forall2 (fun x t => is_num x t /\ spans_ok x t) (found_spans numrx s (t_start q) (t_stop q)) nums).
    { clear - F Fs. revert Fs. induction F as [|x t l l' H F IH]; intros Fs; inversion Fs; subst; constructor; auto. }
    destruct (Forall2_in_r _ _ _ v F' Hn) as ([i j] & Hx & (n & On & Et & Ev) & Sx & Sy). cbn [fst snd] in *. rewrite <- Sx, <- Sy in Hx. split; [exact Hx|]. exists n. split; [exact On|]. split; [rewrite Sx; exact Ev|].
    destruct (ordered_in _ _ _ _ (num_ordered (t_start q) (t_stop q) ltac:(lia)) Hx) as (I1 & I2). cbn [fst snd] in *. split; [|lia]. destruct (num_tree_span s n i) as (T1 & T2 & _).
    unfold written. rewrite <- Ev in T2. rewrite Sx, <- T2. rewrite Sy. split; [lia|]. split; [lia|exact Et].
  Qed.
  Theorem numbers_all t q n i : is_doc t -> In q (sentences t) -> numeral_ok C point sep optional n -> t_start q <= i -> written s (t_stop q) i (nu_text n) ->
    exists v, In v (t_kids q) /\ desc_is number_desc v = true /\ takes_in v i.
  Proof.
    intros Ht Hq On Hi W. destruct (sent_of t q Ht Hq) as (y & nums & B1 & B2 & _ & F & Fs & K). destruct (number_accepted C point sep optional s (t_stop q) B2 i n On W) as (c & Hc).
    pose proof (written_le _ _ _ _ W) as [W1 W2]. destruct (found_gap numrx s (t_start q) (t_stop q) i ltac:(lia)) as [(m & Hm & Q)|N]; [|rewrite N in Hc; destruct Hc].
    destruct (number_match C point sep optional s (t_start q) (t_stop q) m ltac:(lia) B2 Hm) as (n' & _ & _ & _ & Lm).
    assert (Hx : In (fst m) (found_spans numrx s (t_start q) (t_stop q))) by (apply in_map; exact Hm). destruct (Forall2_in_l _ _ _ _ Fs Hx) as (v & Hv & S1 & S2). exists v.
    split; [rewrite K; apply tokens_nums; exact Hv|]. destruct (Forall2_in_r _ _ _ v F Hv) as (x' & _ & Q'). split; [apply (num_desc x' v Q')|]. unfold takes_in. lia.
  Qed.
  Theorem numbers_longest t q v n : is_doc t -> sane_marks C point sep -> In q (sentences t) -> In v (t_kids q) -> desc_is number_desc v = true ->
    numeral_ok C point sep optional n -> written s (t_stop q) (t_start v) (nu_text n) -> t_start v + zlen (nu_text n) <= t_stop v.
  Proof.
    intros Ht (p & pr & p' & qr & Ep & Eq & M1 & M2 & M3) Hq Hv D On W. destruct (number_nodes t q v Ht Hq Hv D) as (Hx & _). destruct (sent_of t q Ht Hq) as (y & nums & B1 & B2 & _).
    rewrite Ep, Eq in Hx, On. exact (found_longest C p pr p' qr optional s _ _ _ B2 (proj1 B1) M1 M2 M3 Hx n On W).
  Qed.
  (** words *)
  Theorem word_facts t q u : is_doc t -> In q (sentences t) -> In u (t_kids q) -> desc_is word_desc u = true ->
    word_text C (zsub s (t_start u) (t_stop u)) /\
    forall j c, joint C j -> cls_w C c = true -> written s (t_stop q) (t_stop u) (j ++ [c]) -> exists v, In v (t_kids q) /\ desc_is number_desc v = true /\ t_stop u <= t_start v < t_stop u + zlen (j ++ [c]).
  Proof.
    intros Ht Hq Hu D. destruct (sent_of t q Ht Hq) as (y & nums & B1 & B2 & _ & F & Fs & K). rewrite K in Hu. destruct (tokens_from C s _ _ _ _ u Fs (num_ordered (t_start q) (t_stop q) ltac:(lia)) Hu) as [H|(a' & b' & H & Ha & Hb & Hv)].
    - exfalso. destruct (Forall2_in_r _ _ _ u F H) as (x & _ & Q). apply num_desc in Q. destruct Q as [_ Q]. congruence.
    - destruct (words_text C s b' ltac:(lia) a' u ltac:(lia) H) as (T1 & T2 & T3 & T4). split; [exact T1|]. intros j c Hj Hc W. destruct (Z.le_gt_cases (t_stop u + zlen (j ++ [c])) b') as [L|L].
      + exfalso. apply (T4 j c Hj Hc). destruct W as (W1 & W2 & W3). split; [exact W1|]. split; [exact L|exact W3].
      + destruct Hv as [->|(v & Hv & Ev)]; [destruct W as (_ & W & _); lia|]. exists v. split; [rewrite K; apply tokens_nums; exact Hv|]. destruct (Forall2_in_r _ _ _ v F Hv) as (x' & _ & Q'). split; [apply (num_desc x' v Q')|lia].
  Qed.
  Theorem token_at t q k c : is_doc t -> sane C -> In q (sentences t) -> takes_in q k -> zget s k = Some c -> cls_w C c = true -> exists u, In u (t_kids q) /\ takes_in u k.
  Proof.
    intros Ht _ Hq Hk Hc Hw. destruct (sent_of t q Ht Hq) as (y & nums & B1 & B2 & _ & F & Fs & K). destruct (tokens_at C s _ _ _ _ k Fs (num_ordered (t_start q) (t_stop q) ltac:(lia)) Hk) as [(v & Hv & T)|(a' & b' & H1 & H2 & H3 & H4)].
    - exists v. split; [rewrite K; apply tokens_nums; exact Hv|exact T].
    - destruct (words_cover C s b' ltac:(lia) a' k c ltac:(lia) H2 Hc Hw) as (u & Hu & T). exists u. split; [rewrite K; apply H4; exact Hu|exact T].
  Qed.
  Theorem all_covered t k c : is_doc t -> sane C -> zget s k = Some c -> cls_w C c = true -> exists u, In u (all_tokens t) /\ takes_in u k.
  Proof.
    intros Ht S Hc Hw. destruct (in_sentence _ _ _ _ _ t k c Ht Hc) as (q & Hq & T); [intros B; rewrite (proj1 S c B) in Hw; discriminate Hw|]. destruct (token_at t q k c Ht S Hq T Hc Hw) as (u & Hu & Tu). exists u. split; [|exact Tu].
    rewrite (doc_tokens _ _ _ _ _ t Ht). rewrite (doc_sentences _ _ _ _ _ t Ht) in Hq. apply in_flat_map. exists q. auto.
  Qed.
  Lemma token_spans t : is_doc t -> Forall (fun u => t_start u < t_stop u) (all_tokens t).
  Proof.
    intros Ht. rewrite (doc_tokens _ _ _ _ _ t Ht). apply Forall_forall. intros u Hu. apply in_flat_map in Hu. destruct Hu as (q & Hq & Hu). rewrite <- (doc_sentences _ _ _ _ _ t Ht) in Hq.
    destruct (sent_of t q Ht Hq) as (y & nums & B1 & B2 & _ & F & Fs & K). pose proof Hu as Hu'. rewrite K in Hu. destruct (tokens_from C s _ _ _ _ u Fs (num_ordered (t_start q) (t_stop q) ltac:(lia)) Hu) as [H|(a' & b' & H & Ha & Hb & Hv)].
    - destruct (Forall2_in_r _ _ _ u Fs H) as (x & Hx & S1 & S2). unfold found_spans in Hx. apply in_map_iff in Hx. destruct Hx as (m & <- & Hm). destruct (number_match C point sep optional s (t_start q) (t_stop q) m ltac:(lia) B2 Hm) as (n' & _ & _ & _ & Lm). lia.
    - destruct (words_text C s b' ltac:(lia) a' u ltac:(lia) H) as (_ & T2 & _). lia.
  Qed.
  Theorem tokens_sorted t : is_doc t -> twf t -> StronglySorted t_before (all_tokens t).
  Proof.
    intros Ht W. pose proof (token_spans t Ht) as Sp. rewrite (doc_tokens _ _ _ _ _ t Ht) in *. destruct (kids_le [t]) as [S1 W1]; [constructor; constructor|constructor; [exact W|constructor]|]. cbn [flat_map] in S1, W1. rewrite app_nil_r in S1, W1.
    destruct (kids_le _ S1 W1) as [S2 W2]. destruct (kids_le _ S2 W2) as [S3 _]. eapply SS_imp; [|exact S3]. intros x y Hx Hy L. rewrite Forall_forall in Sp. specialize (Sp x Hx). unfold le_before in L. split; lia.
  Qed.
  (** with optional separators every digit is in a number *)
  Theorem digit_number t q k c : is_doc t -> optional = true -> In q (sentences t) -> takes_in q k -> zget s k = Some c -> cls_d C c = true -> exists v, In v (t_kids q) /\ desc_is number_desc v = true /\ takes_in v k.
  Proof.
    intros Ht Ho Hq Hk Hc Hd. destruct (sent_of t q Ht Hq) as (y & nums & B1 & B2 & _). apply (numbers_all t q (Num [] [c] [] [] [] []) k Ht Hq).
    - split; [left; reflexivity|]. cbn. split; [left; split; [right; split; [exact Ho|split; [discriminate|constructor; [exact Hd|constructor]]]|left; reflexivity]|left; auto].
    - unfold takes_in in Hk. lia.
    - unfold takes_in in Hk. unfold nu_text, nu_exponent. cbn [nu_sign nu_int nu_dec nu_mark nu_esign nu_exp app]. unfold written. rewrite zlen_cons. change (zlen (@nil Z)) with 0. split; [lia|]. split; [lia|apply zsub_single; exact Hc].
  Qed.
  (** paragraphs and sentences *)
  Theorem doc_paras t : is_doc t -> s <> [] -> paragraphs_of s (paragraphs t).
  Proof.
    intros Ht Hs. rewrite (doc_paragraphs _ _ _ _ _ t Ht). destruct Ht as (ps & F & ->). cbn [t_kids at_]. apply paragraphs_found; [exact Hs|]. eapply Forall2_imp; [|exact F]. intros x p H. destruct (para_span _ _ _ _ _ x p H) as (H1 & H2 & _). auto.
  Qed.
  Lemma laid_starts brk skip b a ps (P : Z -> Prop) : laid brk skip b a ps -> P a -> (forall i j, skip i j -> P j) -> Forall (fun p => P (t_start p) /\ t_start p < t_stop p) ps.
  Proof. intros L Pa H. induction L as [|a q Ea Eb Lt N|a q j r Ea Lt N B S L IH]; constructor; [split; [rewrite Ea; exact Pa|lia]|constructor|split; [rewrite Ea; exact Pa|lia]|apply IH; exact (H _ _ S)]. Qed.
  Lemma lines_no_end i j : lines_over s i j -> ~ sentence_ends C s j.
  Proof.
    intros (u & (ls & Ln & -> & F) & W & -> & _). destruct (exists_last (l := ls)) as (l' & x & ->); [intros ->; cbn in Ln; lia|]. apply Forall_app in F. destruct F as [_ F]. inversion F as [|? ? (w & c & -> & _ & Hc) _]; subst.
    apply (blank_no_end C s (zlen s) ltac:(lia) i _ (concat l' ++ w) c); [apply W|exact W| |apply in_or_app; right; exact Hc]. rewrite concat_app. cbn [concat]. rewrite app_nil_r, app_assoc. reflexivity.
  Qed.
  Lemma no_end_start : ~ sentence_ends C s 0.
  Proof. intros (c & u & v & _ & _ & _ & (W & _)). rewrite zlen_cons in W. pose proof (zlen_nonneg (u ++ v)). lia. Qed.
  Theorem doc_sents t : is_doc t -> s <> [] -> Forall (sentences_of C s) (paragraphs t).
  Proof.
    intros Ht Hs. destruct (doc_paras t Ht Hs) as (a & Ha & L). assert (P : Forall (fun p => ~ sentence_ends C s (t_start p) /\ t_start p < t_stop p) (paragraphs t)).
    { apply (laid_starts _ _ _ _ _ (fun i => ~ sentence_ends C s i) L); [|exact lines_no_end]. destruct Ha as [[-> _]|[_ Ha]]; [exact no_end_start|exact (lines_no_end _ _ Ha)]. }
    rewrite (doc_paragraphs _ _ _ _ _ t Ht) in *. rewrite Forall_forall in *. intros p Hp. specialize (P p Hp). destruct (para_in _ _ _ _ _ t p Ht Hp) as (x & (ss & F & ->) & B1 & B2). destruct P as [P1 P2]. unfold t_start, t_stop in *. cbn [t_f at_ f_start f_stop t_kids] in *.
    unfold sentences_of, t_start, t_stop. cbn [t_f at_ f_start f_stop t_kids]. apply sentences_found; [exact B2|lia|exact P1|]. eapply Forall2_imp; [|exact F]. intros y q H. destruct (sent_span _ _ _ _ _ y q H) as (H1 & H2 & _). auto.
  Qed.
  (** the shape *)
  Theorem doc_outline t : is_doc t -> twf t -> outline s t.
  Proof.
    intros Ht W. split; [destruct Ht as (ps & _ & ->); reflexivity|]. split; [exact W|]. destruct (doc_kids _ _ _ _ _ t Ht) as [K _]. eapply Forall_impl; [|exact K]. intros p Hp. destruct (para_kids _ _ _ _ _ p Hp) as [Kp Dp]. split; [exact Dp|]. eapply Forall_impl; [|exact Kp]. intros q Hq. destruct (sent_kids _ _ _ _ _ q Hq) as [Kq Dq]. split; [exact Dq|].
    eapply Forall_impl; [|exact Kq]. intros u [(x & y & ->)|(a & n & _ & ->)]; [left; split; reflexivity|right; reflexivity].
  Qed.
  (** a text without digits has no numbers *)
  Lemma numeral_digit n : numeral_ok C point sep optional n -> exists c, In c (nu_text n) /\ cls_d C c = true.
  Proof.
    assert (Dg : forall u, digits C u -> exists c, In c u /\ cls_d C c = true) by (intros u [Hn F]; destruct u as [|c u]; [contradiction|]; exists c; split; [left; reflexivity|inversion F; assumption]).
    intros (_ & [[Hi _]|[_ (v & E & Hv)]] & _); unfold nu_text.
    - assert (Q : exists c, In c (nu_int n) /\ cls_d C c = true). { destruct Hi as [(v & g & -> & Hv & _)|[_ Hv]]; [destruct (Dg v Hv) as (c & Hc & D); exists c; split; [apply in_or_app; left; exact Hc|exact D]|exact (Dg _ Hv)]. }
      destruct Q as (c & Hc & D). exists c. split; [|exact D]. apply in_or_app. right. apply in_or_app. left. exact Hc.
    - destruct (Dg v Hv) as (c & Hc & D). exists c. split; [|exact D]. rewrite E. apply in_or_app. right. apply in_or_app. right. apply in_or_app. left. apply in_or_app. right. exact Hc.
  Qed.
  Lemma zsub_incl a b c : In c (zsub s a b) -> In c s.
  Proof. unfold zsub. intros H. rewrite <- (firstn_skipn (Z.to_nat a) s). apply in_or_app. right. rewrite <- (firstn_skipn (Z.to_nat (b - a)) (skipn (Z.to_nat a) s)). apply in_or_app. left. exact H. Qed.
  Theorem no_digits : Forall (fun c => cls_d C c = false) s -> forall a b, 0 <= a -> b <= zlen s -> found_spans numrx s a b = [].
  Proof.
    intros F a b Ha Hb. unfold found_spans. destruct (found numrx s a b) as [|m ms] eqn:E; [reflexivity|]. exfalso. destruct (number_match C point sep optional s a b m Ha Hb) as (n & On & Et & _); [rewrite E; left; reflexivity|]. destruct (numeral_digit n On) as (c & Hc & D). rewrite <- Et in Hc. apply zsub_incl in Hc. rewrite Forall_forall in F. rewrite (F c Hc) in D. discriminate D.
  Qed.
End Doc.
