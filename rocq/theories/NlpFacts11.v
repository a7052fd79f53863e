(** Facts for Nlp.v: sentences. *)
From Verif Require Import NlpDoc PyFacts ArborFacts3 ArborFacts4 NlpFacts NlpFacts2 NlpFacts7 NlpFacts9 NlpFacts10.

Section Sent.
  Variables (C : classes) (s : pystr) (e : Z).
  Hypothesis He : e <= zlen s.
  Notation plain := (plain s e).
  Notation hits := (hits s e).
  Lemma plain_space : plain (NSet sen_ws) space. Proof. exact (plain_set s e sen_ws). Qed.
  Lemma space_full u : space u -> u <> [].
  Proof. unfold space. change space_texts with sen_ws. unfold sen_ws. intros H. apply in_app_or in H. destruct H as [[<-|[<-|[]]]|H]; [discriminate|discriminate|]. apply in_map_iff in H. destruct H as (c & <- & _). discriminate. Qed.
  Lemma plain_spaces n : plain (NRep n None (NSet sen_ws)) (fun u => exists us, (n <= length us)%nat /\ u = concat us /\ Forall space us).
  Proof. exact (plain_rep s e He n _ _ plain_space space_full). Qed.
  Lemma plain_end r L : plain r L -> plain (NSeq r (NStr [])) L.
  Proof.
    intros P. eapply plain_imp; [|exact (plain_seq s e He _ _ _ _ P (plain_str s e []))]. cbn beta. intros u. split; [intros (v & w & -> & Lv & ->); rewrite app_nil_r; exact Lv|intros H; exists u, []; rewrite app_nil_r; auto].
  Qed.
  Lemma repeat_concat n : concat (repeat [46] n) = repeat 46 n. Proof. induction n; [reflexivity|]. cbn. f_equal. exact IHn. Qed.
  Lemma plain_terminators : plain terminators terminator_text.
  Proof.
    eapply plain_imp; [|apply (plain_alts s e _ [(fun u => u = lit "."); (fun u => exists us, (3 <= length us)%nat /\ u = concat us /\ Forall (fun v => v = lit ".") us); (fun u => u = [8230]); (fun u => (1 <= length u)%nat /\ Forall (fun c => among (lit "!?") c = true) u)]);
      constructor; [apply plain_str|]; constructor; [apply (plain_rep s e He 3 _ _ (plain_str s e (lit "."))); intros u ->; discriminate|]; constructor; [apply plain_str|]; constructor; [apply (plain_cls_rep s e He)|constructor]].
    intros u. unfold terminator_text. split.
    - intros H. repeat (apply Exists_cons in H; destruct H as [H|H]); [left; exact H|right; left|right; right; left; exact H|right; right; right|inversion H].
      + destruct H as (us & L & -> & F). exists (length us). split; [exact L|]. clear L. induction F as [|v us -> F IH]; [reflexivity|]. cbn. f_equal. exact IH.
      + destruct H as [L F]. split; [destruct u; [cbn in L; lia|discriminate]|]. eapply Forall_impl; [|exact F]. cbn beta. intros c. apply among_in.
    - intros [H|[(n & L & ->)|[H|[N F]]]]; [left; exact H|right; left|right; right; left; exact H|right; right; right; left].
      + exists (repeat [46] n). rewrite repeat_length. split; [exact L|]. split; [symmetry; apply repeat_concat|]. clear. induction n; constructor; [reflexivity|exact IHn].
      + split; [destruct u; [congruence|cbn; lia]|]. eapply Forall_impl; [|exact F]. cbn beta. intros c Hc. apply existsb_exists. exists c. split; [exact Hc|apply Z.eqb_refl].
  Qed.
  Lemma plain_cls_p p (P : Z -> Prop) : (forall c, p c = true <-> P c) -> plain (NCls p) (fun u => exists c, u = [c] /\ P c).
  Proof. intros E. eapply plain_imp; [|apply (plain_cls s e He)]. intros u. split; intros (c & H1 & H2); exists c; (split; [exact H1|apply E; exact H2]). Qed.
  Lemma cap_p c : upper_az c = true <-> capital c. Proof. unfold upper_az, range, capital. lia. Qed.
  Lemma low_p c : lower_az c = true <-> small c. Proof. unfold lower_az, range, small. lia. Qed.
  Lemma ends_p i : 0 <= i <= e -> (exists k, 0 <= k <= i /\ hits (NSeqs [NCls (cls_w C); terminators; NStar (NChars suffix_chars)]) k i) <-> sentence_ends C s i.
  Proof.
    intros Hi. unfold NSeqs. cbn [fold_right].
    rewrite (plain_before s e _ _ i (plain_seq s e He _ _ _ _ (plain_cls s e He (cls_w C)) (plain_seq s e He _ _ _ _ plain_terminators (plain_end _ _ (plain_star_chars s e He suffix_chars)))) Hi).
    unfold sentence_ends, ends_in. split.
    - intros (x & (y & z & -> & (c & -> & Hc) & (u & v & -> & Hu & Hv)) & W). exists c, u, v. auto.
    - intros (c & u & v & Hc & Hu & Hv & W). exists (c :: u ++ v). split; [|exact W]. exists [c], (u ++ v). split; [reflexivity|]. split; [exists c; auto|]. exists u, v. auto.
  Qed.
  Lemma written_at i u : 0 <= i <= e -> (exists k, hits (NStr u) i k) <-> written s e i u.
  Proof. intros Hi. rewrite (plain_some s e _ _ i (plain_str s e u) Hi). split; [intros (v & -> & W); exact W|intros W; exists u; auto]. Qed.
  (** a pattern and what must follow it, before position i *)
  Lemma before_ahead a b La Lb i : plain a La -> plain b Lb -> 0 <= i <= e ->
    (exists k, 0 <= k <= i /\ hits (NSeq a (NAhead b)) k i) <-> exists u v, La u /\ ends_in s i u /\ Lb v /\ written s e i v.
  Proof.
    intros Pa Pb Hi. split.
    - intros (k & Hk & H). apply hits_seq in H. destruct H as (m & H1 & H2). apply hits_ahead in H2. destruct H2 as [-> H2]. apply (plain_some s e _ _ m Pb Hi) in H2. destruct H2 as (v & Lv & Wv).
      destruct (proj1 (plain_before s e _ _ m Pa Hi)) as (u & Lu & Wu); [exists k; auto|]. exists u, v. auto.
    - intros (u & v & Lu & Wu & Lv & Wv). destruct (proj2 (plain_before s e _ _ i Pa Hi)) as (k & Hk & H); [exists u; auto|]. exists k. split; [exact Hk|]. apply hits_seq. exists i. split; [exact H|]. apply hits_ahead. split; [reflexivity|]. apply (plain_some s e _ _ i Pb Hi). exists v. auto.
  Qed.
  Lemma not_behind a i j : 0 <= i <= e -> hits (NBehind false a) i j <-> j = i /\ ~ exists k, 0 <= k <= i /\ hits a k i.
  Proof. intros Hi. rewrite (hits_behind s e _ _ _ _ Hi). split; (intros [H1 H2]; split; [exact H1|]); [intros Q; apply H2 in Q; discriminate|split; [intros Q; contradiction|discriminate]]. Qed.
  Definition exc1 i := exists a, In a ignores /\ ends_in s i a.
  Definition exc2 i := exists a u d, In a num_abbrs /\ ends_in s i a /\ space u /\ cls_d C d = true /\ written s e i (u ++ [d]).
  Definition exc3 i := exists c r u d u' c' d', capital c /\ r <> [] /\ Forall small r /\ space u /\ capital d /\ ends_in s i (c :: r ++ u ++ [d; 46]) /\
     space u' /\ capital c' /\ small d' /\ written s e i (u' ++ [c'; d']).
  Definition exc4 i := exists u, ends_in s i (lit "U.S.") /\ space u /\ written s e i (u ++ lit "Government").
  Lemma exc1_p i : 0 <= i <= e -> (exists k, 0 <= k <= i /\ hits (NSet ignores) k i) <-> exc1 i.
  Proof. intros Hi. exact (plain_before s e _ _ i (plain_set s e ignores) Hi). Qed.
  Lemma exc2_p i : 0 <= i <= e -> (exists k, 0 <= k <= i /\ hits (NSeq (NSet num_abbrs) (NAhead (NSeq (NSet sen_ws) (NCls (cls_d C))))) k i) <-> exc2 i.
  Proof.
    intros Hi. rewrite (before_ahead _ _ _ _ i (plain_set s e num_abbrs) (plain_seq s e He _ _ _ _ plain_space (plain_cls s e He _)) Hi). unfold exc2. split.
    - intros (a & v & Ha & Wa & (u & w & -> & Hu & (d & -> & Hd)) & W). exists a, u, d. auto.
    - intros (a & u & d & Ha & Wa & Hu & Hd & W). exists a, (u ++ [d]). split; [exact Ha|]. split; [exact Wa|]. split; [|exact W]. exists u, [d]. split; [reflexivity|]. split; [exact Hu|]. exists d. auto.
  Qed.
  Lemma plain_lows : plain (NPlus (NCls lower_az)) (fun u => u <> [] /\ Forall small u).
  Proof.
    eapply plain_imp; [|exact (plain_cls_rep s e He 1 lower_az)]. cbn beta. intros u. split; intros [H1 H2]; (split; [destruct u; [try (cbn in H1; lia); congruence|try discriminate; cbn; lia]|]); (eapply Forall_impl; [|exact H2]); cbn beta; intros c; apply low_p.
  Qed.
  Lemma exc3_p i : 0 <= i <= e -> (exists k, 0 <= k <= i /\ hits (NSeqs [NCls upper_az; NPlus (NCls lower_az); NSet sen_ws; NCls upper_az; NStr (lit "."); NAhead (NSeqs [NSet sen_ws; NCls upper_az; NPlus (NCls lower_az)])]) k i) <-> exc3 i.
  Proof.
    intros Hi. set (before := NSeq (NCls upper_az) (NSeq (NPlus (NCls lower_az)) (NSeq (NSet sen_ws) (NSeq (NCls upper_az) (NStr (lit ".")))))). set (after := NSeqs [NSet sen_ws; NCls upper_az; NPlus (NCls lower_az)]).
    assert (E : forall k, hits (NSeqs [NCls upper_az; NPlus (NCls lower_az); NSet sen_ws; NCls upper_az; NStr (lit "."); NAhead after]) k i <-> hits (NSeq before (NAhead after)) k i).
    { intros k. unfold NSeqs. cbn [fold_right]. unfold before. split.
      - intros H. apply hits_seq in H. destruct H as (k1 & H1 & H). apply hits_seq in H. destruct H as (k2 & H2 & H). apply hits_seq in H. destruct H as (k3 & H3 & H). apply hits_seq in H. destruct H as (k4 & H4 & H). apply hits_seq in H. destruct H as (k5 & H5 & H). apply hits_seq in H. destruct H as (k6 & H6 & H).
        assert (k6 = i). { destruct H as (c & H). apply in_str_ways in H. destruct H as [_ Q]. injection Q as Q _. change (zlen (@nil Z)) with 0 in Q. lia. } subst k6.
        apply hits_seq. exists k5. split; [|exact H6]. repeat (apply hits_seq; eexists; split; [eassumption|]). assumption.
      - intros H. apply hits_seq in H. destruct H as (k5 & H & H6). apply hits_seq in H. destruct H as (k1 & H1 & H). apply hits_seq in H. destruct H as (k2 & H2 & H). apply hits_seq in H. destruct H as (k3 & H3 & H). apply hits_seq in H. destruct H as (k4 & H4 & H5).
        repeat (apply hits_seq; eexists; split; [eassumption|]). exists []. apply in_str_ways. split; [|change (zlen (@nil Z)) with 0; rewrite Z.add_0_r; reflexivity]. unfold str_at. change (zlen (@nil Z)) with 0. rewrite zsub_nil by lia. apply andb_true_iff. split; [lia|reflexivity]. }

    assert (E' : (exists k, 0 <= k <= i /\ hits (NSeqs [NCls upper_az; NPlus (NCls lower_az); NSet sen_ws; NCls upper_az; NStr (lit "."); NAhead after]) k i) <-> (exists k, 0 <= k <= i /\ hits (NSeq before (NAhead after)) k i)) by (split; intros (k & Hk & H); exists k; (split; [exact Hk|apply E; exact H])).
    rewrite E'. clear E E'. unfold before, after, NSeqs. cbn [fold_right].
    rewrite (before_ahead _ _ _ _ i (plain_seq s e He _ _ _ _ (plain_cls_p _ _ cap_p) (plain_seq s e He _ _ _ _ plain_lows (plain_seq s e He _ _ _ _ plain_space (plain_seq s e He _ _ _ _ (plain_cls_p _ _ cap_p) (plain_str s e (lit "."))))))
      (plain_seq s e He _ _ _ _ plain_space (plain_seq s e He _ _ _ _ (plain_cls_p _ _ cap_p) (plain_end _ _ plain_lows))) Hi).
    unfold exc3. split.
    - intros (x & y & (x1 & y1 & -> & (c & -> & Hc) & (r & y2 & -> & (Nr & Hr) & (u & y3 & -> & Hu & (x4 & y4 & -> & (d & -> & Hd) & ->)))) & W & (u' & y5 & -> & Hu' & (x6 & y6 & -> & (c' & -> & Hc') & (Nl & Hl))) & W').
      destruct y6 as [|d' y6]; [congruence|]. inversion Hl; subst. exists c, r, u, d, u', c', d'. split; [exact Hc|]. split; [exact Nr|]. split; [exact Hr|]. split; [exact Hu|]. split; [exact Hd|]. split; [exact W|]. split; [exact Hu'|]. split; [exact Hc'|]. split; [assumption|].
      change (u' ++ [c'] ++ d' :: y6) with (u' ++ [c'; d'] ++ y6) in W'. rewrite app_assoc in W'. apply (written_app s e He) in W'; [apply W'|lia].
    - intros (c & r & u & d & u' & c' & d' & Hc & Nr & Hr & Hu & Hd & W & Hu' & Hc' & Hd' & W'). exists (c :: r ++ u ++ [d; 46]), (u' ++ [c'; d']). split; [|split; [exact W|split; [|exact W']]].
      + exists [c], (r ++ u ++ [d; 46]). split; [reflexivity|]. split; [exists c; auto|]. exists r, (u ++ [d; 46]). split; [reflexivity|]. split; [auto|]. exists u, [d; 46]. split; [reflexivity|]. split; [exact Hu|]. exists [d], (lit "."). split; [reflexivity|]. split; [exists d; auto|reflexivity].
      + exists u', [c'; d']. split; [reflexivity|]. split; [exact Hu'|]. exists [c'], [d']. split; [reflexivity|]. split; [exists c'; auto|]. split; [discriminate|constructor; [exact Hd'|constructor]].
  Qed.
  Lemma exc4_p i : 0 <= i <= e -> (exists k, 0 <= k <= i /\ hits (NSeq (NStr (lit "U.S.")) (NAhead (NSeq (NSet sen_ws) (NStr (lit "Government"))))) k i) <-> exc4 i.
  Proof.
    intros Hi. rewrite (before_ahead _ _ _ _ i (plain_str s e _) (plain_seq s e He _ _ _ _ plain_space (plain_str s e _)) Hi). unfold exc4. split.
    - intros (x & y & -> & W & (u & z & -> & Hu & ->) & W'). exists u. auto.
    - intros (u & W & Hu & W'). exists (lit "U.S."), (u ++ lit "Government"). split; [reflexivity|]. split; [exact W|]. split; [|exact W']. exists u, (lit "Government"). auto.
  Qed.
  Lemma excepted_p i : excepted C s e i <-> exc1 i \/ exc2 i \/ exc3 i \/ exc4 i. Proof. reflexivity. Qed.
  (** the rules *)
  Definition final i j := exists us, Forall space us /\ written s e i (concat us) /\ j = i + zlen (concat us) /\ (j = e \/ (j + 1 = e /\ written s e j [10])).
  Lemma rule1_p i j : 0 <= i <= e -> hits (NSeq (NStar (NSet sen_ws)) NEnd) i j -> final i j.
  Proof.
    intros Hi H. apply hits_seq in H. destruct H as (k & H1 & H2). pose proof (hits_bound s e _ i k ltac:(lia) H1) as B. apply (plain_spaces 0 i k Hi) in H1. destruct H1 as (u & (us & _ & -> & F) & W & ->). apply hits_end in H2; [|lia]. destruct H2 as [-> H2]. exists us. split; [exact F|]. split; [exact W|]. split; [reflexivity|]. destruct H2 as [H2|[H2 H3]]; [left; exact H2|right; split; [exact H2|apply H3; lia]].
  Qed.
  Lemma rule1_q i us : 0 <= i <= e -> Forall space us -> written s e i (concat us) -> i + zlen (concat us) = e -> hits (NSeq (NStar (NSet sen_ws)) NEnd) i e.
  Proof.
    intros Hi F W E. apply hits_seq. exists e. split; [|apply hits_at_end]. apply (plain_spaces 0 i e Hi). exists (concat us). split; [exists us; split; [lia|auto]|]. auto.
  Qed.
  Lemma rule2_p i j : 0 <= i <= e -> hits (NRep 2 None (NSet sen_ws)) i j <-> exists us, (2 <= length us)%nat /\ Forall space us /\ written s e i (concat us) /\ j = i + zlen (concat us).
  Proof. intros Hi. rewrite (plain_spaces 2 i j Hi). split; [intros (u & (us & L & -> & F) & W & E); exists us; auto|intros (us & L & F & W & E); exists (concat us); split; [exists us; auto|auto]]. Qed.
  Lemma ahead_p a b La Lb i j : plain a La -> plain b Lb -> 0 <= i <= e -> hits (NSeq a (NAhead b)) i j <-> exists u v, La u /\ Lb v /\ written s e i (u ++ v) /\ j = i + zlen u.
  Proof.
    intros Pa Pb Hi. rewrite hits_seq. split.
    - intros (k & H1 & H2). pose proof (hits_bound s e _ i k ltac:(lia) H1) as B. apply hits_ahead in H2. destruct H2 as [-> H2]. apply (Pa i k Hi) in H1. destruct H1 as (u & Lu & Wu & ->). apply (plain_some s e b Lb (i + zlen u) Pb ltac:(lia)) in H2. destruct H2 as (v & Lv & Wv). exists u, v. split; [exact Lu|]. split; [exact Lv|]. split; [apply (written_app s e He); [lia|auto]|reflexivity].
    - intros (u & v & Lu & Lv & W & ->). apply (written_app s e He) in W; [|lia]. destruct W as [Wu Wv]. exists (i + zlen u). split; [apply (Pa i _ Hi); exists u; auto|]. apply hits_ahead. split; [reflexivity|]. apply (plain_some s e _ _ _ Pb); [apply written_le in Wv; lia|exists v; auto].
  Qed.
  Lemma rule3_p i j : 0 <= i <= e -> hits (NSeq (NSet sen_ws) (NAhead (NSeqs [NStar (NChars prefix_chars); NSet hf_starts; NSet sen_ws]))) i j <->
    exists u p w v, space u /\ opening p /\ In w hf_starts /\ space v /\ written s e i (u ++ p ++ w ++ v) /\ j = i + zlen u.
  Proof.
    intros Hi. unfold NSeqs. cbn [fold_right]. rewrite (ahead_p _ _ _ _ i j plain_space (plain_seq s e He _ _ _ _ (plain_star_chars s e He _) (plain_seq s e He _ _ _ _ (plain_set s e _) (plain_end _ _ plain_space))) Hi). split.
    - intros (u & x & Hu & (p & y & -> & Hp & (w & v & -> & Hw & Hv)) & W & E). exists u, p, w, v. split; [exact Hu|]. split; [exact Hp|]. auto.
    - intros (u & p & w & v & Hu & Hp & Hw & Hv & W & E). exists u, (p ++ w ++ v). split; [exact Hu|]. split; [exists p, (w ++ v); split; [reflexivity|]; split; [exact Hp|]; exists w, v; auto|auto].
  Qed.
  Lemma rule4_p i j : 0 <= i <= e -> hits (NSeqs (exceptions C ++ [NSet sen_ws; NAhead (NSeq (NStar (NChars prefix_chars)) (NCls (fun c => upper_az c || cls_d C c)))])) i j <->
    ~ excepted C s e i /\ exists u p c, space u /\ opening p /\ (capital c \/ cls_d C c = true) /\ written s e i (u ++ p ++ [c]) /\ j = i + zlen u.
  Proof.
    intros Hi. unfold exceptions, NSeqs. cbn [app fold_right]. fold (NSeqs [NSet sen_ws; NCls upper_az; NPlus (NCls lower_az)]).
    fold (NSeqs [NCls upper_az; NPlus (NCls lower_az); NSet sen_ws; NCls upper_az; NStr (lit "."); NAhead (NSeqs [NSet sen_ws; NCls upper_az; NPlus (NCls lower_az)])]).
    assert (St : forall a R, hits (NSeq (NBehind false a) R) i j <-> (~ exists k, 0 <= k <= i /\ hits a k i) /\ hits R i j).
    { intros a R. rewrite hits_seq. split; [intros (k & H1 & H2); apply (not_behind a i k Hi) in H1; destruct H1 as [-> H1]; auto|intros [H1 H2]; exists i; split; [apply (not_behind a i i Hi); auto|exact H2]]. }
    rewrite !St, exc1_p, exc2_p, exc3_p, exc4_p by exact Hi.
    assert (R : hits (NSeq (NSet sen_ws) (NSeq (NAhead (NSeq (NStar (NChars prefix_chars)) (NCls (fun c => upper_az c || cls_d C c)))) (NStr []))) i j <-> exists u p c, space u /\ opening p /\ (capital c \/ cls_d C c = true) /\ written s e i (u ++ p ++ [c]) /\ j = i + zlen u).
    { assert (P4 : plain (NCls (fun c => upper_az c || cls_d C c)) (fun u => exists c, u = [c] /\ (capital c \/ cls_d C c = true))) by (apply plain_cls_p; intros c; rewrite orb_true_iff, cap_p; reflexivity).
      pose proof (ahead_p _ _ _ _ i j plain_space (plain_seq s e He _ _ _ _ (plain_star_chars s e He prefix_chars) P4) Hi) as Q.
      assert (Q' : hits (NSeq (NSet sen_ws) (NSeq (NAhead (NSeq (NStar (NChars prefix_chars)) (NCls (fun c => upper_az c || cls_d C c)))) (NStr []))) i j <-> hits (NSeq (NSet sen_ws) (NAhead (NSeq (NStar (NChars prefix_chars)) (NCls (fun c => upper_az c || cls_d C c))))) i j).
      { rewrite !hits_seq. split.
        - intros (k & H1 & H2). apply hits_seq in H2. destruct H2 as (k2 & H2 & H3). destruct H3 as (c & H3). apply in_str_ways in H3. destruct H3 as [_ H3]. injection H3 as H3 _. change (zlen (@nil Z)) with 0 in H3. rewrite Z.add_0_r in H3. subst k2. exists k. auto.
        - intros (k & H1 & H2). exists k. split; [exact H1|]. apply hits_seq. exists j. split; [exact H2|]. pose proof (hits_bound s e _ i k ltac:(lia) H1) as B1. pose proof (hits_bound s e _ k j ltac:(lia) H2) as B2. exists []. apply in_str_ways. split; [|change (zlen (@nil Z)) with 0; rewrite Z.add_0_r; reflexivity]. unfold str_at. change (zlen (@nil Z)) with 0. rewrite zsub_nil by lia. apply andb_true_iff. split; [lia|reflexivity]. }
      rewrite Q', Q. split.
      - intros (u & x & Hu & (p & y & -> & Hp & (c & -> & Hc)) & W & E). exists u, p, c. auto.
      - intros (u & p & c & Hu & Hp & Hc & W & E). exists u, (p ++ [c]). split; [exact Hu|]. split; [exists p, [c]; split; [reflexivity|]; split; [exact Hp|exists c; auto]|auto]. }
    rewrite R, excepted_p. tauto.
  Qed.
End Sent.
