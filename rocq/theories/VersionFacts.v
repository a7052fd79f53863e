(** Facts for Version.v. *)
From Verif Require Import SpecVersion SpecNlp PyFacts NlpFacts NlpFacts2 NlpFacts7 NlpFacts9 NlpFacts14.

Lemma v_digit_is c : v_digit c = true <-> is_digit c. Proof. unfold v_digit, range, is_digit. rewrite andb_true_iff. lia. Qed.
Lemma v_digit1_is c : v_digit1 c = true <-> 49 <= c <= 57. Proof. unfold v_digit1, range. rewrite andb_true_iff. lia. Qed.
Lemma v_alnum_is c : v_alnum c = true <-> is_letter c \/ is_digit c. Proof. unfold v_alnum. rewrite orb_true_iff, v_digit_is. unfold lower_az, range, is_letter. rewrite andb_true_iff. split; intros [H|H]; auto; left; lia. Qed.
Lemma Forall_iff {A} (P Q : A -> Prop) l : (forall x, P x <-> Q x) -> Forall P l <-> Forall Q l.
Proof. intros H. split; apply Forall_impl; intros x; apply H. Qed.

Section Version.
  Variables (s : pystr) (e : Z).
  Hypothesis He : e <= zlen s.
  Notation pl := (plain s e).
  Definition big (u : pystr) : Prop := exists c r, u = c :: r /\ 49 <= c <= 57 /\ Forall is_digit r.
  Lemma plain_big : pl (NSeq (NCls v_digit1) (NStar (NCls v_digit))) big.
  Proof.
    eapply plain_imp; [|apply plain_seq; [exact He|apply plain_cls; exact He|apply plain_cls_rep; exact He]]. cbn beta. intros u. split.
    - intros (v & w & -> & (c & -> & Hc) & _ & F). exists c, w. split; [reflexivity|]. split; [apply v_digit1_is; exact Hc|]. revert F. apply Forall_impl. intros x. apply v_digit_is.
    - intros (c & r & -> & Hc & F). exists [c], r. split; [reflexivity|]. split; [exists c; split; [reflexivity|apply v_digit1_is; exact Hc]|]. split; [lia|]. revert F. apply Forall_impl. intros x. apply v_digit_is.
  Qed.
  Lemma plain_number : pl v_number_rx v_num.
  Proof. eapply plain_imp; [|apply plain_alt; [apply plain_str; exact He|apply plain_big]]. intros u. unfold v_num, big. tauto. Qed.
  Lemma number_full u : v_num u -> u <> [].
  Proof. intros [->|(c & r & -> & _)]; discriminate. Qed.
  Lemma big_number n : big n <-> v_num n /\ n <> lit "0".
  Proof.
    unfold v_num, big. split.
    - intros (c & r & -> & Hc & F). split; [right; exists c, r; auto|]. intros E. injection E as -> _. lia.
    - intros [[H|H] N]; [congruence|exact H].
  Qed.
  Lemma plain_epoch : pl (NOpt (NSeq (NSeq (NCls v_digit1) (NStar (NCls v_digit))) (NStr (lit "!")))) epoch_text.
  Proof.
    eapply plain_imp; [|apply plain_opt; [apply plain_seq; [exact He|apply plain_big|apply plain_str; exact He]|]].
    - intros u. cbn beta. unfold epoch_text. split; (intros [H|H]; [left; exact H|right]).
      + destruct H as (v & w & -> & Hb & ->). exists v. apply big_number in Hb. tauto.
      + destruct H as (n & -> & Hn & N). exists n, (lit "!"). rewrite big_number. auto.
    - intros u (v & w & -> & _ & ->) E. apply app_eq_nil in E. destruct E as [_ E]. discriminate E.
  Qed.
  (** many parts, each behind its mark *)
  Lemma plain_tail r (L : pystr -> Prop) sep : pl r L -> pl (NStar (NSeq (NStr [sep]) r)) (fun u => exists xs, u = tail_of sep xs /\ Forall L xs).
  Proof.
    intros P. eapply plain_imp; [|apply plain_rep; [exact He|apply plain_seq; [exact He|apply plain_str; exact He|exact P]|]].
    - cbn beta. intros u. unfold tail_of. split.
      + intros (us & _ & -> & F). induction F as [|x us (v & w & -> & -> & Lw) F (xs & IH & Fx)]; [exists []; split; [reflexivity|constructor]|]. exists (w :: xs). cbn [map concat]. rewrite <- IH. split; [reflexivity|constructor; assumption].
      + intros (xs & -> & F). exists (map (fun x => sep :: x) xs). split; [lia|]. split; [reflexivity|]. apply Forall_map. revert F. apply Forall_impl. intros x Lx. exists [sep], x. auto.
    - intros u (v & w & -> & -> & _). discriminate.
  Qed.
  Lemma plain_release : pl (NSeq v_number_rx (NStar (NSeq (NStr (lit ".")) v_number_rx))) release_text.
  Proof.
    eapply plain_imp; [|apply plain_seq; [exact He|apply plain_number|apply (plain_tail v_number_rx v_num 46); apply plain_number]]. cbn beta. intros u. unfold release_text. split.
    - intros (v & w & -> & Hv & xs & -> & F). exists v, xs. auto.
    - intros (n & ns & -> & Hn & F). exists n, (tail_of 46 ns). split; [reflexivity|]. split; [exact Hn|]. exists ns. auto.
  Qed.
  Lemma plain_pre : pl (NOpt (NSeq (NSet [lit "a"; lit "b"; lit "rc"]) v_number_rx)) pre_text.
  Proof.
    eapply plain_imp; [|apply plain_opt; [apply plain_seq; [exact He|apply plain_set|apply plain_number]|]].
    - cbn beta. intros u. unfold pre_text. reflexivity.
    - intros u (v & w & -> & _ & Hn) E. apply app_eq_nil in E. destruct E as [_ E]. exact (number_full _ Hn E).
  Qed.
  Lemma plain_mark m : pl (NOpt (NSeq (NStr m) v_number_rx)) (fun u => u = [] \/ exists n, u = m ++ n /\ v_num n).
  Proof.
    eapply plain_imp; [|apply plain_opt; [apply plain_seq; [exact He|apply plain_str; exact He|apply plain_number]|]].
    - cbn beta. intros u. split; (intros [H|H]; [left; exact H|right]).
      + destruct H as (v & w & -> & -> & H). eauto.
      + destruct H as (n & -> & H). exists m, n. auto.
    - intros u (v & w & -> & -> & Hn) E. apply app_eq_nil in E. destruct E as [_ E]. exact (number_full _ Hn E).
  Qed.
  Lemma plain_alnum : pl (NPlus (NCls v_alnum)) alnum_text.
  Proof.
    eapply plain_imp; [|apply plain_cls_rep; exact He]. intros u. cbn beta. unfold alnum_text. rewrite (Forall_iff _ _ u v_alnum_is). split; intros [H1 H2]; (split; [|exact H2]); destruct u; cbn in *; try lia; congruence.
  Qed.
  Lemma plain_local : pl (NOpt (NSeq (NStr (lit "+")) (NSeq (NPlus (NCls v_alnum)) (NStar (NSeq (NCls (among (lit "-_."))) (NPlus (NCls v_alnum))))))) loose_local.
  Proof.
    eapply plain_imp; [|apply plain_opt; [apply plain_seq; [exact He|apply plain_str; exact He|apply plain_seq; [exact He|apply plain_alnum|apply plain_rep; [exact He|apply plain_seq; [exact He|apply plain_cls; exact He|apply plain_alnum]|]]]|]].
    - cbn beta. intros u. unfold loose_local. split; (intros [H|H]; [left; exact H|right]).
      + destruct H as (v & w & -> & -> & x & y & -> & Hx & us & _ & -> & F). exists x.
        assert (G : exists ps, concat us = concat (map (fun p : Z * pystr => fst p :: snd p) ps) /\ Forall (fun p => In (fst p) (lit "-_.") /\ alnum_text (snd p)) ps).
        { induction F as [|u us (a & b & -> & (c & -> & Hc) & Hb) F (ps & IH & Fp)]; [exists []; split; [reflexivity|constructor]|]. exists ((c, b) :: ps). cbn [map concat fst snd]. rewrite <- IH. split; [reflexivity|]. constructor; [|exact Fp]. cbn [fst snd]. split; [|exact Hb]. unfold among in Hc. apply existsb_exists in Hc. destruct Hc as (c' & Hc & E). apply Z.eqb_eq in E. subst c'. exact Hc. }
        destruct G as (ps & -> & Fp). exists ps. auto.
      + destruct H as (x & ps & -> & Hx & F). eexists (lit "+"), _. split; [reflexivity|]. split; [reflexivity|]. eexists x, _. split; [reflexivity|]. split; [exact Hx|]. exists (map (fun p => fst p :: snd p) ps). split; [lia|]. split; [reflexivity|]. apply Forall_map. revert F. apply Forall_impl. intros [c b] [Hc Hb]. exists [c], b. cbn [fst snd] in *. split; [reflexivity|]. split; [|exact Hb]. exists c. split; [reflexivity|]. apply existsb_exists. exists c. split; [exact Hc|apply Z.eqb_refl].
    - intros u (v & w & -> & (c & -> & _) & _). discriminate.
    - intros u (v & w & -> & -> & _). discriminate.
  Qed.
End Version.

Lemma plain_assoc s e a b c L : plain s e (NSeq (NSeq a b) c) L -> plain s e (NSeq a (NSeq b c)) L.
Proof.
  intros P i j Hi. rewrite <- (P i j Hi). rewrite !hits_seq. split.
  - intros (k & Ha & Hb). apply hits_seq in Hb. destruct Hb as (l & Hb & Hc). exists l. rewrite hits_seq. eauto.
  - intros (k & Ha & Hb). apply hits_seq in Ha. destruct Ha as (l & Ha & Hc). exists l. split; [exact Ha|]. apply hits_seq. eauto.
Qed.
(** the pattern before $ *)
Definition body_rx : nrx := 
  NSeq (NOpt (NSeq (NSeq (NCls v_digit1) (NStar (NCls v_digit))) (NStr (lit "!"))))
 (NSeq (NSeq v_number_rx (NStar (NSeq (NStr (lit ".")) v_number_rx)))
 (NSeq (NOpt (NSeq (NSet [lit "a"; lit "b"; lit "rc"]) v_number_rx))
 (NSeq (NOpt (NSeq (NStr (lit ".post")) v_number_rx))
 (NSeq (NOpt (NSeq (NStr (lit ".dev")) v_number_rx))
       (NOpt (NSeq (NStr (lit "+")) (NSeq (NPlus (NCls v_alnum)) (NStar (NSeq (NCls (among (lit "-_."))) (NPlus (NCls v_alnum))))))))))).
Lemma plain_body s e : e <= zlen s -> plain s e body_rx (version_with loose_local).
Proof.
  intros He. unfold body_rx. eapply plain_imp; [|apply plain_seq; [exact He|apply plain_epoch; exact He|apply plain_seq; [exact He|apply plain_release; exact He|apply plain_seq; [exact He|apply plain_pre; exact He|apply plain_seq; [exact He|apply plain_mark; exact He|apply plain_seq; [exact He|apply plain_mark; exact He|apply plain_local; exact He]]]]]].
  cbn beta. intros u. unfold version_with. split.
  - intros (a & x1 & -> & Ha & b & x2 & -> & Hb & c & x3 & -> & Hc & d & x4 & -> & Hd & f & g & -> & Hf & Hg). exists a, b, c, d, f, g. repeat (split; [first [reflexivity|assumption]|]). exact Hg.
  - intros (a & b & c & d & f & g & -> & Ha & Hb & Hc & Hd & Hf & Hg). do 2 eexists. split; [reflexivity|]. split; [exact Ha|]. do 2 eexists. split; [reflexivity|]. split; [exact Hb|]. do 2 eexists. split; [reflexivity|]. split; [exact Hc|]. do 2 eexists. split; [reflexivity|]. split; [exact Hd|]. do 2 eexists. split; [reflexivity|]. split; [exact Hf|exact Hg].
Qed.
Lemma canonical_hits s e i j : hits s e canonical_rx i j <-> exists k, hits s e body_rx i k /\ hits s e NEnd k j.
Proof.
  unfold canonical_rx, body_rx. rewrite !hits_seq. split.
  - intros (a & Ha & H). apply hits_seq in H. destruct H as (b & Hb & H). apply hits_seq in H. destruct H as (c & Hc & H). apply hits_seq in H. destruct H as (d & Hd & H). apply hits_seq in H. destruct H as (f & Hf & H). apply hits_seq in H. destruct H as (g & Hg & H). apply hits_seq in H. destruct H as (k & Hk & H). exists k. split; [|exact H].
    apply hits_seq. exists a. split; [exact Ha|]. apply hits_seq. exists c. split; [apply hits_seq; exists b; auto|]. apply hits_seq. exists d. split; [exact Hd|]. apply hits_seq. exists f. split; [exact Hf|]. apply hits_seq. exists g. auto.
  - intros (k & H & Hj). apply hits_seq in H. destruct H as (a & Ha & H). apply hits_seq in H. destruct H as (c & Hbc & H). apply hits_seq in Hbc. destruct Hbc as (b & Hb & Hc). apply hits_seq in H. destruct H as (d & Hd & H). apply hits_seq in H. destruct H as (f & Hf & H). apply hits_seq in H. destruct H as (g & Hg & H).
    exists a. split; [exact Ha|]. apply hits_seq. exists b. split; [exact Hb|]. apply hits_seq. exists c. split; [exact Hc|]. apply hits_seq. exists d. split; [exact Hd|]. apply hits_seq. exists f. split; [exact Hf|]. apply hits_seq. exists g. split; [exact Hg|]. apply hits_seq. exists k. auto.
Qed.
Lemma written_whole s u : written s (zlen s) 0 u -> zlen u = zlen s -> u = s.
Proof. intros (_ & _ & H) E. rewrite Z.add_0_l, E in H. rewrite zsub_full in H. auto. Qed.
Theorem canonical_exact v : is_canonical v = true <-> version_with loose_local v \/ exists u, v = u ++ [10] /\ version_with loose_local u.
Proof.
  assert (E : is_canonical v = true <-> exists j, hits v (zlen v) canonical_rx 0 j).
  { rewrite hits_some. unfold is_canonical. destruct (nways _ _ _ _); split; congruence. }
  rewrite E. clear E. pose proof (zlen_nonneg v) as Hv. pose proof (plain_body v (zlen v) ltac:(lia)) as P. split.
  - intros (j & H). apply canonical_hits in H. destruct H as (k & H & Hk). apply (P 0 k ltac:(lia)) in H. destruct H as (u & Hu & W & ->). pose proof (written_end _ _ _ _ W) as B. apply hits_end in Hk; [|exact B]. destruct Hk as (_ & [Hk|[Hk Hn]]).
    + left. rewrite (written_whole v u W) in Hu by lia. exact Hu.
    + right. exists u. split; [|exact Hu]. specialize (Hn ltac:(pose proof (zlen_nonneg u); lia)). assert (W2 : written v (zlen v) 0 (u ++ [10])) by (apply written_app; [lia|lia|auto]). symmetry. apply (written_whole v _ W2). rewrite zlen_app. change (zlen [10]) with 1. lia.
  - intros [H|(u & -> & H)].
    + exists (zlen v). apply canonical_hits. exists (zlen v). split; [|apply hits_at_end]. apply (P 0 _ ltac:(lia)). exists v. split; [exact H|]. split; [|lia]. unfold written. rewrite Z.add_0_l, zsub_full. repeat split; lia.
    + exists (zlen u). apply canonical_hits. exists (zlen u). pose proof (zlen_nonneg u). set (v := u ++ [10]) in *. assert (L : zlen v = zlen u + 1) by (unfold v; rewrite zlen_app; reflexivity).
      assert (W : written v (zlen v) 0 u /\ written v (zlen v) (0 + zlen u) [10]).
      { apply written_app; [lia|lia|]. fold v. unfold written. rewrite Z.add_0_l, zsub_full. split; [lia|]. split; [lia|reflexivity]. }
      split; [apply (P 0 _ ltac:(lia)); exists u; split; [exact H|]; split; [apply W|lia]|].
      exists []. cbn [nways]. rewrite L. replace (char_is (Z.eqb 10) v (zlen u + 1) (zlen u)) with true; [rewrite Z.eqb_refl; cbn; rewrite orb_true_r; left; reflexivity|].
      unfold char_is. rewrite (proj2 (Z.ltb_lt (zlen u) (zlen u + 1))) by lia. cbn. unfold v, zlen. rewrite Nat2Z.id, nth_error_app2 by lia. rewrite Nat.sub_diag. reflexivity.
Qed.
