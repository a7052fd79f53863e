(** Facts for VersionParse.v. *)
From Verif Require Import SpecParse SpecNlp PyFacts NlpFacts NlpFacts2 NlpFacts7 NlpFacts9 TableFacts TableFacts4 TableFacts5 VersionFacts DenFacts.

Definition stops (P : Z -> Prop) (r : pystr) : Prop := match r with [] => True | c :: _ => ~ P c end.
Lemma run_split (P : Z -> Prop) u1 : forall u2 r1 r2, Forall P u1 -> Forall P u2 -> stops P r1 -> stops P r2 -> u1 ++ r1 = u2 ++ r2 -> u1 = u2 /\ r1 = r2.
Proof.
  induction u1 as [|c u1 IH]; intros [|d u2] r1 r2 F1 F2 S1 S2 E; cbn [app] in E.
  - auto.
  - subst r1. inversion F2; subst. contradiction.
  - subst r2. inversion F1; subst. contradiction.
  - injection E as <- E. inversion F1; inversion F2; subst. destruct (IH u2 r1 r2) as [-> ->]; auto.
Qed.
Section Parse.
  Variable C : vclasses.
  Hypothesis Ok_ : vc_ok C.
  Notation same := (vc_same C).
  Notation space := (fun c => vc_space C c = true).
  Definition sepo (u : pystr) : Prop := u = [] \/ exists c, u = [c] /\ In c (lit "-_.").
  Lemma same_ascii p c : is_letter p -> 0 <= c < 128 -> same p c = true -> lower_of c = p.
  Proof. destruct Ok_ as (_ & _ & _ & H). intros Hp Hc E. exact (proj1 (H p c Hp Hc) E). Qed.
  Lemma same_self p : is_letter p -> same p p = true.
  Proof. intros Hp. destruct Ok_ as (_ & _ & _ & H). apply H; [exact Hp|unfold is_letter in Hp; lia|]. unfold lower_of, is_letter in *. destruct ((65 <=? p) && (p <=? 90)) eqn:E; [apply andb_true_iff in E; lia|reflexivity]. Qed.
  Lemma letter_not p c : is_letter p -> same p c = true -> ~ is_digit c /\ ~ In c (lit "-_.!+").
  Proof.
    intros Hp E. split.
    - intros D. unfold is_digit in D. pose proof (same_ascii p c Hp ltac:(lia) E) as Q. unfold lower_of, is_letter in *. destruct ((65 <=? c) && (c <=? 90)) eqn:B; [apply andb_true_iff in B; lia|lia].
    - intros D. assert (B0 : c = 45 \/ c = 95 \/ c = 46 \/ c = 33 \/ c = 43) by (cbn in D; lia). pose proof (same_ascii p c Hp ltac:(lia) E) as Q. unfold lower_of, is_letter in *. destruct ((65 <=? c) && (c <=? 90)) eqn:B; [apply andb_true_iff in B; lia|lia].
  Qed.
  Lemma among_in cs c : among cs c = true <-> In c cs.
  Proof. unfold among. rewrite existsb_exists. split; [intros (x & H & E); apply Z.eqb_eq in E; congruence|intros H; exists c; split; [exact H|apply Z.eqb_refl]]. Qed.
  (** ** what the parts stand for *)
  Lemma rounds_cls p : forall its i, rounds (den (ZCls p)) i its -> Forall (fun c => p c = true) (concat (map fst its)) /\ concat (map snd its) = [] /\ length (concat (map fst its)) = length its.
  Proof. induction its as [|[u c] its IH]; intros i H; [repeat split; constructor|]. cbn [rounds fst snd] in H. destruct H as (_ & (x & -> & Px & ->) & R). destruct (IH _ R) as (F & E & L). cbn [map fst snd concat app]. split; [constructor; assumption|]. split; [exact E|cbn; lia]. Qed.
  Lemma cls_rounds p : forall u i, Forall (fun c => p c = true) u -> exists its, rounds (den (ZCls p)) i its /\ concat (map fst its) = u /\ concat (map snd its) = [] /\ length its = length u.
  Proof. induction u as [|c u IH]; intros i F; [exists []; repeat split; constructor|]. inversion F as [|? ? Pc F']; subst. destruct (IH (i + 1) F') as (its & R & E1 & E2 & E3). exists (([c], []) :: its). cbn [rounds fst snd map concat app length]. split; [split; [discriminate|split; [exists c; auto|exact R]]|]. rewrite E1, E2, E3. auto. Qed.
  Lemma den_run g least p i u c : den (ZRep g least None (ZCls p)) i u c <-> c = [] /\ Forall (fun c => p c = true) u /\ (least <= length u)%nat.
  Proof.
    cbn [den]. split.
    - intros (its & -> & -> & R & L & _). destruct (rounds_cls p its i R) as (F & E & E2). split; [exact E|]. split; [exact F|]. exact (eq_ind_r (fun n => (least <= n)%nat) L E2).
    - intros (-> & F & L). destruct (cls_rounds p u i F) as (its & R & E1 & E2 & E3). exists its. split; [exact (eq_sym E1)|]. split; [exact (eq_sym E2)|]. split; [exact R|]. split; [exact (eq_ind_r (fun n => (least <= n)%nat) L E3)|exact I].
  Qed.
  Lemma den_digits i u c : den p_digits i u c <-> c = [] /\ is_number u.
  Proof. unfold p_digits, ZPlus. rewrite den_run. unfold is_number. rewrite (Forall_iff (fun c => v_digit c = true) is_digit) by apply v_digit_is. split; intros (E & H1 & H2); (split; [exact E|]); [split; [intros ->; cbn in H2; lia|exact H1]|]. split; [exact H2|destruct u; [congruence|cbn; lia]]. Qed.
  Lemma den_opt a i u c : den (ZOpt a) i u c <-> (u = [] /\ c = []) \/ (u <> [] /\ den a i u c).
  Proof.
    unfold ZOpt. cbn [den]. split.
    - intros (its & -> & -> & R & _ & L). destruct its as [|[v d] [|]]; [auto| |cbn in L; lia]. cbn [rounds fst snd map concat] in *. rewrite !app_nil_r. right. tauto.
    - intros [[-> ->]|[N D]]; [exists []; repeat split; cbn; lia|]. exists [(u, c)]. cbn [rounds fst snd map concat length]. rewrite !app_nil_r. repeat split; auto.
  Qed.
  Lemma den_sep i u c : den p_sep i u c <-> c = [] /\ sepo u.
  Proof.
    unfold p_sep. rewrite den_opt. cbn [den]. unfold sepo. split.
    - intros [[-> ->]|[_ (x & -> & H & ->)]]; [auto|]. apply among_in in H. split; [reflexivity|right; exists x; auto].
    - intros (-> & [->|(x & -> & H)]); [auto|]. right. split; [discriminate|]. exists x. rewrite among_in. auto.
  Qed.
  Lemma den_word w : forall i u c, den (p_word C w) i u c <-> c = [] /\ Forall2 (fun p x => same p x = true) w u.
  Proof.
    unfold p_word. induction w as [|p w IH]; intros i u c; cbn [map ZSeqs fold_right].
    - cbn [den]. split; [intros [-> ->]; auto|intros (-> & H); inversion H; auto].
    - change (fold_right ZSeq (ZStr []) (map (fun p0 => ZCls (same p0)) w)) with (ZSeqs (map (fun p0 => ZCls (same p0)) w)). split.
      + intros H. cbn [den] in H. destruct H as (u1 & u2 & c1 & c2 & -> & -> & (x & -> & E & ->) & H). apply IH in H. destruct H as [-> H]. split; [reflexivity|]. constructor; assumption.
      + intros (-> & H). inversion H as [|? x ? u' E H']; subst. cbn [den]. exists [x], u', [], []. split; [reflexivity|]. split; [reflexivity|]. split; [exists x; auto|]. apply IH. auto.
  Qed.
  Definition one_of (ws : list pystr) (u : pystr) : Prop := exists w, In w ws /\ Forall2 (fun p x => same p x = true) w u.
  Lemma den_alts : forall ws w i u c, den (p_alts C w ws) i u c <-> c = [] /\ one_of (w :: ws) u.
  Proof.
    induction ws as [|x ws IH]; intros w i u c; cbn [p_alts].
    - rewrite den_word. unfold one_of. split; [intros [-> H]; split; [reflexivity|exists w; split; [left; reflexivity|exact H]]|intros (-> & w' & [<-|[]] & H); auto].
    - cbn [den]. rewrite den_word, IH. unfold one_of. split.
      + intros [[-> H]|(-> & w' & I1 & H)]; (split; [reflexivity|]); [exists w; split; [left; reflexivity|exact H]|exists w'; split; [right; exact I1|exact H]].
      + intros (-> & w' & [<-|I1] & H); [left; auto|right]. split; [reflexivity|]. exists w'. auto.
  Qed.
  (** separator, letters, separator, number *)
  Definition label_caps (l n : pystr) (i : Z) (s1 t s2 d : pystr) : caps :=
    (l, (i + zlen s1, i + zlen s1 + zlen t)) :: match d with [] => [] | _ => [(n, (i + zlen s1 + zlen t + zlen s2, i + zlen s1 + zlen t + zlen s2 + zlen d))] end.
  Lemma den_label l n lab (L : pystr -> Prop) i u c : (forall i u c, den lab i u c <-> c = [] /\ L u) ->
    (den (p_label l n lab) i u c <-> exists s1 t s2 d, u = s1 ++ t ++ s2 ++ d /\ sepo s1 /\ L t /\ sepo s2 /\ Forall is_digit d /\ c = label_caps l n i s1 t s2 d).
  Proof.
    intros HL. unfold p_label. split.
    - intros (s1 & u1 & c1 & c2 & -> & -> & D1 & (t & u2 & c3 & c4 & -> & -> & (c5 & D2 & ->) & (s2 & d & c6 & c7 & -> & -> & D3 & D4))). apply den_sep in D1. destruct D1 as [-> S1]. apply HL in D2. destruct D2 as [-> Lt]. apply den_sep in D3. destruct D3 as [-> S2]. cbn [app]. exists s1, t, s2, d. split; [reflexivity|]. split; [exact S1|]. split; [exact Lt|]. split; [exact S2|]. unfold label_caps.
      apply den_opt in D4. destruct D4 as [[-> ->]|[N (c8 & D4 & ->)]]; [split; [constructor|reflexivity]|]. apply den_digits in D4. destruct D4 as [-> [_ F]]. split; [exact F|]. destruct d; [congruence|]. reflexivity.
    - intros (s1 & t & s2 & d & -> & S1 & Lt & S2 & F & ->). exists s1, (t ++ s2 ++ d), [], (label_caps l n i s1 t s2 d). split; [reflexivity|]. split; [reflexivity|]. split; [apply den_sep; auto|].
      exists t, (s2 ++ d), [(l, (i + zlen s1, i + zlen s1 + zlen t))], (match d with [] => [] | _ => [(n, (i + zlen s1 + zlen t + zlen s2, i + zlen s1 + zlen t + zlen s2 + zlen d))] end). split; [reflexivity|]. split; [reflexivity|]. split; [exists []; split; [apply HL; auto|reflexivity]|].
      exists s2, d, [], (match d with [] => [] | _ => [(n, (i + zlen s1 + zlen t + zlen s2, i + zlen s1 + zlen t + zlen s2 + zlen d))] end). split; [reflexivity|]. split; [reflexivity|]. split; [apply den_sep; auto|]. apply den_opt. destruct d as [|c d]; [auto|]. right. split; [discriminate|]. exists []. split; [apply den_digits; split; [reflexivity|split; [discriminate|exact F]]|reflexivity].
  Qed.
  Definition labelled (l n k : pystr) (L : pystr -> Prop) (i : Z) (u : pystr) (c : caps) : Prop :=
    exists s1 t s2 d, u = s1 ++ t ++ s2 ++ d /\ sepo s1 /\ L t /\ sepo s2 /\ Forall is_digit d /\ c = label_caps l n i s1 t s2 d ++ [(k, (i, i + zlen u))].
  Definition pre_words := [lit "a"; lit "b"; lit "c"; lit "rc"; lit "alpha"; lit "beta"; lit "pre"; lit "preview"].
  Definition post_words := [lit "post"; lit "rev"; lit "r"].
  Definition dev_words := [lit "dev"].
  Lemma word_full ws u : Forall (fun w => w <> []) ws -> one_of ws u -> u <> [].
  Proof. intros F (w & Hw & H) ->. rewrite Forall_forall in F. specialize (F w Hw). inversion H; congruence. Qed.
  Lemma den_pre i u c : den (p_pre C) i u c <-> (u = [] /\ c = []) \/ labelled (lit "pre_l") (lit "pre_n") (lit "pre") (one_of pre_words) i u c.
  Proof.
    unfold p_pre. rewrite den_opt. split; (intros [H|H]; [left; exact H|]).
    - destruct H as [N (d & D & ->)]. apply (den_label _ _ _ (one_of pre_words)) in D; [|intros; apply den_alts]. destruct D as (s1 & t & s2 & d' & E & S1 & Lt & S2 & F & ->). right. exists s1, t, s2, d'. auto 10.
    - destruct H as (s1 & t & s2 & d' & E & S1 & Lt & S2 & F & ->). right. split; [intros ->; destruct s1; [|discriminate E]; destruct t; [|discriminate E]; revert Lt; intros Lt; apply (word_full pre_words) in Lt; [congruence|repeat constructor; discriminate]|].
      exists (label_caps (lit "pre_l") (lit "pre_n") i s1 t s2 d'). split; [|reflexivity]. apply (den_label _ _ _ (one_of pre_words)); [intros; apply den_alts|]. exists s1, t, s2, d'. auto 10.
  Qed.
  Lemma den_dev i u c : den (p_dev C) i u c <-> (u = [] /\ c = []) \/ labelled (lit "dev_l") (lit "dev_n") (lit "dev") (one_of dev_words) i u c.
  Proof.
    assert (W : forall i u c, den (p_word C (lit "dev")) i u c <-> c = [] /\ one_of dev_words u) by (intros; exact (den_alts [] (lit "dev") _ _ _)).
    unfold p_dev. rewrite den_opt. split; (intros [H|H]; [left; exact H|]).
    - destruct H as [N (d & D & ->)]. apply (den_label _ _ _ (one_of dev_words) _ _ _ W) in D. destruct D as (s1 & t & s2 & d' & E & S1 & Lt & S2 & F & ->). right. exists s1, t, s2, d'. auto 10.
    - destruct H as (s1 & t & s2 & d' & E & S1 & Lt & S2 & F & ->). right. split; [intros ->; destruct s1; [|discriminate E]; destruct t; [|discriminate E]; revert Lt; intros Lt; apply (word_full dev_words) in Lt; [congruence|repeat constructor; discriminate]|].
      exists (label_caps (lit "dev_l") (lit "dev_n") i s1 t s2 d'). split; [|reflexivity]. apply (den_label _ _ _ (one_of dev_words) _ _ _ W). exists s1, t, s2, d'. auto 10.
  Qed.
  Lemma den_post i u c : den (p_post C) i u c <-> (u = [] /\ c = []) \/ (exists d, u = lit "-" ++ d /\ is_number d /\ c = [(lit "post_n1", (i + 1, i + 1 + zlen d)); (lit "post", (i, i + zlen u))]) \/ labelled (lit "post_l") (lit "post_n2") (lit "post") (one_of post_words) i u c.
  Proof.
    unfold p_post. rewrite den_opt. split; (intros [H|H]; [left; exact H|]).
    - destruct H as [N (d & [D|D] & ->)]; right.
      + destruct D as (u1 & u2 & c1 & c2 & -> & -> & [-> ->] & (c3 & D & ->)). apply den_digits in D. destruct D as [-> D]. left. exists u2. auto.
      + apply (den_label _ _ _ (one_of post_words)) in D; [|intros; apply den_alts]. destruct D as (s1 & t & s2 & d' & E & S1 & Lt & S2 & F & ->). right. exists s1, t, s2, d'. auto 10.
    - right. destruct H as [(d & -> & D & ->)|(s1 & t & s2 & d' & E & S1 & Lt & S2 & F & ->)].
      + split; [discriminate|]. exists [(lit "post_n1", (i + 1, i + 1 + zlen d))]. split; [|reflexivity]. left. exists (lit "-"), d, [], [(lit "post_n1", (i + 1, i + 1 + zlen d))]. split; [reflexivity|]. split; [reflexivity|]. split; [split; reflexivity|]. exists []. split; [apply den_digits; auto|reflexivity].
      + split; [intros ->; destruct s1; [|discriminate E]; destruct t; [|discriminate E]; revert Lt; intros Lt; apply (word_full post_words) in Lt; [congruence|repeat constructor; discriminate]|].
        exists (label_caps (lit "post_l") (lit "post_n2") i s1 t s2 d'). split; [|reflexivity]. right. apply (den_label _ _ _ (one_of post_words)); [intros; apply den_alts|]. exists s1, t, s2, d'. auto 10.
  Qed.
  Lemma den_epoch i u c : den p_epoch i u c <-> (u = [] /\ c = []) \/ exists d, u = d ++ lit "!" /\ is_number d /\ c = [(lit "epoch", (i, i + zlen d))].
  Proof.
    unfold p_epoch. rewrite den_opt. split; (intros [H|H]; [left; exact H|right]).
    - destruct H as [_ (u1 & u2 & c1 & c2 & -> & -> & (c3 & D & ->) & [-> ->])]. apply den_digits in D. destruct D as [-> D]. exists u1. auto.
    - destruct H as (d & -> & D & ->). split; [destruct d; discriminate|]. exists d, (lit "!"), [(lit "epoch", (i, i + zlen d))], []. split; [reflexivity|]. split; [reflexivity|]. split; [exists []; split; [apply den_digits; auto|reflexivity]|split; reflexivity].
  Qed.
  Lemma den_release i u c : den p_release i u c <-> c = [(lit "release", (i, i + zlen u))] /\ exists n ns, u = n ++ tail_of 46 ns /\ is_number n /\ Forall is_number ns.
  Proof.
    unfold p_release. cbn [den]. split.
    - intros (d & (u1 & u2 & c1 & c2 & -> & -> & D & D2) & ->). apply den_digits in D. destruct D as [-> D].
      assert (H : c2 = [] /\ exists ns, u2 = tail_of 46 ns /\ Forall is_number ns).
      { destruct D2 as (its & -> & -> & R & _). revert R. generalize (i + zlen u1). induction its as [|[v d] its IH]; intros j R; [split; [reflexivity|exists []; split; [reflexivity|constructor]]|]. cbn [rounds fst snd] in R. destruct R as (_ & (v1 & v2 & d1 & d2 & -> & -> & [-> ->] & Dv) & R). apply den_digits in Dv. destruct Dv as [-> Dv]. destruct (IH _ R) as (E & ns & E2 & F). cbn [map fst snd concat app]. rewrite E, E2. split; [reflexivity|]. exists (v2 :: ns). split; [reflexivity|constructor; assumption]. }
      destruct H as (-> & ns & -> & F). split; [reflexivity|]. exists u1, ns. auto.
    - intros (-> & n & ns & -> & Hn & F). exists []. split; [|reflexivity]. exists n, (tail_of 46 ns), [], []. split; [reflexivity|]. split; [reflexivity|]. split; [apply den_digits; auto|]. generalize (i + zlen n).
      exists (map (fun x => (46 :: x, [])) ns). unfold tail_of. rewrite !map_map. cbn [fst snd]. split; [reflexivity|]. split; [clear; induction ns; [reflexivity|exact IHns]|]. split; [|split; [lia|exact I]]. revert z. induction F as [|x ns Hx F IH]; intros z; [exact I|]. cbn [map rounds fst snd]. split; [discriminate|]. split; [|apply IH]. exists [46], x, [], []. split; [reflexivity|]. split; [reflexivity|]. split; [split; reflexivity|]. apply den_digits. auto.
  Qed.
  Definition alnums (u : pystr) : Prop := u <> [] /\ Forall (fun c => p_alnum C c = true) u.
  Definition locals (u : pystr) : Prop := exists x ps, u = x ++ concat (map (fun p => fst p :: snd p) ps) /\ alnums x /\ Forall (fun p => In (fst p) (lit "-_.") /\ alnums (snd p)) ps.
  Lemma den_alnums i u c : den (ZPlus (ZCls (p_alnum C))) i u c <-> c = [] /\ alnums u.
  Proof. unfold ZPlus. rewrite den_run. unfold alnums. split; intros (E & H1 & H2); (split; [exact E|]); [split; [intros ->; cbn in H2; lia|exact H1]|]. split; [exact H2|destruct u; [congruence|cbn; lia]]. Qed.
  Lemma den_local i u c : den (p_local C) i u c <-> (u = [] /\ c = []) \/ exists l, u = lit "+" ++ l /\ locals l /\ c = [(lit "local", (i + 1, i + 1 + zlen l))].
  Proof.
    unfold p_local. rewrite den_opt. split; (intros [H|H]; [left; exact H|right]).
    - destruct H as [_ (u1 & l & c1 & c2 & -> & -> & [-> ->] & (c3 & (x & y & c4 & c5 & -> & -> & D & D2) & ->))]. apply den_alnums in D. destruct D as [-> D].
      assert (H : c5 = [] /\ exists ps, y = concat (map (fun p => fst p :: snd p) ps) /\ Forall (fun p => In (fst p) (lit "-_.") /\ alnums (snd p)) ps).
      { destruct D2 as (its & -> & -> & R & _). revert R. generalize (i + zlen (lit "+") + zlen x). induction its as [|[v d] its IH]; intros j R; [split; [reflexivity|exists []; split; [reflexivity|constructor]]|]. cbn [rounds fst snd] in R. destruct R as (_ & (v1 & v2 & d1 & d2 & -> & -> & (s0 & -> & Hs & ->) & Dv) & R). apply den_alnums in Dv. destruct Dv as [-> Dv]. destruct (IH _ R) as (E & ps & E2 & F). cbn [map fst snd concat app]. rewrite E, E2. split; [reflexivity|]. exists ((s0, v2) :: ps). split; [reflexivity|constructor; [|exact F]]. cbn [fst snd]. rewrite <- among_in. auto. }
      destruct H as (-> & ps & -> & F). eexists. split; [reflexivity|]. split; [exists x, ps; auto|reflexivity].
    - destruct H as (l & -> & (x & ps & -> & D & F) & ->). split; [discriminate|]. eexists (lit "+"), _, [], _. split; [reflexivity|]. split; [reflexivity|]. split; [split; reflexivity|]. exists []. split; [|reflexivity]. eexists x, _, [], []. split; [reflexivity|]. split; [reflexivity|]. split; [apply den_alnums; auto|]. generalize (i + zlen (lit "+") + zlen x).
      exists (map (fun p => (fst p :: snd p, [])) ps). rewrite !map_map. cbn [fst snd]. split; [reflexivity|]. split; [clear; induction ps; [reflexivity|exact IHps]|]. split; [|split; [lia|exact I]]. revert z. induction F as [|p ps [Hs Hx] F IH]; intros z; [exact I|]. cbn [map rounds fst snd]. split; [discriminate|]. split; [|apply IH]. exists [fst p], (snd p), [], []. split; [reflexivity|]. split; [reflexivity|]. split; [exists (fst p); rewrite among_in; auto|]. apply den_alnums. auto.
  Qed.
End Parse.
