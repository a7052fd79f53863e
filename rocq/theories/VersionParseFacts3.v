(** Facts for VersionParse.v: an identifier is read, and its groups are its parts. *)
From Verif Require Import SpecParse SpecNlp PyFacts NlpFacts NlpFacts2 NlpFacts7 NlpFacts9 TableFacts TableFacts4 TableFacts5 VersionFacts DenFacts VersionParseFacts VersionParseFacts2.

Fixpoint dseq (rs : list trx) (i : Z) (u : pystr) (c : caps) : Prop :=
  match rs with [] => u = [] /\ c = [] | r :: rs' => exists u1 u2 c1 c2, u = u1 ++ u2 /\ c = c1 ++ c2 /\ den r i u1 c1 /\ dseq rs' (i + zlen u1) u2 c2 end.
Section Ways.
  Variables (s : pystr) (e : Z).
  Hypothesis He : e <= zlen s.
  Lemma ways_to_end : forall rs, forallb bare rs = true -> forall x, 0 <= fst x <= e -> forall w, In w (zways (ZSeqs (rs ++ [ZEnd])) s e x) <->
    exists u c, dseq rs (fst x) u c /\ written s e (fst x) u /\ w = (fst x + zlen u, snd x ++ c) /\ (fst w = e \/ (fst w + 1 = e /\ char_is (Z.eqb 10) s e (fst w) = true)).
  Proof.
    induction rs as [|r rs IH]; intros Hb x Hx w; cbn [app ZSeqs fold_right].
    - cbn [zways]. split.
      + intros H. apply in_flat_map in H. destruct H as (y & Hy & H). destruct ((fst x =? e) || ((fst x + 1 =? e) && char_is (Z.eqb 10) s e (fst x))) eqn:E; [|destruct Hy]. destruct Hy as [<-|[]]. destruct (str_at [] s e (fst x)); [|destruct H]. destruct H as [<-|[]].
        exists [], []. split; [split; reflexivity|]. change (zlen (@nil Z)) with 0. rewrite Z.add_0_r, app_nil_r. split; [apply written_nil; exact Hx|]. split; [reflexivity|]. cbn [fst]. apply orb_true_iff in E. destruct E as [E|E]; [left; lia|]. apply andb_true_iff in E. right. split; [lia|apply E].
      + intros (u & c & [-> ->] & W & -> & E). change (zlen (@nil Z)) with 0 in *. rewrite Z.add_0_r, app_nil_r in *. cbn [fst] in E. apply in_flat_map. exists x. split.
        * replace ((fst x =? e) || ((fst x + 1 =? e) && char_is (Z.eqb 10) s e (fst x))) with true; [left; reflexivity|]. symmetry. apply orb_true_iff. destruct E as [E|[E1 E2]]; [left; lia|right]. rewrite E2, andb_true_r. lia.
        * rewrite (str_written s e [] (fst x) ltac:(lia) W). left. change (zlen (@nil Z)) with 0. rewrite Z.add_0_r. reflexivity.
    - cbn [forallb] in Hb. apply andb_true_iff in Hb. destruct Hb as [Hr Hb]. change (fold_right ZSeq (ZStr []) (rs ++ [ZEnd])) with (ZSeqs (rs ++ [ZEnd])). cbn [zways]. split.
      + intros H. apply in_flat_map in H. destruct H as (y & Hy & H). apply (ways_den s e He r Hr x Hx) in Hy. destruct Hy as (u1 & c1 & D1 & W1 & ->). pose proof (written_end _ _ _ _ W1) as B. pose proof (zlen_nonneg u1) as L. apply (IH Hb) in H; [|cbn [fst]; lia]. destruct H as (u2 & c2 & D2 & W2 & -> & E). cbn [fst snd] in *.
        exists (u1 ++ u2), (c1 ++ c2). split; [exists u1, u2, c1, c2; auto|]. split; [apply (written_app s e He); [lia|auto]|]. rewrite zlen_app, app_assoc, Z.add_assoc. auto.
      + intros (u & c & (u1 & u2 & c1 & c2 & -> & -> & D1 & D2) & W & -> & E). apply (written_app s e He) in W; [|lia]. destruct W as [W1 W2]. pose proof (written_end _ _ _ _ W1) as B. pose proof (zlen_nonneg u1) as L. apply in_flat_map. exists (fst x + zlen u1, snd x ++ c1). split; [apply (ways_den s e He r Hr x Hx); exists u1, c1; auto|]. apply (IH Hb); [cbn [fst]; lia|]. cbn [fst snd] in *. exists u2, c2. rewrite zlen_app, app_assoc, Z.add_assoc in *. auto.
  Qed.
End Ways.
(** the release *)
Lemma quiet_tail ns R : Forall is_number ns -> quiet R -> stops is_digit (tail_of 46 ns ++ R).
Proof. intros F Q. destruct ns as [|n ns]; [exact (quiet_stops R Q)|]. cbn. unfold is_digit. lia. Qed.
Lemma tail_unique : forall ns ms R R', Forall is_number ns -> Forall is_number ms -> quiet R -> quiet R' -> tail_of 46 ns ++ R = tail_of 46 ms ++ R' -> ns = ms /\ R = R'.
Proof.
  assert (X : forall n R R', is_number n -> quiet R' -> R' = 46 :: n ++ R -> False).
  { intros n R R' [Nn F] Q E. subst R'. destruct Q as (_ & _ & Q). specialize (Q eq_refl). destruct n as [|a n]; [congruence|]. cbn in Q. inversion F. contradiction. }
  induction ns as [|n ns IH]; intros [|m ms] R R' F F' Q Q' E.
  - auto.
  - exfalso. inversion F' as [|? ? Hm Fm]; subst. change (R = (46 :: m ++ tail_of 46 ms) ++ R') in E. cbn [app] in E. rewrite <- app_assoc in E. exact (X m _ R Hm Q E).
  - exfalso. inversion F as [|? ? Hm Fm]; subst. change ((46 :: n ++ tail_of 46 ns) ++ R = R') in E. cbn [app] in E. rewrite <- app_assoc in E. exact (X n _ R' Hm Q' (eq_sym E)).
  - inversion F as [|? ? Hn Fn]; inversion F' as [|? ? Hm Fm]; subst. change ((46 :: n ++ tail_of 46 ns) ++ R = (46 :: m ++ tail_of 46 ms) ++ R') in E. cbn [app] in E. rewrite <- !app_assoc in E. injection E as E.
    destruct (run_split is_digit _ _ _ _ (proj2 Hn) (proj2 Hm) (quiet_tail ns R Fn Q) (quiet_tail ms R' Fm Q') E) as [-> E2]. destruct (IH ms R R' Fn Fm Q Q' E2) as [-> ->]. auto.
Qed.
Notation releases := release_like.
Lemma release_unique u u' R R' : releases u -> releases u' -> quiet R -> quiet R' -> u ++ R = u' ++ R' -> u = u' /\ R = R'.
Proof.
  intros (n & ns & -> & Hn & F) (m & ms & -> & Hm & F') Q Q' E. rewrite <- !app_assoc in E. destruct (run_split is_digit _ _ _ _ (proj2 Hn) (proj2 Hm) (quiet_tail ns R F Q) (quiet_tail ms R' F' Q') E) as [-> E2]. destruct (tail_unique ns ms R R' F F' Q Q' E2) as [-> ->]. auto.
Qed.
Lemma release_head u : releases u -> exists c r, u = c :: r /\ is_digit c.
Proof. intros (n & ns & -> & [Nn F] & _). destruct n as [|c n]; [congruence|]. exists c, (n ++ tail_of 46 ns). split; [reflexivity|]. inversion F; assumption. Qed.
(** the epoch *)
Definition epochs (u : pystr) : Prop := u = [] \/ exists d, u = d ++ lit "!" /\ is_number d.
Lemma epoch_clash d R u T : is_number d -> releases u -> quiet T -> (d ++ lit "!") ++ R = u ++ T -> False.
Proof.
  intros Hd (m & ms & -> & Hm & F) Q E. rewrite <- !app_assoc in E. assert (S1 : stops is_digit (lit "!" ++ R)) by (cbn; unfold is_digit; lia). destruct (run_split is_digit _ _ _ _ (proj2 Hd) (proj2 Hm) S1 (quiet_tail ms T F Q) E) as [_ E2].
  destruct ms as [|x ms]; [|discriminate E2]. cbn [tail_of map concat app] in E2. subst T. destruct Q as (_ & Q & _). apply Q. reflexivity.
Qed.
Lemma epoch_unique (o : option pystr) u T a u' T' : if_any is_number o -> releases u -> quiet T -> epochs a -> releases u' -> quiet T' -> text_if (fun n => n ++ lit "!") o ++ u ++ T = a ++ u' ++ T' -> a = text_if (fun n => n ++ lit "!") o /\ u' = u /\ T' = T.
Proof.
  intros Ho Hu Q Ha Hu' Q' E. destruct o as [n|]; cbn [text_if if_any] in *; destruct Ha as [->|(d & -> & Hd)]; cbn [app] in E.
  - exfalso. exact (epoch_clash n _ u' T' Ho Hu' Q' E).
  - rewrite <- !app_assoc in E. assert (S1 : forall R, stops is_digit (lit "!" ++ R)) by (intros R; cbn; unfold is_digit; lia). destruct (run_split is_digit _ _ _ _ (proj2 Ho) (proj2 Hd) (S1 _) (S1 _) E) as [<- E2]. injection E2 as E2. destruct (release_unique u u' T T' Hu Hu' Q Q' E2) as [-> ->]. auto.
  - destruct (release_unique u u' T T' Hu Hu' Q Q' E) as [-> ->]. auto.
  - exfalso. exact (epoch_clash d _ u T Hd Hu Q (eq_sym E)).
Qed.
Section Parse.
  Variable C : vclasses.
  Hypothesis Ok_ : vc_ok C.
  Notation same := (vc_same C).
  Notation spaces := (Forall (fun c => vc_space C c = true)).
  Notation ep_t := (text_if (fun n => n ++ lit "!")).
  Notation pre_t := (text_if (fun p : pystr * pystr => fst p ++ snd p)).
  Notation post_t := (text_if (fun n => lit ".post" ++ n)).
  Notation dev_t := (text_if (fun n => lit ".dev" ++ n)).
  Notation loc_t := (text_if (fun u => lit "+" ++ u)).
  Definition w_epoch (i : Z) (o : option pystr) : caps := match o with Some n => [(lit "epoch", (i, i + zlen n))] | None => [] end.
  Definition w_release (i : Z) (u : pystr) : caps := [(lit "release", (i, i + zlen u))].
  Definition w_pre (i : Z) (o : option (pystr * pystr)) : caps := match o with Some p => label_caps (lit "pre_l") (lit "pre_n") i [] (fst p) [] (snd p) ++ [(lit "pre", (i, i + zlen (fst p ++ snd p)))] | None => [] end.
  Definition w_post (i : Z) (o : option pystr) : caps := match o with Some n => label_caps (lit "post_l") (lit "post_n2") i (lit ".") (lit "post") [] n ++ [(lit "post", (i, i + zlen (lit ".post" ++ n)))] | None => [] end.
  Definition w_dev (i : Z) (o : option pystr) : caps := match o with Some n => label_caps (lit "dev_l") (lit "dev_n") i (lit ".") (lit "dev") [] n ++ [(lit "dev", (i, i + zlen (lit ".dev" ++ n)))] | None => [] end.
  Definition w_local (i : Z) (o : option pystr) : caps := match o with Some l => [(lit "local", (i + 1, i + 1 + zlen l))] | None => [] end.
  Definition want (i : Z) (d : identifier) : caps :=
    let i1 := i + zlen (ep_t (id_epoch d)) in let i2 := i1 + zlen (id_release d) in let i3 := i2 + zlen (pre_t (id_pre d)) in let i4 := i3 + zlen (post_t (id_post d)) in let i5 := i4 + zlen (dev_t (id_dev d)) in
    w_epoch i (id_epoch d) ++ w_release i1 (id_release d) ++ w_pre i2 (id_pre d) ++ w_post i3 (id_post d) ++ w_dev i4 (id_dev d) ++ w_local i5 (id_local d).
  Lemma word_self w : Forall is_letter w -> Forall2 (fun p x => same p x = true) w w.
  Proof. induction 1; constructor; [apply same_self; assumption|assumption]. Qed.
  Lemma alnum_loose x : alnum_text x -> alnums C x.
  Proof.
    intros [N F]. split; [exact N|]. eapply Forall_impl; [|exact F]. cbn beta. intros c [H|H]; unfold p_alnum; apply orb_true_iff; [right|left; apply v_digit_is; exact H]. apply existsb_exists. exists c. split; [|apply (same_self C Ok_); exact H]. unfold is_letter in H. change a_to_z with [97;98;99;100;101;102;103;104;105;106;107;108;109;110;111;112;113;114;115;116;117;118;119;120;121;122]. cbn [In]. lia.
  Qed.
  Lemma local_loose (o : option pystr) : if_any (fun u => exists x ps, u = x ++ concat (map (fun p => fst p :: snd p) ps) /\ alnum_text x /\ Forall (fun p => In (fst p) (lit "-_.") /\ alnum_text (snd p)) ps) o -> if_any (locals C) o.
  Proof. destruct o as [u|]; [|auto]. cbn [if_any]. intros (x & ps & E & Hx & F). exists x, ps. split; [exact E|]. split; [apply alnum_loose; exact Hx|]. eapply Forall_impl; [|exact F]. cbn beta. intros p [H1 H2]. split; [exact H1|apply alnum_loose; exact H2]. Qed.
  Lemma letters_of w : forallb (fun c => (97 <=? c) && (c <=? 122)) w = true -> Forall is_letter w.
  Proof. rewrite forallb_forall, Forall_forall. intros H c Hc. specialize (H c Hc). apply andb_true_iff in H. unfold is_letter. lia. Qed.
  Lemma pre_in k : In k [lit "a"; lit "b"; lit "rc"] -> one_of C pre_words k.
  Proof. intros H. exists k. split; [|apply word_self, letters_of; destruct H as [<-|[<-|[<-|[]]]]; reflexivity]. destruct H as [<-|[<-|[<-|[]]]]; [left|right; left|right; right; right; left]; reflexivity. Qed.
  Lemma post_in : one_of C post_words (lit "post"). Proof. exists (lit "post"). split; [left; reflexivity|apply word_self, letters_of; reflexivity]. Qed.
  Lemma dev_in : one_of C dev_words (lit "dev"). Proof. exists (lit "dev"). split; [left; reflexivity|apply word_self, letters_of; reflexivity]. Qed.
  Lemma dot_sep : sepo (lit "."). Proof. right. exists 46. split; [reflexivity|]. right; right; left. reflexivity. Qed.
  (** ** the parts of an identifier are read *)
  Variable d : identifier.
  Hypothesis Hd : id_ok d.
  Let He : if_any is_number (id_epoch d). Proof. exact (proj1 Hd). Qed.
  Let Hr : releases (id_release d). Proof. exact (proj1 (proj2 Hd)). Qed.
  Let Hp : if_any (fun p => In (fst p) [lit "a"; lit "b"; lit "rc"] /\ is_number (snd p)) (id_pre d). Proof. exact (proj1 (proj2 (proj2 Hd))). Qed.
  Let Ho : if_any is_number (id_post d). Proof. exact (proj1 (proj2 (proj2 (proj2 Hd)))). Qed.
  Let Hv : if_any is_number (id_dev d). Proof. exact (proj1 (proj2 (proj2 (proj2 (proj2 Hd))))). Qed.
  Let Hl : if_any (locals C) (id_local d). Proof. exact (local_loose _ (proj2 (proj2 (proj2 (proj2 (proj2 Hd)))))). Qed.
  Lemma reads_epoch i : den p_epoch i (ep_t (id_epoch d)) (w_epoch i (id_epoch d)).
  Proof. apply den_epoch. destruct (id_epoch d) as [n|]; [right; exists n; auto|auto]. Qed.
  Lemma reads_release i : den p_release i (id_release d) (w_release i (id_release d)).
  Proof. apply den_release. split; [reflexivity|exact Hr]. Qed.
  Lemma reads_pre i : den (p_pre C) i (pre_t (id_pre d)) (w_pre i (id_pre d)).
  Proof. apply den_pre. destruct (id_pre d) as [[k n]|]; [|auto]. destruct Hp as [Hk [_ F]]. cbn [fst snd] in *. right. exists [], k, [], n. split; [reflexivity|]. split; [left; reflexivity|]. split; [apply pre_in; exact Hk|]. split; [left; reflexivity|]. auto. Qed.
  Lemma reads_post i : den (p_post C) i (post_t (id_post d)) (w_post i (id_post d)).
  Proof. apply den_post. destruct (id_post d) as [n|]; [|auto]. destruct Ho as [_ F]. right. right. exists (lit "."), (lit "post"), [], n. split; [reflexivity|]. split; [exact dot_sep|]. split; [exact post_in|]. split; [left; reflexivity|]. auto. Qed.
  Lemma reads_dev i : den (p_dev C) i (dev_t (id_dev d)) (w_dev i (id_dev d)).
  Proof. apply den_dev. destruct (id_dev d) as [n|]; [|auto]. destruct Hv as [_ F]. right. exists (lit "."), (lit "dev"), [], n. split; [reflexivity|]. split; [exact dot_sep|]. split; [exact dev_in|]. split; [left; reflexivity|]. auto. Qed.
  Lemma reads_local i : den (p_local C) i (loc_t (id_local d)) (w_local i (id_local d)).
  Proof. apply den_local. destruct (id_local d) as [n|]; [|auto]. right. exists n. auto. Qed.
  Lemma reads_space i w : spaces w -> den (p_space C) i w [].
  Proof. intros F. unfold p_space, ZStar. apply den_run. split; [reflexivity|]. split; [exact F|lia]. Qed.
  Definition v_opt (pv : pystr) : Prop := pv = [] \/ pv = lit "v".
  Definition body : list trx := [p_space C; ZOpt (p_word C (lit "v")); p_epoch; p_release; p_pre C; p_post C; p_dev C; p_local C; p_space C].
  Lemma reads_v i pv : v_opt pv -> den (ZOpt (p_word C (lit "v"))) i pv [].
  Proof. intros H. apply den_opt. destruct H as [->| ->]; [auto|]. right. split; [discriminate|]. apply den_word. split; [reflexivity|apply word_self, letters_of; reflexivity]. Qed.
  Lemma body_reads w1 pv w2 : spaces w1 -> v_opt pv -> spaces w2 -> dseq body 0 (w1 ++ pv ++ id_text d ++ w2) (want (zlen w1 + zlen pv) d).
  Proof.
    intros F1 V F2. unfold body. cbn [dseq]. exists w1, (pv ++ id_text d ++ w2), [], (want (zlen w1 + zlen pv) d). split; [reflexivity|]. split; [reflexivity|]. split; [apply reads_space; exact F1|]. rewrite Z.add_0_l.
    exists pv, (id_text d ++ w2), [], (want (zlen w1 + zlen pv) d). split; [reflexivity|]. split; [reflexivity|]. split; [apply reads_v; exact V|]. unfold id_text, want. rewrite <- !app_assoc.
    eexists _, _, _, _. split; [reflexivity|]. split; [reflexivity|]. split; [apply reads_epoch|].
    eexists _, _, _, _. split; [reflexivity|]. split; [reflexivity|]. split; [apply reads_release|].
    eexists _, _, _, _. split; [reflexivity|]. split; [reflexivity|]. split; [apply reads_pre|].
    eexists _, _, _, _. split; [reflexivity|]. split; [reflexivity|]. split; [apply reads_post|].
    eexists _, _, _, _. split; [reflexivity|]. split; [reflexivity|]. split; [apply reads_dev|].
    eexists _, _, _, []. split; [reflexivity|]. split; [rewrite app_nil_r; reflexivity|]. split; [apply reads_local|].
    exists w2, [], [], []. split; [rewrite app_nil_r; reflexivity|]. split; [reflexivity|]. split; [apply reads_space; exact F2|split; reflexivity].
  Qed.
  (** ** and nothing else is *)
  Lemma space_run i u c : den (p_space C) i u c -> c = [] /\ spaces u.
  Proof. unfold p_space, ZStar. rewrite den_run. tauto. Qed.
  Lemma local_is i u c : den (p_local C) i u c -> plus_part C u /\ forall o, u = loc_t o -> c = w_local i o.
  Proof.
    intros D. apply den_local in D. destruct D as [[-> ->]|(l & -> & Hl' & ->)].
    - split; [left; reflexivity|]. intros [l|] E; [discriminate E|reflexivity].
    - split; [right; exists l; auto|]. intros [l'|] E; [|discriminate E]. injection E as ->. reflexivity.
  Qed.
  Lemma part_is l n k ws i u c : labelled l n k (one_of C ws) i u c -> part_of C ws u.
  Proof. intros (s1 & t & s2 & x & E & S1 & Lt & S2 & F & _). exists s1, t, s2, x. auto. Qed.
  Lemma dev_is i u c : den (p_dev C) i u c -> u = [] \/ part_of C dev_words u.
  Proof. intros D. apply den_dev in D. destruct D as [[-> _]|D]; [auto|right; exact (part_is _ _ _ _ _ _ _ D)]. Qed.
  Lemma post_is i u c : den (p_post C) i u c -> u = [] \/ (exists x, u = lit "-" ++ x /\ is_number x) \/ part_of C post_words u.
  Proof. intros D. apply den_post in D. destruct D as [[-> _]|[(x & E & N & _)|D]]; [auto|right; left; exists x; auto|right; right; exact (part_is _ _ _ _ _ _ _ D)]. Qed.
  Lemma pre_is i u c : den (p_pre C) i u c -> u = [] \/ part_of C pre_words u.
  Proof. intros D. apply den_pre in D. destruct D as [[-> _]|D]; [auto|right; exact (part_is _ _ _ _ _ _ _ D)]. Qed.
  Lemma dev_read i u c T T' : den (p_dev C) i u c -> tail3 C T -> tail3 C T' -> dev_t (id_dev d) ++ T = u ++ T' -> u = dev_t (id_dev d) /\ T' = T /\ c = w_dev i (id_dev d).
  Proof.
    intros D H3 H3' E. apply den_dev in D. destruct D as [[-> ->]|(s1 & t & s2 & x & -> & S1 & Lt & S2 & F & ->)].
    - cbn [app] in E. destruct (id_dev d) as [n|]; [|auto]. exfalso. cbn [text_if] in E. rewrite <- app_assoc in E. exact (dev_none C Ok_ n T T' H3' E).
    - rewrite <- !app_assoc in E. destruct (dev_unique C Ok_ (id_dev d) T s1 t s2 x T' Hv H3 H3' S1 Lt S2 F E) as (n & -> & -> & -> & -> & -> & ->). auto.
  Qed.
  Lemma dash_not T x R : begins C T -> T = lit "-" ++ x ++ R -> False.
  Proof.
    intros HB E. change (lit "-") with [45] in E. cbn [app] in E. destruct (HB _ _ E) as [Q|[Q|(r' & [Q|Q])]]; [discriminate Q|destruct (space_not C Ok_ _ Q) as (_ & _ & N & _); apply N; cbn; auto 10|rewrite E in Q; discriminate Q|rewrite E in Q; discriminate Q].
  Qed.
  Lemma begins_3 T : tail3 C T -> begins C (dev_t (id_dev d) ++ T).
  Proof.
    intros H3 c r E. destruct (id_dev d) as [n|]; cbn [text_if] in *.
    - right. right. exists (n ++ T). right. rewrite <- app_assoc. reflexivity.
    - destruct (tail3_head C T H3 c r E); auto.
  Qed.
  Lemma begins_2 T : begins C T -> begins C (post_t (id_post d) ++ T).
  Proof. intros H c r E. destruct (id_post d) as [n|]; cbn [text_if] in *; [|exact (H c r E)]. right. right. exists (n ++ T). left. rewrite <- app_assoc. reflexivity. Qed.
  Lemma post_read i u c T T' : den (p_post C) i u c -> tail3 C T -> tail2 C T' -> post_t (id_post d) ++ dev_t (id_dev d) ++ T = u ++ T' -> u = post_t (id_post d) /\ T' = dev_t (id_dev d) ++ T /\ c = w_post i (id_post d).
  Proof.
    intros D H3 H2' E. assert (H2 : tail2 C (dev_t (id_dev d) ++ T)) by (exists (dev_t (id_dev d)), T; split; [reflexivity|]; split; [exact (dev_is 0 _ _ (reads_dev 0))|exact H3]).
    apply den_post in D. destruct D as [[-> ->]|[(x & -> & Nx & _)|(s1 & t & s2 & x & -> & S1 & Lt & S2 & F & ->)]].
    - cbn [app] in E. destruct (id_post d) as [n|]; [|auto]. exfalso. cbn [text_if] in E. rewrite <- app_assoc in E. exact (post_none C Ok_ n _ T' H2' E).
    - exfalso. rewrite <- app_assoc in E. exact (dash_not _ x T' (begins_2 _ (begins_3 T H3)) E).
    - rewrite <- !app_assoc in E. destruct (post_unique C Ok_ (id_post d) (dev_t (id_dev d) ++ T) s1 t s2 x T' Ho (fun _ => ex_intro _ (id_dev d) (ex_intro _ T (conj eq_refl H3))) H2 H2' S1 Lt S2 F E) as (n & -> & -> & -> & -> & -> & ->). auto.
  Qed.
  Lemma pre_read i u c T T' : den (p_pre C) i u c -> begins C T -> tail1 C T -> tail1 C T' -> pre_t (id_pre d) ++ T = u ++ T' -> u = pre_t (id_pre d) /\ T' = T /\ c = w_pre i (id_pre d).
  Proof.
    intros D HB H1 H1' E. apply den_pre in D. destruct D as [[-> ->]|(s1 & t & s2 & x & -> & S1 & Lt & S2 & F & ->)].
    - cbn [app] in E. destruct (id_pre d) as [[k n]|]; [|auto]. exfalso. cbn [text_if fst snd] in E. rewrite <- app_assoc in E. exact (pre_none C Ok_ k n T T' (proj1 Hp) (proj2 Hp) H1' E).
    - rewrite <- !app_assoc in E. destruct (pre_unique C Ok_ (id_pre d) T s1 t s2 x T' Hp HB H1 H1' S1 Lt S2 F E) as (n & -> & -> & -> & -> & ->). cbn [app text_if w_pre fst snd]. auto.
  Qed.
  Lemma epoch_is i u c : den p_epoch i u c -> epochs u /\ forall o, u = ep_t o -> c = w_epoch i o.
  Proof.
    intros D. apply den_epoch in D. destruct D as [[-> ->]|(n & -> & Hn & ->)].
    - split; [left; reflexivity|]. intros [n|] E; [destruct n; discriminate E|reflexivity].
    - split; [right; exists n; auto|]. intros [m|] E; [|destruct n; discriminate E]. apply app_inj_tail in E. destruct E as [-> _]. reflexivity.
  Qed.
  Lemma stops_space u : epochs u -> forall r T, releases r -> exists c x, u ++ r ++ T = c :: x /\ is_digit c.
  Proof.
    intros H r T Hr'. destruct (release_head r Hr') as (c & x & -> & Dc). destruct H as [->|(n & -> & [N F])]; [exists c, (x ++ T); auto|]. destruct n as [|a n]; [congruence|]. inversion F; subst. eexists a, _. split; [reflexivity|assumption].
  Qed.
  Lemma body_unique w1 pv w2 c : spaces w1 -> v_opt pv -> spaces w2 -> dseq body 0 (w1 ++ pv ++ id_text d ++ w2) c -> c = want (zlen w1 + zlen pv) d.
  Proof.
    intros F1 V F2 D. unfold body in D. cbn [dseq] in D.
    destruct D as (a1 & u1 & c1 & e1 & E1 & -> & D1 & a2 & u2 & c2 & e2 & -> & -> & D2 & a3 & u3 & c3 & e3 & -> & -> & D3 & a4 & u4 & c4 & e4 & -> & -> & D4 & a5 & u5 & c5 & e5 & -> & -> & D5 & a6 & u6 & c6 & e6 & -> & -> & D6 & a7 & u7 & c7 & e7 & -> & -> & D7 & a8 & u8 & c8 & e8 & -> & -> & D8 & a9 & u9 & c9 & e9 & -> & -> & D9 & -> & ->).
    apply space_run in D1. destruct D1 as [-> P1]. apply space_run in D9. destruct D9 as [-> P9]. apply den_release in D4. destruct D4 as [-> P4].
    destruct (epoch_is _ _ _ D3) as [P3 K3]. destruct (local_is _ _ _ D8) as [P8 K8].
    assert (Dv : c2 = [] /\ (a2 = [] \/ exists x, a2 = [x] /\ same 118 x = true)).
    { apply den_opt in D2. destruct D2 as [[-> ->]|[_ D2]]; [auto|]. apply den_word in D2. destruct D2 as [-> D2]. split; [reflexivity|]. change (lit "v") with [118] in D2. inversion D2 as [|? x ? r Q D2']; subst. inversion D2'; subst. right. exists x. auto. }
    destruct Dv as [-> P2]. rewrite !app_nil_r in *. cbn [app] in *. unfold id_text in E1. rewrite <- !app_assoc in E1.
    (* the tails *)
    assert (T3 : tail3 C (loc_t (id_local d) ++ w2)) by (exists (loc_t (id_local d)), w2; split; [reflexivity|]; split; [exact (proj1 (local_is 0 _ _ (reads_local 0)))|exact F2]).
    assert (T3' : tail3 C (a8 ++ a9)) by (exists a8, a9; auto).
    assert (T2 : tail2 C (dev_t (id_dev d) ++ loc_t (id_local d) ++ w2)) by (eexists _, _; split; [reflexivity|]; split; [exact (dev_is 0 _ _ (reads_dev 0))|exact T3]).
    assert (T2' : tail2 C (a7 ++ a8 ++ a9)) by (eexists _, _; split; [reflexivity|]; split; [exact (dev_is _ _ _ D7)|exact T3']).
    assert (T1 : tail1 C (post_t (id_post d) ++ dev_t (id_dev d) ++ loc_t (id_local d) ++ w2)) by (eexists _, _; split; [reflexivity|]; split; [exact (post_is 0 _ _ (reads_post 0))|exact T2]).
    assert (T1' : tail1 C (a6 ++ a7 ++ a8 ++ a9)) by (eexists _, _; split; [reflexivity|]; split; [exact (post_is _ _ _ D6)|exact T2']).
    assert (Q0 : quiet (pre_t (id_pre d) ++ post_t (id_post d) ++ dev_t (id_dev d) ++ loc_t (id_local d) ++ w2)) by (destruct (pre_is 0 _ _ (reads_pre 0)) as [->|P]; [exact (tail1_quiet C Ok_ _ T1)|exact (quiet_part C Ok_ pre_words _ _ pres P)]).
    assert (Q0' : quiet (a5 ++ a6 ++ a7 ++ a8 ++ a9)) by (destruct (pre_is _ _ _ D5) as [->|P]; [exact (tail1_quiet C Ok_ _ T1')|exact (quiet_part C Ok_ pre_words _ _ pres P)]).
    destruct (stops_space (ep_t (id_epoch d)) (proj1 (epoch_is 0 _ _ (reads_epoch 0))) (id_release d) (pre_t (id_pre d) ++ post_t (id_post d) ++ dev_t (id_dev d) ++ loc_t (id_local d) ++ w2) Hr) as (h & hr & Eh & Dh).
    destruct (stops_space a3 P3 a4 (a5 ++ a6 ++ a7 ++ a8 ++ a9) P4) as (h' & hr' & Eh' & Dh').
    assert (N1 : stops (fun c => vc_space C c = true) (pv ++ ep_t (id_epoch d) ++ id_release d ++ pre_t (id_pre d) ++ post_t (id_post d) ++ dev_t (id_dev d) ++ loc_t (id_local d) ++ w2)).
    { destruct V as [->| ->]; cbn [app].
      - rewrite Eh. cbn. intros X. exact (proj1 (space_not C Ok_ h X) Dh).
      - intros X. destruct (space_not C Ok_ 118 X) as (_ & N & _). apply N. unfold is_letter. lia. }
    assert (N1' : stops (fun c => vc_space C c = true) (a2 ++ a3 ++ a4 ++ a5 ++ a6 ++ a7 ++ a8 ++ a9)).
    { destruct P2 as [->|(x & -> & Sx)]; cbn [app].
      - rewrite Eh'. cbn. intros X. exact (proj1 (space_not C Ok_ h' X) Dh').
      - intros X. destruct (space_not C Ok_ _ X) as (_ & _ & _ & N). rewrite (N 118) in Sx by (unfold is_letter; lia). discriminate Sx. }
    destruct (run_split _ _ _ _ _ F1 P1 N1 N1' E1) as [<- E2]. clear E1 N1 N1'.
    assert (E3 : pv = a2 /\ ep_t (id_epoch d) ++ id_release d ++ pre_t (id_pre d) ++ post_t (id_post d) ++ dev_t (id_dev d) ++ loc_t (id_local d) ++ w2 = a3 ++ a4 ++ a5 ++ a6 ++ a7 ++ a8 ++ a9).
    { rewrite Eh, Eh' in *. destruct V as [->| ->]; destruct P2 as [->|(x & -> & Sx)]; cbn [app] in E2.
      - auto.
      - exfalso. injection E2 as <- _. exact (proj1 (letter_not C Ok_ 118 h ltac:(unfold is_letter; lia) Sx) Dh).
      - exfalso. injection E2 as <- _. unfold is_digit in Dh'. lia.
      - injection E2 as <- Ea Eb. split; [reflexivity|congruence]. }
    clear E2. destruct E3 as [<- E3].
    destruct (epoch_unique (id_epoch d) _ _ _ _ _ He Hr Q0 P3 P4 Q0' E3) as (E4 & -> & E5). symmetry in E5.
    destruct (pre_read _ _ _ _ _ D5 (begins_2 _ (begins_3 _ T3)) T1 T1' E5) as (E6 & E7 & ->). symmetry in E7.
    destruct (post_read _ _ _ _ _ D6 T3 T2' E7) as (E8 & E9 & ->). symmetry in E9.
    destruct (dev_read _ _ _ _ _ D7 T3 T3' E9) as (E10 & E11 & ->). symmetry in E11.
    destruct (local_unique C Ok_ (id_local d) w2 a8 a9 Hl F2 P8 P9 E11) as [E12 _].
    rewrite (K3 _ E4), (K8 _ E12), E4, E6, E8, E10. reflexivity.
  Qed.
End Parse.
