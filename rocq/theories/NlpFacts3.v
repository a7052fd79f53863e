(** Facts for Nlp.v: the trees of the matches. *)
From Verif Require Import NlpDoc PyFacts HeapFacts HeapFacts2 HeapFacts3 HeapFacts4 CombinFacts CombinFacts2 CombinFacts3 CombinFacts4 ArborFacts3 ArborFacts4 XmlFacts5 XmlFacts6 NlpFacts NlpFacts2.

Lemma keys_number m : re_keys re_number default_filter m = [KStr n_number; KStr n_sign; KStr n_integer; KStr n_decimal; KStr n_exponent]. Proof. reflexivity. Qed.
Lemma keys_word m : re_keys re_word default_filter m = [KStr n_word]. Proof. reflexivity. Qed.
Ltac cap_case := match goal with |- context [cap_le ?x ?y] => first [replace (cap_le x y) with true by (unfold cap_le; cbn [fst snd]; lia) | replace (cap_le x y) with false by (unfold cap_le; cbn [fst snd]; lia)] end.
Ltac caps_out6 := intros k Hk; destruct k as [|[|[|[|[|[|k]]]]]]; try lia; unfold cap_inside; cbn [nth map fst snd]; lia.
Ltac caps_par6 := intros j Hj; cbn [length] in Hj; destruct j as [|[|[|[|[|[|j]]]]]]; try lia; cbn [nth];
  first [ split; [lia|]; split; [unfold cap_inside; cbn [nth map fst snd]; lia|]; caps_out6 | caps_out6 ].
Section Shapes.
  Variable s : pystr.
  Definition ksp (b : bool) (x y : Z) (k : pystr) : list (span * gkey) := if b then [((x, y), KStr k)] else [].
  Lemma number_shape h a i d q b x y (m : rmatch) (sg it de ex es : bool) : fine h -> rm_string m = s ->
    0 <= a -> (if sg then a < i else a = i) -> (if it then i < d else i = d) -> (if de then d < q else d = q) -> (if ex then q < b else q = b) -> b <= zlen s ->
    (it || de = true) -> (if es then q < x /\ x < y /\ y < b /\ ex = true else True) ->
    captures m [KStr n_number; KStr n_sign; KStr n_integer; KStr n_decimal; KStr n_exponent] =
      [((a, b), KStr n_number)] ++ ksp sg a i n_sign ++ ksp es x y n_sign ++ ksp it i d n_integer ++ ksp de d q n_decimal ++ ksp ex q b n_exponent ->
    let opt (f : bool) (x y : Z) (k : pystr) (ks : list tree) := if f then [at_ s x y k ks] else [] in
    exists h', from_match h m (default_desc m) [KStr n_number; KStr n_sign; KStr n_integer; KStr n_decimal; KStr n_exponent] = (h', Ok [length h]) /\ extends h h' /\ fine h' /\
      own h' (at_ s a b n_number (opt sg a i n_sign [] ++ opt it i d n_integer [] ++ opt de d q n_decimal [] ++ opt ex q b n_exponent (opt es x y n_sign []))) (length h).
  Proof.
    intros Hf Em Ha Hsg Hit Hde Hex Hb Hv Hes Ec opt.
    set (all := [((a, b), KStr n_number)] ++ ksp sg a i n_sign ++ ksp it i d n_integer ++ ksp de d q n_decimal ++ ksp ex q b n_exponent ++ ksp es x y n_sign).
    set (cnt := fun f : bool => if f then [Some 0%nat] else []).
    set (pars := [None] ++ cnt sg ++ cnt it ++ cnt de ++ cnt ex ++ if es then [Some (length (cnt sg ++ cnt it ++ cnt de ++ cnt ex))] else []).
    destruct (from_match_shape h m (default_desc m) [KStr n_number; KStr n_sign; KStr n_integer; KStr n_decimal; KStr n_exponent] all pars Hf) as (h' & E1 & X1 & Hf1 & L1 & D).
    - rewrite Ec. subst all. clear Ec Hf. destruct sg, it, de, ex, es; try discriminate Hv; try (destruct Hes as (_ & _ & _ & Hes); discriminate Hes); cbn [app ksp sort_caps fold_right insert_cap fst]; repeat (cap_case; cbn [insert_cap fst]); try reflexivity.
    - rewrite Em. subst all. clear Ec Hf. destruct sg, it, de, ex, es; try discriminate Hv; try (destruct Hes as (_ & _ & _ & Hes); discriminate Hes); cbn [app ksp]; caps_valid.
    - subst all. clear Ec Hf. destruct sg, it, de, ex, es; try discriminate Hv; try (destruct Hes as (_ & _ & _ & Hes); discriminate Hes); cbn [app ksp]; caps_clear.
    - subst all pars. clear Ec Hf. destruct sg, it, de, ex, es; try discriminate Hv; try (destruct Hes as (_ & _ & _ & Hes); discriminate Hes); cbn [app ksp cnt length]; caps_par6.
    - cbv zeta in E1, L1, D. exists h'. subst all pars. rewrite Em in D. unfold default_desc in D.
      destruct sg, it, de, ex, es; try discriminate Hv; try (destruct Hes as (_ & _ & _ & Hes); discriminate Hes); cbn [app ksp cnt length] in *;
      (split; [rewrite E1; cbn; rewrite Nat.add_0_r; reflexivity|]; split; [exact X1|]; split; [exact Hf1|];
       pose proof (D 0%nat ltac:(lia)) as D0; cbn in D0; rewrite Nat.add_0_r in D0; unfold own; rewrite D0; cbn [n_par option_map]; split; [|split; [reflexivity|lia]];
       subst opt; cbn [app]; unfold at_; apply rep_unfold; rewrite D0; cbn [n_f n_kids]; split; [reflexivity|]);
      repeat first [ apply Forall2_nil | apply Forall2_cons; [apply rep_unfold; match goal with |- context [nd h' (length h + ?k)] => let Dk := fresh "Dk" in pose proof (D k ltac:(lia)) as Dk; cbn in Dk; rewrite Dk; cbn [n_f n_kids]; split; [reflexivity|] end|] ].
  Qed.
End Shapes.
Section Gives.
  Variables (C : classes) (point sep : pystr) (optional : bool) (s : pystr).
  Lemma mark_len u : mark_text u -> 0 < zlen u.
  Proof.
    intros [->|[->|(p & x & q & r & -> & _ & _ & _ & Hx)]]; [reflexivity|reflexivity|]. rewrite !zlen_app. change (zlen (lit "10^")) with 3. pose proof (zlen_nonneg p). pose proof (zlen_nonneg q). pose proof (zlen_nonneg r). pose proof (zlen_nonneg x). lia.
  Qed.
  Lemma num_gives n a sp : numeral_ok C point sep optional n -> 0 <= a -> a + zlen (nu_text n) <= zlen s ->
    gives default_desc (re_keys re_number default_filter) (to_match re_number s (sp, num_caps a n)) (num_tree s a n).
  Proof.
    intros (Hg & Hv & Hx) Ha Hl h Hf. rewrite keys_number. unfold nu_text in Hl. rewrite !zlen_app in Hl.
    pose proof (zlen_nonneg (nu_sign n)) as L1. pose proof (zlen_nonneg (nu_int n)) as L2. pose proof (zlen_nonneg (nu_dec n)) as L3. pose proof (zlen_nonneg (nu_exponent n)) as L4. pose proof (zlen_nonneg (nu_esign n)) as L5.
    assert (V : 0 < zlen (nu_int n) + zlen (nu_dec n)).
    { destruct Hv as [[Hi _]|[_ Hd]]; [pose proof (integer_len C sep optional _ Hi)|pose proof (decimal_len C point _ Hd)]; lia. }
    assert (X : 0 < zlen (nu_esign n) -> 0 < zlen (nu_mark n) /\ 0 < zlen (nu_exp n)).
    { intros Q. destruct Hx as [(_ & E & _)|(Hm & _ & Hd)]; [rewrite E in Q; discriminate Q|]. split; [exact (mark_len _ Hm)|exact (digits_len C _ Hd)]. }
    assert (Le : zlen (nu_exponent n) = zlen (nu_mark n) + zlen (nu_esign n) + zlen (nu_exp n)) by (unfold nu_exponent; rewrite !zlen_app; lia).
    set (m := to_match re_number s (sp, num_caps a n)). unfold num_tree. cbv zeta.
    set (i := a + zlen (nu_sign n)). set (d := i + zlen (nu_int n)). set (q := d + zlen (nu_dec n)). set (x := q + zlen (nu_mark n)). set (b := q + zlen (nu_exponent n)). set (y := x + zlen (nu_esign n)).
    destruct (number_shape s h a i d q b x y m (a <? i) (i <? d) (d <? q) (q <? b) (x <? y) Hf eq_refl Ha) as (h' & E & X1 & Hf' & O).
    - destruct (Z.ltb_spec a i); unfold i in *; lia.
    - destruct (Z.ltb_spec i d); unfold d in *; lia.
    - destruct (Z.ltb_spec d q); unfold q in *; lia.
    - destruct (Z.ltb_spec q b); unfold b in *; lia.
    - unfold b, q, d, i. lia.
    - apply orb_true_iff. rewrite !Z.ltb_lt. unfold q, d. lia.
    - destruct (Z.ltb_spec x y) as [Q|Q]; [|exact Logic.I]. destruct X as [X2 X3]; [unfold y in Q; lia|]. split; [unfold x; lia|]. split; [exact Q|]. split; [unfold y, x, b; lia|]. apply Z.ltb_lt. unfold b. lia.
    - unfold m, captures, to_match. cbn [rm_spans flat_map snd]. unfold num_caps. cbv zeta. fold i. fold d. fold q. fold x. fold b. fold y. unfold cap_opt.
      destruct (a <? i), (i <? d), (d <? q), (q <? b), (x <? y); reflexivity.
    - exists h', (length h). split; [exact E|]. split; [exact X1|]. split; [exact Hf'|]. split; [exact O|lia].
  Qed.
  (** a match whose only group is the whole *)
  Lemma word_gives a b sp : 0 <= a <= b -> b <= zlen s ->
    gives default_desc (re_keys re_word default_filter) (to_match re_word s (sp, [(n_word, (a, b))])) (at_ s a b n_word []).
  Proof.
    intros Ha Hb h Hf. rewrite keys_word. set (m := to_match re_word s (sp, [(n_word, (a, b))])).
    destruct (from_match_shape h m (default_desc m) [KStr n_word] [((a, b), KStr n_word)] [None] Hf) as (h' & E1 & X1 & Hf1 & L1 & D).
    - reflexivity.
    - unfold m. caps_valid.
    - caps_clear.
    - caps_par.
    - exists h', (length h). split; [rewrite E1; cbn; rewrite Nat.add_0_r; reflexivity|]. split; [exact X1|]. split; [exact Hf1|]. pose proof (D 0%nat ltac:(cbn; lia)) as D0. cbn in D0, L1. rewrite Nat.add_0_r in D0. split; [|lia].
      split; [apply rep_unfold; rewrite D0; split; [reflexivity|constructor]|]. split; [rewrite D0; reflexivity|lia].
  Qed.
  Notation numrx := (number_rx C point sep optional).
  Lemma number_match a b m : 0 <= a -> b <= zlen s -> In m (found numrx s a b) ->
    exists n, numeral_ok C point sep optional n /\ zsub s (fst (fst m)) (snd (fst m)) = nu_text n /\ snd m = num_caps (fst (fst m)) n /\ fst (fst m) < snd (fst m).
  Proof.
    intros Ha Hb Hm. destruct (found_way _ _ _ _ _ Hm) as (B1 & B2 & W). destruct (number_reads C point sep optional s b Hb (fst (fst m)) _ ltac:(lia) W) as (n & On & Et & Ec). cbn [fst snd] in Et, Ec. exists n. split; [exact On|]. split; [exact Et|]. split; [exact Ec|].
    pose proof (zsub_len s (fst (fst m)) (snd (fst m)) ltac:(lia) ltac:(lia) ltac:(lia)) as L. rewrite Et in L. unfold nu_text in L. rewrite !zlen_app in L. destruct On as (_ & Hv & _).
    pose proof (zlen_nonneg (nu_sign n)) as L1. pose proof (zlen_nonneg (nu_int n)) as L2. pose proof (zlen_nonneg (nu_dec n)) as L3. pose proof (zlen_nonneg (nu_exponent n)) as L4.
    destruct Hv as [[Hi _]|[_ Hd]]; [pose proof (integer_len C sep optional _ Hi)|pose proof (decimal_len C point _ Hd)]; lia.
  Qed.
  Lemma num_tree_span n a : t_start (num_tree s a n) = a /\ t_stop (num_tree s a n) = a + zlen (nu_text n) /\ t_string (num_tree s a n) = s /\ f_desc (t_f (num_tree s a n)) = Some n_number /\ f_vf (t_f (num_tree s a n)) = None.
  Proof. unfold num_tree, nu_text. cbv zeta. unfold at_, t_start, t_stop, t_string, t_f. cbn [f_start f_stop f_str f_desc f_vf]. rewrite !zlen_app, !Z.add_assoc. auto. Qed.
  (** the numbers found, with their trees *)
  Lemma numbers_give a b : 0 <= a -> b <= zlen s ->
    exists ts, Forall2 (gives default_desc (re_keys re_number default_filter)) (nfinditer re_number numrx s a b) ts /\
      Forall2 (is_number C point sep optional s) (found_spans numrx s a b) ts /\
      Forall2 (fun x t => t_start t = fst x /\ t_stop t = snd x /\ fst x < snd x /\ t_string t = s /\ f_desc (t_f t) = Some n_number) (found_spans numrx s a b) ts.
  Proof.
    intros Ha Hb. unfold nfinditer, found_spans. assert (G : forall m, In m (found numrx s a b) -> exists n, numeral_ok C point sep optional n /\ zsub s (fst (fst m)) (snd (fst m)) = nu_text n /\ snd m = num_caps (fst (fst m)) n /\ fst (fst m) < snd (fst m)) by (intros m; apply number_match; assumption).
    assert (B : forall m, In m (found numrx s a b) -> a <= fst (fst m) <= snd (fst m) /\ snd (fst m) <= b) by (intros m Hm; destruct (found_way _ _ _ _ _ Hm) as (B1 & B2 & _); lia).
    revert G B. generalize (found numrx s a b) as ms. induction ms as [|m ms IH]; intros G B; [exists []; repeat split; constructor|].
    destruct IH as (ts & F1 & F2 & F3); [intros x Hx; apply G; right; exact Hx|intros x Hx; apply B; right; exact Hx|].
    destruct (G m (or_introl eq_refl)) as (n & On & Et & Ec & Lw). destruct (B m (or_introl eq_refl)) as [B1 B2]. destruct m as [[p q] c]. cbn [fst snd] in *.
    pose proof (zsub_len s p q ltac:(lia) ltac:(lia) ltac:(lia)) as L. rewrite Et in L.
    exists (num_tree s p n :: ts). cbn [map fst]. split; [|split].
    - constructor; [|exact F1]. rewrite Ec. apply num_gives; [exact On|lia|lia].
    - constructor; [|exact F2]. exists n. cbn [fst snd]. auto.
    - constructor; [|exact F3]. cbn [fst snd]. destruct (num_tree_span n p) as (T1 & T2 & T3 & T4 & _). split; [exact T1|]. split; [rewrite T2; lia|]. auto.
  Qed.
  Lemma word_match a b m : 0 <= a -> b <= zlen s -> In m (found (word_rx C) s a b) -> snd m = [(n_word, fst m)] /\ fst (fst m) < snd (fst m).
  Proof.
    intros Ha Hb Hm. destruct (found_way _ _ _ _ _ Hm) as (B1 & B2 & W). unfold word_rx in W.
    assert (R : reads s b (NStar (NSeq (NOpt (NAlt (NChars single_quotes) (NSeq (NStr (lit "-")) (NStar (NCls (cls_s C)))))) (NCls (cls_w C)))) (fun _ u c => c = [])).
    { assert (Q : reads s b (NSeq (NOpt (NAlt (NChars single_quotes) (NSeq (NStr (lit "-")) (NStar (NCls (cls_s C)))))) (NCls (cls_w C))) (fun _ u c => c = [])).
      { eapply reads_imp; [|exact (reads_seq s b Hb _ _ _ _ (reads_opt s b Hb _ _ (reads_alt s b _ _ _ _ (reads_set s b _) (reads_seq s b Hb _ _ _ _ (reads_str s b _) (reads_cls_rep s b Hb (cls_s C) 0 None)))) (reads_cls s b (cls_w C)))].
        cbn beta. intros i u c (u1 & u2 & c1 & c2 & -> & -> & H & (-> & _)). rewrite app_nil_r. destruct H as [[_ ->]|(_ & [[-> _]|(v1 & v2 & c3 & c4 & _ & -> & (-> & _) & (-> & _))])]; reflexivity. }
      eapply reads_imp; [|exact (reads_rep s b Hb 0 None _ _ Q)]. cbn beta. intros i u c (n & _ & _ & M). induction M as [|n i u v c1 c2 N -> M ->]; reflexivity. }
    destruct (reads_grp s b Hb n_word _ _ (reads_seq s b Hb _ _ _ _ (reads_cls s b (cls_w C)) R) (fst (fst m)) _ ltac:(lia) W) as (c' & Ec & (u1 & u2 & c1 & c2 & Eu & -> & (-> & x & -> & _) & ->)). cbn [fst snd] in *.
    pose proof (zsub_len s (fst (fst m)) (snd (fst m)) ltac:(lia) ltac:(lia) ltac:(lia)) as L. rewrite Eu in L, Ec. rewrite zlen_app, zlen_cons in L. change (zlen (@nil Z)) with 0 in L. pose proof (zlen_nonneg u2). split; [|lia].
    rewrite Ec. cbn [app]. destruct m as [[p q] c]. cbn [fst snd] in *. change (zlen (x :: u2)) with (zlen ([x] ++ u2)). rewrite zlen_app, zlen_cons. change (zlen (@nil Z)) with 0. do 3 f_equal. lia.
  Qed.
  Lemma words_give a b : 0 <= a -> b <= zlen s -> Forall2 (gives default_desc (re_keys re_word default_filter)) (nfinditer re_word (word_rx C) s a b) (words C s a b).
  Proof.
    intros Ha Hb. unfold nfinditer, words, found_spans. assert (G : forall m, In m (found (word_rx C) s a b) -> snd m = [(n_word, fst m)] /\ a <= fst (fst m) <= snd (fst m) /\ snd (fst m) <= b).
    { intros m Hm. split; [apply (word_match a b m Ha Hb Hm)|]. destruct (found_way _ _ _ _ _ Hm) as (B1 & B2 & _). lia. }
    revert G. generalize (found (word_rx C) s a b) as ms. induction ms as [|m ms IH]; intros G; [constructor|]. cbn [map]. constructor; [|apply IH; intros x Hx; apply G; right; exact Hx].
    destruct (G m (or_introl eq_refl)) as (Ec & B1 & B2). destruct m as [[p q] c]. cbn [fst snd] in *. subst c. apply word_gives; lia.
  Qed.
End Gives.
