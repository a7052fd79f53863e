(** Facts for Nlp.v: the whole pipeline. *)
From Verif Require Import NlpDoc PyFacts HeapFacts HeapFacts2 HeapFacts3 HeapFacts4 CombinFacts CombinFacts2 CombinFacts3 CombinFacts4 ArborFacts ArborFacts2 ArborFacts3 ArborFacts4 XmlFacts5 XmlFacts6 NlpFacts NlpFacts2 NlpFacts3 NlpFacts4 NlpFacts5.

Section Pipeline.
  Variables (C : classes) (point sep : pystr) (optional : bool) (s : pystr) (chars : bool).
  Notation numrx := (number_rx C point sep optional).
  Notation P := (nlp_prog C numrx chars).
  (** the option chars fails on numbers *)
  Hypothesis Hchars : chars = false \/ forall a b, 0 <= a -> b <= zlen s -> found_spans numrx s a b = [].
  Notation conns := (Con Delegate no_desc 6 :: if chars then [Con CAdd always 7] else []).
  Definition lf (d : option pystr) (a b : Z) : tree := T (FI s a b d None) [].

  Lemma words_spans a b : 0 <= a -> b <= zlen s -> Forall (fun t => t_start t < t_stop t) (words C s a b).
  Proof.
    intros Ha Hb. unfold words, found_spans. rewrite map_map. apply Forall_forall. intros t Ht. apply in_map_iff in Ht. destruct Ht as (m & <- & Hm). destruct (word_match C s a b m Ha Hb Hm) as [_ L]. exact L.
  Qed.
  Lemma spans_lined (f : span -> tree) : (forall x, t_string (f x) = s /\ t_start (f x) = fst x /\ t_stop (f x) = snd x) ->
    forall sp a b, ordered a sp b -> Forall (fun x => fst x < snd x) sp -> lined s a b (map f sp).
  Proof.
    intros Hf. induction sp as [|[x y] sp IH]; intros a b O W; [apply lined_nil|]. cbn in O. destruct O as (O1 & O2 & O3). inversion W as [|? ? W1 W2]; subst. cbn [fst snd] in W1.
    destruct (Hf (x, y)) as (F1 & F2 & F3). cbn [fst snd] in F2, F3. pose proof (ordered_le _ _ _ O3). cbn [map]. apply lined_cons; [exact F1|lia| |lia]. rewrite F3. apply IH; assumption.
  Qed.
  Lemma words_lined a b : 0 <= a <= b -> b <= zlen s -> lined s a b (words C s a b).
  Proof.
    intros Ha Hb. unfold words. apply (spans_lined (fun x => at_ s (fst x) (snd x) n_word [])); [intros x; auto|apply found_ordered; lia|].
    apply Forall_forall. intros x Hx. unfold found_spans in Hx. apply in_map_iff in Hx. destruct Hx as (m & <- & Hm). exact (proj2 (word_match C s a b m ltac:(lia) Hb Hm)).
  Qed.
  Lemma words_none a : 0 <= a <= zlen s -> words C s a a = [].
  Proof.
    intros Ha. pose proof (words_lined a a ltac:(lia) ltac:(lia)) as [_ F]. pose proof (words_spans a a ltac:(lia) ltac:(lia)) as W. destruct (words C s a a) as [|t l]; [reflexivity|]. inversion F as [|? ? F1 _]; inversion W; subst. lia.
  Qed.
  Lemma words_produce n a b : 0 <= a <= b -> b <= zlen s -> produces (fun x => drain (traverse (S n) P 6 x)) (lf None a b) (words C s a b).
  Proof.
    intros Ha Hb h x Hf O. assert (Ef : n_f (nd h x) = FI s a b None None) by (destruct O as (R & _ & _); rewrite (rep_f _ _ _ R); reflexivity).
    destruct (extract_produces P 6 re_word (nfinditer re_word (word_rx C)) default_desc default_filter n s a b (FI s a b None None) (words C s a b) eq_refl Logic.I eq_refl eq_refl eq_refl (words_give C s a b ltac:(lia) Hb) h x Hf (own_lt _ _ _ O) Ef) as (h' & l & R & Q).
    exists h', l. split; [|exact Q]. cbv beta. rewrite (reach_drain _ _ _ _ R), drain_of_list. reflexivity.
  Qed.
  (** what becomes of a piece of a sentence *)
  Definition outcome (t : tree) : list tree := match f_desc (t_f t) with None => words C s (t_start t) (t_stop t) | Some _ => [t] end.
  Lemma piece_handled n t : (match f_desc (t_f t) with None => exists a b, t = lf None a b /\ 0 <= a <= b /\ b <= zlen s | Some _ => chars = false end) ->
    handles (fun x => drain (flow (traverse (S n) P) conns x)) t (outcome t).
  Proof.
    unfold outcome. destruct (f_desc (t_f t)) as [d|] eqn:Ed; intros Ht h x Hf O; assert (Ef : n_f (nd h x) = t_f t) by (destruct O as (R & _ & _); rewrite (rep_f _ _ _ R); reflexivity).
    - cbv beta. rewrite flow_skip by (cbn [eval_pred c_pred no_desc]; rewrite Ef, Ed; reflexivity). replace (if chars then [Con CAdd always 7] else []) with (@nil conn) by (rewrite Ht; reflexivity). rewrite flow_nil. exists h, [x]. split; [reflexivity|]. split; [exact Hf|]. split; [lia|]. split; [constructor; [exact O|constructor]|]. split; [constructor; [intros []|constructor]|]. split; [constructor; [auto|constructor]|auto].
    - destruct Ht as (a & b & -> & Ha & Hb). cbn [lf t_f] in Ef. cbv beta. rewrite flow_delegate by (cbn [eval_pred c_pred no_desc]; try rewrite Ef; reflexivity). cbn [c_itor]. exact (produces_handles _ _ _ (words_produce n a b Ha Hb) h x Hf O).
  Qed.
  Definition nums_ok (x : span) (t : tree) : Prop := t_start t = fst x /\ t_stop t = snd x /\ fst x < snd x /\ t_string t = s /\ f_desc (t_f t) = Some n_number.
  Lemma nums_fits : forall sp ts a b, Forall2 nums_ok sp ts -> ordered a sp b -> fits_in b a ts.
  Proof.
    induction sp as [|[x y] sp IH]; intros ts a b F O; inversion F as [|? t ? ts' (N1 & N2 & N3 & _) F']; subst; cbn in *; [exact O|]. destruct O as (O1 & O2 & O3). rewrite N1, N2. split; [exact O1|]. split; [exact O2|]. apply IH; assumption.
  Qed.
  Lemma leaf_opt_words a m : 0 <= a <= m -> m <= zlen s -> concat (map outcome (leaf_opt s None a m)) = words C s a m.
  Proof.
    intros Ha Hm. unfold leaf_opt. destruct (Z.ltb_spec a m) as [L|L]; [cbn [map concat]; rewrite app_nil_r; reflexivity|]. assert (m = a) by lia. subst m. cbn. symmetry. apply words_none. lia.
  Qed.
  Lemma pieces_tokens : forall sp ts a b, Forall2 nums_ok sp ts -> ordered a sp b -> 0 <= a -> b <= zlen s -> concat (map outcome (pieces_of s None RAll a ts b)) = tokens C s a ts b.
  Proof.
    induction sp as [|[x y] sp IH]; intros ts a b F O Ha Hb; inversion F as [|? t ? ts' (N1 & N2 & N3 & N4 & N5) F']; subst; cbn [pieces_of tokens]; cbn in O; [apply leaf_opt_words; lia|].
    destruct O as (O1 & O2 & O3). pose proof (ordered_le _ _ _ O3). cbn [fst snd] in *. rewrite !map_app, !concat_app, N1, leaf_opt_words by lia. f_equal. unfold keep. rewrite N1, N2. destruct (Z.ltb_spec x y); [|lia]. cbn [map concat]. unfold outcome at 1. rewrite N5. cbn [app]. f_equal. apply IH; try assumption. lia.
  Qed.
  Lemma split_tokens sp ts a b : Forall2 nums_ok sp ts -> ordered a sp b -> 0 <= a -> b <= zlen s -> concat (map outcome (split_of s None RAll a ts b)) = tokens C s a ts b.
  Proof.
    intros F O Ha Hb. destruct ts as [|t ts]; [cbn; apply app_nil_r|]. exact (pieces_tokens sp (t :: ts) a b F O Ha Hb).
  Qed.
  Lemma leaf_opt_piece a m t : 0 <= a -> m <= zlen s -> In t (leaf_opt s None a m) -> exists x y, t = lf None x y /\ 0 <= x <= y /\ y <= zlen s.
  Proof. intros Ha Hm. unfold leaf_opt. destruct (Z.ltb_spec a m); [|intros []]. intros [<-|[]]. exists a, m. split; [reflexivity|lia]. Qed.
  Lemma pieces_pieces : forall sp ts a b, Forall2 nums_ok sp ts -> ordered a sp b -> 0 <= a -> b <= zlen s ->
    forall t, In t (pieces_of s None RAll a ts b) -> match f_desc (t_f t) with None => exists x y, t = lf None x y /\ 0 <= x <= y /\ y <= zlen s | Some _ => True end.
  Proof.
    induction sp as [|[x y] sp IH]; intros ts a b F O Ha Hb t Ht; inversion F as [|? u ? ts' (N1 & N2 & N3 & N4 & N5) F']; subst; cbn [pieces_of] in Ht; cbn in O.
    - apply leaf_opt_piece in Ht; [|lia|lia]. destruct Ht as (p & q & -> & Q). exists p, q. auto.
    - destruct O as (O1 & O2 & O3). pose proof (ordered_le _ _ _ O3). cbn [fst snd] in *. apply in_app_or in Ht. destruct Ht as [Ht|Ht]; [apply leaf_opt_piece in Ht; [|lia|lia]; destruct Ht as (p & q & -> & Q); exists p, q; auto|].
      apply in_app_or in Ht. destruct Ht as [Ht|Ht]; [|apply (IH ts' (t_stop u) b F' ltac:(rewrite N2; exact O3) ltac:(lia) Hb t Ht)].
      unfold keep in Ht. destruct (_ <? _); [|destruct Ht]. destruct Ht as [<-|[]]. rewrite N5. exact Logic.I.
  Qed.
  Lemma tokens_lined : forall sp ts a b, Forall2 nums_ok sp ts -> ordered a sp b -> 0 <= a -> b <= zlen s -> lined s a b (tokens C s a ts b) /\ Forall (fun t => t_start t < t_stop t) (tokens C s a ts b).
  Proof.
    induction sp as [|[x y] sp IH]; intros ts a b F O Ha Hb; inversion F as [|? t ? ts' (N1 & N2 & N3 & N4 & N5) F']; subst; cbn [tokens]; cbn in O; [split; [apply words_lined; lia|apply words_spans; lia]|].
    destruct O as (O1 & O2 & O3). pose proof (ordered_le _ _ _ O3). cbn [fst snd] in *. destruct (IH ts' (t_stop t) b F' ltac:(rewrite N2; exact O3) ltac:(lia) Hb) as [I1 I2]. rewrite N1. split.
    - apply (lined_app s a x b); [apply words_lined; lia|apply words_spans; lia| |lia]. apply lined_cons; [exact N4|lia|exact I1|lia].
    - apply Forall_app. split; [apply words_spans; lia|]. constructor; [lia|exact I2].
  Qed.
  (** a sentence *)
  Lemma sentence_handled n a b d : 0 <= a <= b -> b <= zlen s -> exists nums, Forall2 (is_number C point sep optional s) (found_spans numrx s a b) nums /\
    handles (fun x => drain (flow (traverse (S (S (S n))) P) [Con CAdd always 4] x)) (lf d a b) [T (FI s a b d None) (tokens C s a nums b)].
  Proof.
    intros Ha Hb. destruct (numbers_give C point sep optional s a b ltac:(lia) Hb) as (nums & G & I & N). pose proof (found_ordered numrx s a b ltac:(lia)) as O. exists nums. split; [exact I|].
    apply add_handles; [exact (proj1 (tokens_lined _ nums a b N O ltac:(lia) Hb))|].
    pose proof (split_produces P 4 5 RAll None conns re_number (nfinditer re_number numrx) default_desc default_filter (S n) s a b (FI s a b d None) nums (map outcome (split_of s None RAll a nums b)) eq_refl (or_intror eq_refl) eq_refl Logic.I eq_refl eq_refl eq_refl eq_refl G (nums_fits _ _ _ _ N O) ltac:(lia)) as Q.
    rewrite (split_tokens _ nums a b N O ltac:(lia) Hb) in Q. apply Q. clear Q.
    assert (Q : forall t, In t (split_of s None RAll a nums b) -> match f_desc (t_f t) with None => exists x y, t = lf None x y /\ 0 <= x <= y /\ y <= zlen s | Some _ => chars = false end).
    { intros t Ht. destruct Hchars as [Ec|Ec]; [|rewrite (Ec a b ltac:(lia) Hb) in N; inversion N; subst nums; destruct Ht as [<-|[]]; exists a, b; split; [reflexivity|lia]].
      enough (G' : match f_desc (t_f t) with None => exists x y, t = lf None x y /\ 0 <= x <= y /\ y <= zlen s | Some _ => True end) by (destruct (f_desc (t_f t)); [exact Ec|exact G']).
      destruct nums as [|u nums]; [destruct Ht as [<-|[]]; exists a, b; split; [reflexivity|lia]|]. exact (pieces_pieces _ _ a b N O ltac:(lia) Hb t Ht). }
    induction (split_of s None RAll a nums b) as [|t l IH]; [constructor|]. cbn [map]. constructor; [apply piece_handled; apply Q; left; reflexivity|]. apply IH. intros u Hu. apply Q. right. exact Hu.
  Qed.

  (** ** splitting at whole matches *)
  Lemma whole_gives re r a b m : re_ok re -> 0 <= a -> b <= zlen s -> In m (found r s a b) ->
    gives (fun _ _ => None) (re_keys re whole_only) (to_match re s m) (lf None (fst (fst m)) (snd (fst m))).
  Proof.
    intros R Ha Hb Hm h Hf. destruct (found_way _ _ _ _ _ Hm) as (B1 & B2 & _). rewrite (whole_keys re _ R). destruct m as [[x y] c]. cbn [fst snd] in *.
    cbv beta. pose proof (whole_match h s (to_match re s ((x, y), c)) (fun _ => None) x y eq_refl eq_refl ltac:(lia) ltac:(lia)) as Q. destruct (own_new h (FI s x y None None) Hf) as (Hf' & X & O); [split; cbn; lia|].
    eexists _, (length h). split; [exact Q|]. split; [exact X|]. split; [exact Hf'|]. split; [exact O|lia].
  Qed.
  Lemma whole_all re r a b : re_ok re -> 0 <= a -> b <= zlen s -> Forall2 (gives (fun _ _ => None) (re_keys re whole_only)) (nfinditer re r s a b) (map (fun x => lf None (fst x) (snd x)) (found_spans r s a b)).
  Proof.
    intros R Ha Hb. unfold nfinditer, found_spans. pose proof (fun m => whole_gives re r a b m R Ha Hb) as G. revert G. generalize (found r s a b) as ms. induction ms as [|m ms IH]; intros G; [constructor|]. cbn [map]. constructor; [apply G; left; reflexivity|]. apply IH. intros x Hx. apply G. right. exact Hx.
  Qed.
  Lemma wholes_fit : forall sp a b, ordered a sp b -> fits_in b a (map (fun x => lf None (fst x) (snd x)) sp).
  Proof. induction sp as [|[x y] sp IH]; intros a b O; cbn in *; [exact O|]. destruct O as (O1 & O2 & O3). split; [exact O1|]. split; [exact O2|]. apply IH. exact O3. Qed.
  Lemma pieces_cut d : forall sp a b, pieces_of s d RNone a (map (fun x => lf None (fst x) (snd x)) sp) b = map (fun x => lf d (fst x) (snd x)) (filter wide (gaps a sp b)).
  Proof.
    assert (L : forall a b, leaf_opt s d a b = map (fun x => lf d (fst x) (snd x)) (filter wide [(a, b)])) by (intros a b; unfold leaf_opt; cbn [filter]; unfold wide; cbn [fst snd]; destruct (a <? b); reflexivity).
    induction sp as [|[x y] sp IH]; intros a b; cbn [map pieces_of gaps]; [apply L|]. cbn [keep app]. change (t_stop (lf None (fst (x, y)) (snd (x, y)))) with y. change (t_start (lf None (fst (x, y)) (snd (x, y)))) with x. rewrite IH, L. change ((a, x) :: gaps y sp b) with ([(a, x)] ++ gaps y sp b). rewrite filter_app, map_app. reflexivity.
  Qed.
  Lemma split_cut d sp a b : split_of s d RNone a (map (fun x => lf None (fst x) (snd x)) sp) b = map (fun x => lf d (fst x) (snd x)) (leftover a b sp).
  Proof. destruct sp as [|x sp]; [reflexivity|]. exact (pieces_cut d (x :: sp) a b). Qed.
  Lemma cut_in sp a b x : ordered a sp b -> In x (leftover a b sp) -> a <= fst x <= snd x /\ snd x <= b.
  Proof.
    intros O. assert (G : forall sp a, ordered a sp b -> In x (gaps a sp b) -> a <= fst x <= snd x /\ snd x <= b).
    { clear. induction sp as [|[u v] sp IH]; intros a O Hx; cbn in *; [destruct Hx as [<-|[]]; cbn; lia|]. destruct O as (O1 & O2 & O3). pose proof (ordered_le _ _ _ O3). destruct Hx as [<-|Hx]; [cbn; lia|]. specialize (IH v O3 Hx). lia. }
    unfold leftover. destruct sp as [|y sp]; [intros [<-|[]]; cbn in *; lia|]. intros Hx. apply filter_In in Hx. exact (G _ a O (proj1 Hx)).
  Qed.
  Lemma cut_lined sp a b (ts : list tree) : ordered a sp b -> Forall2 (fun x t => t_string t = s /\ t_start t = fst x /\ t_stop t = snd x) (leftover a b sp) ts -> lined s a b ts.
  Proof.
    intros O F. unfold leftover in F. destruct sp as [|y sp].
    - inversion F as [|? t ? ts' (F1 & F2 & F3) F']; subst. inversion F'; subst. cbn in *. split; constructor; try constructor; try constructor; try lia; auto.
    - assert (G : forall sp a ts, ordered a sp b -> Forall2 (fun x t => t_string t = s /\ t_start t = fst x /\ t_stop t = snd x) (filter wide (gaps a sp b)) ts -> lined s a b ts); [|exact (G _ a ts O F)].
      clear. induction sp as [|[u v] sp IH]; intros a ts O F; cbn [gaps filter] in F; cbn in O.
      + unfold wide in F. cbn [fst snd] in F. destruct (Z.ltb_spec a b); inversion F as [|? t ? ts' (F1 & F2 & F3) F']; subst; [|apply lined_nil]. inversion F'; subst. cbn in *. apply lined_cons; [reflexivity|lia|apply lined_nil|lia].
      + destruct O as (O1 & O2 & O3). pose proof (ordered_le _ _ _ O3). unfold wide at 1 in F. cbn [fst snd] in F. destruct (Z.ltb_spec a u).
        * inversion F as [|? t ? ts' (F1 & F2 & F3) F']; subst. cbn [fst snd] in *. apply lined_cons; [reflexivity|lia| |lia]. destruct (IH v ts' O3 F') as [S Q]. split; [exact S|]. eapply Forall_impl; [|exact Q]. cbn beta. intros z (Z1 & Z2 & Z3). split; [exact Z1|lia].
        * destruct (IH v ts O3 F) as [S Q]. split; [exact S|]. eapply Forall_impl; [|exact Q]. cbn beta. intros z (Z1 & Z2 & Z3). split; [exact Z1|lia].
  Qed.
  Lemma part_stage t t' k re r dd n d a b (is_part : span -> tree -> Prop) : P t = Itor (TSplit t' None RNone true (Some d)) [Con CAdd always k] PostNone -> P t' = split_itor re r -> re_ok re -> 0 <= a <= b -> b <= zlen s ->
    (forall x y, a <= x <= y -> y <= b -> exists u, is_part (x, y) u /\ t_string u = s /\ t_start u = x /\ t_stop u = y /\ handles (fun z => drain (flow (traverse (S n) P) [Con CAdd always k] z)) (lf (Some d) x y) [u]) ->
    exists ts, Forall2 is_part (leftover a b (found_spans r s a b)) ts /\ lined s a b ts /\ produces (fun x => drain (traverse (S (S n)) P t x)) (lf dd a b) ts.
  Proof.
    intros E1 E2 R Ha Hb H. pose proof (found_ordered r s a b ltac:(lia)) as O. fold (found_spans r s a b) in O.
    assert (G : exists ts, Forall2 is_part (leftover a b (found_spans r s a b)) ts /\ Forall2 (fun x t => t_string t = s /\ t_start t = fst x /\ t_stop t = snd x) (leftover a b (found_spans r s a b)) ts /\
      Forall2 (fun x u => handles (fun z => drain (flow (traverse (S n) P) [Con CAdd always k] z)) (lf (Some d) (fst x) (snd x)) [u]) (leftover a b (found_spans r s a b)) ts).
    { pose proof (fun x => cut_in (found_spans r s a b) a b x O) as B. revert B. induction (leftover a b (found_spans r s a b)) as [|[x y] l IH]; intros B; [exists []; repeat split; constructor|].
      destruct IH as (ts & I1 & I2 & I3); [intros z Hz; apply B; right; exact Hz|]. destruct (B (x, y) (or_introl eq_refl)) as [B1 B2]. cbn [fst snd] in *. destruct (H x y B1 B2) as (u & U1 & U2 & U3 & U4 & U5). exists (u :: ts). split; [constructor; assumption|]. split; constructor; cbn [fst snd]; auto. }
    destruct G as (ts & G1 & G2 & G3). exists ts. split; [exact G1|]. split; [exact (cut_lined _ a b ts O G2)|].
    assert (Ec : ts = concat (map (fun u => [u]) ts)) by (clear; induction ts as [|u ts IH]; [reflexivity|]; cbn; rewrite <- IH; reflexivity). rewrite Ec.
    refine (split_produces P t t' RNone (Some d) [Con CAdd always k] re (nfinditer re r) (fun _ _ => None) whole_only n s a b (FI s a b dd None) (map (fun x => lf None (fst x) (snd x)) (found_spans r s a b)) (map (fun u => [u]) ts) E1 (or_introl eq_refl) E2 Logic.I eq_refl eq_refl eq_refl eq_refl (whole_all re r a b R ltac:(lia) Hb) (wholes_fit _ _ _ O) ltac:(lia) _).
    rewrite split_cut. clear - G3. induction G3 as [|x u l ts Q F IH]; [constructor|]. cbn [map]. constructor; [exact Q|exact IH].
  Qed.
  Lemma ok_para : re_ok re_para. Proof. vm_compute. repeat split; intros; try lia; try contradiction; repeat constructor; intuition. Qed.
  Lemma ok_sentence : re_ok re_sentence. Proof. vm_compute. repeat split; intros; try lia; try contradiction; repeat constructor; intuition. Qed.
  Lemma paragraph_handled n a b d : 0 <= a <= b -> b <= zlen s -> d = Some n_paragraph ->
    exists t, is_paragraph C point sep optional s (a, b) t /\ t_string t = s /\ t_start t = a /\ t_stop t = b /\ handles (fun x => drain (flow (traverse (S (S (S (S n)))) P) [Con CAdd always 2] x)) (lf d a b) [t].
  Proof.
    intros Ha Hb ->. destruct (part_stage 2 3 4 re_sentence (sentence_rx C) (Some n_paragraph) (S (S n)) n_sentence a b (is_sentence C point sep optional s) eq_refl eq_refl ok_sentence Ha Hb) as (ts & T1 & T2 & T3).
    - intros x y Hx Hy. destruct (sentence_handled n x y (Some n_sentence) ltac:(lia) ltac:(lia)) as (nums & N1 & N2). exists (at_ s x y n_sentence (tokens C s x nums y)). split; [exists nums; auto|]. split; [reflexivity|]. split; [reflexivity|]. split; [reflexivity|exact N2].
    - exists (at_ s a b n_paragraph ts). split; [exists ts; auto|]. split; [reflexivity|]. split; [reflexivity|]. split; [reflexivity|]. apply add_handles; [exact T2|exact T3].
  Qed.
  Lemma document_produced n d : exists ps, Forall2 (is_paragraph C point sep optional s) (leftover 0 (zlen s) (found_spans (para_rx 2) s 0 (zlen s))) ps /\ lined s 0 (zlen s) ps /\
    produces (fun x => drain (traverse (S (S (S (S (S n))))) P 0 x)) (lf d 0 (zlen s)) ps.
  Proof.
    pose proof (zlen_nonneg s). apply (part_stage 0 1 2 re_para (para_rx 2) d (S (S (S n))) n_paragraph 0 (zlen s) (is_paragraph C point sep optional s) eq_refl eq_refl ok_para ltac:(lia) ltac:(lia)).
    intros x y Hx Hy. exact (paragraph_handled n x y _ ltac:(lia) ltac:(lia) eq_refl).
  Qed.
End Pipeline.
Lemma new_doc h text d : fine h -> exists h1, new_str h text None None d = (h1, Ok (length h)) /\ extends h h1 /\ fine h1 /\ own h1 (T (FI text 0 (zlen text) d None) []) (length h).
Proof.
  intros Hf. pose proof (zlen_nonneg text). destruct (own_new h (FI text 0 (zlen text) d None) Hf) as (Hf' & X & O); [split; cbn; lia|]. eexists. split; [|split; [exact X|split; [exact Hf'|exact O]]].
  unfold new_str, new_node. do 3 f_equal. unfold ito_of_str, from_indices. cbn. rewrite (Z.max_r 0 (zlen text)) by lia. reflexivity.
Qed.
Theorem from_text_gives C point sep optional chars text : (chars = false \/ forall a b, 0 <= a -> b <= zlen text -> found_spans (number_rx C point sep optional) text a b = []) ->
  exists t, is_document C point sep optional text t /\ gives_tree (fun h => from_text C (number_rx C point sep optional) chars h text) t.
Proof.
  intros Hc. destruct (document_produced C point sep optional text chars Hc 1 (Some n_document)) as (ps & P1 & [P2 P2'] & P3).
  exists (at_ text 0 (zlen text) n_document ps). split; [exists ps; auto|]. intros h W0 A0. assert (Hf : fine h) by (split; assumption).
  destruct (new_doc h text (Some n_document) Hf) as (h1 & E1 & X1 & Hf1 & O1). unfold from_text. rewrite E1. unfold obind at 1. cbn [fst snd].
  pose proof (own_lt _ _ _ O1) as L1. destruct Hf1 as [W1 A1]. destruct (clone_plain h1 (length h) W1 A1 L1) as (t & h2 & Ec & R1 & R2 & Ep & K2 & _ & W2 & A2).
  destruct (clone_same h1 (length h) W1 A1 L1) as (h2' & Ec' & X2 & L2 & _). unfold clone_of in Ec'. rewrite Ec in Ec'. injection Ec' as <-.
  assert (Et : t = T (FI text 0 (zlen text) (Some n_document) None) []) by (destruct O1 as (R & _ & _); exact (rep_fun _ _ _ _ R1 R)). subst t.
  destruct (P3 h2 (length h1) (conj W2 A2) (conj R2 (conj Ep L2))) as (h3 & l & E3 & Hf3 & X3 & O3 & N3 & L3).
  unfold call. rewrite drain_act. unfold clone_of. rewrite Ec. rewrite E3. pose proof (extends_trans _ _ _ X2 X3) as X23. assert (N : ~ In (length h) l) by (intros Q; rewrite Forall_forall in L3; specialize (L3 _ Q); destruct X2; lia).
  destruct (own_add_all (length h) (FI text 0 (zlen text) (Some n_document) None) l ps h3 [] Hf3) as (h4 & E4 & Hf4 & L4 & O4 & _ & K4).
  - exact (own_ext _ _ _ _ (conj W1 A1) X23 O1).
  - exact O3.
  - exact N.
  - exact N3.
  - exact P2'.
  - exact P2.
  - rewrite E4. unfold obind. cbn [fst snd]. exists h4, (length h). split; [reflexivity|]. split; [|split; [apply Hf4|split; [apply Hf4|split; [apply O4|apply O4]]]].
    apply (extends_only h h3 h4 (length h :: l)); [exact (extends_trans _ _ _ X1 X23)|exact L4|intros j Nj; apply K4; intros Q; apply Nj; [left; auto|right; exact Q]|].
    constructor; [lia|]. eapply Forall_impl; [|exact L3]. cbn beta. intros c Q. destruct X1, X2. lia.
Qed.
(** the tree is the only one *)
Lemma gives_tree_one f t t' : gives_tree f t -> gives_tree f t' -> t = t'.
Proof.
  intros G G'. destruct (G [] hwf_nil acyclic_nil) as (h & r & E & _ & _ & _ & R & _). destruct (G' [] hwf_nil acyclic_nil) as (h' & r' & E' & _ & _ & _ & R' & _).
  rewrite E in E'. injection E' as <- <-. exact (rep_fun _ _ _ _ R R').
Qed.
