(** Facts for Nlp.v: words, and how the tokens cover a sentence. *)
From Verif Require Import NlpDoc PyFacts HeapFacts4 ArborFacts3 ArborFacts4 NlpFacts NlpFacts2 NlpFacts3 NlpFacts5 NlpFacts6 NlpFacts7 NlpFacts8 NlpFacts9 NlpFacts10 NlpFacts11 NlpFacts12 NlpFacts13.

Section Words.
  Variables (C : classes) (s : pystr) (e : Z).
  Hypothesis He : e <= zlen s.
  Lemma plain_opt r L : plain s e r L -> (forall u, L u -> u <> []) -> plain s e (NOpt r) (fun u => u = [] \/ L u).
  Proof.
    intros P Nn i j Hi. split.
    - intros (c & Hc). apply in_opt_ways in Hc; [|lia]. destruct Hc as [[= -> ->]|[Hc _]].
      + exists []. split; [left; reflexivity|]. split; [apply written_nil; lia|change (zlen (@nil Z)) with 0; lia].
      + destruct (proj1 (P i j Hi) (ex_intro _ c Hc)) as (u & Lu & W & E). exists u. auto.
    - intros (u & Lu & W & E). assert (A : accepts s e (NOpt r) i u); [|rewrite E; exact A]. apply accepts_opt; [lia|].
      destruct Lu as [->|Lu]; [left; reflexivity|right]. split; [exact (Nn u Lu)|]. apply (P i (i + zlen u) Hi). exists u. auto.
  Qed.
  Definition step_rx : nrx := NSeq (NOpt (NAlt (NChars single_quotes) (NSeq (NStr (lit "-")) (NStar (NCls (cls_s C)))))) (NCls (cls_w C)).
  Definition step_text (u : pystr) : Prop := exists j c, u = j ++ [c] /\ joint C j /\ cls_w C c = true.
  Lemma step_plain : plain s e step_rx step_text.
  Proof.
    unfold step_rx. eapply plain_imp; [|apply plain_seq; [exact He|apply plain_opt; [apply plain_alt; [apply plain_chars; exact He|apply plain_seq; [exact He|apply plain_str; exact He|apply plain_cls_rep; exact He]]|]|apply plain_cls; exact He]].
    - cbn beta. intros u. split.
      + intros (v & w & -> & Hv & (c & -> & Hc)). exists v, c. split; [reflexivity|]. split; [|exact Hc]. destruct Hv as [->|[(q & -> & Hq)|(a & sp & -> & -> & _ & F)]]; [left; reflexivity|right; left; eauto|right; right; eauto].
      + intros (j & c & -> & Hj & Hc). exists j, [c]. split; [reflexivity|]. split; [|eauto]. destruct Hj as [->|[(q & Hq & ->)|(sp & F & ->)]]; [left; reflexivity|right; left; eauto|right; right]. exists (lit "-"), sp. repeat split; [lia|exact F].
    - cbn beta. intros u [(q & -> & _)|(a & sp & -> & -> & _)]; discriminate.
  Qed.
  Lemma step_full u : step_text u -> u <> [].
  Proof. intros (j & c & -> & _) E. apply app_eq_nil in E. destruct E as [_ E]. discriminate E. Qed.
  Definition word_parts (u : pystr) : Prop := exists c us, u = c :: concat us /\ cls_w C c = true /\ Forall step_text us.
  Lemma word_plain : plain s e (word_rx C) word_parts.
  Proof.
    intros i j Hi. unfold word_rx. rewrite hits_grp. fold step_rx.
    pose proof (plain_seq s e He _ _ _ _ (plain_cls s e He (cls_w C)) (plain_rep s e He 0 _ _ step_plain step_full)) as P. rewrite (P i j Hi). clear P. split.
    - intros (u & (v & w & -> & (c & -> & Hc) & (us & _ & -> & F)) & W & E). exists (c :: concat us). split; [exists c, us; auto|auto].
    - intros (u & (c & us & -> & Hc & F) & W & E). exists (c :: concat us). split; [|auto]. exists [c], (concat us). split; [reflexivity|]. split; [eauto|]. exists us. split; [lia|auto].
  Qed.
  Lemma parts_word : forall us u, word_text C u -> Forall step_text us -> word_text C (u ++ concat us).
  Proof.
    induction us as [|x us IH]; intros u Hu F; [rewrite app_nil_r; exact Hu|]. inversion F as [|? ? (j & c & -> & Hj & Hc) F']; subst. cbn [concat]. rewrite app_assoc. apply IH; [|exact F']. apply WT_more; assumption.
  Qed.
  (** the first way: it stops where no further step can be taken *)
  Lemma step_goes i w : 0 <= i <= e -> In w (nways step_rx s e i) -> i < fst w.
  Proof.
    intros Hi Hw. destruct w as [j c]. cbn [fst]. destruct (proj1 (step_plain i j Hi) (ex_intro _ c Hw)) as (u & Hu & W & ->). apply step_full in Hu. pose proof (nonempty_len u Hu). lia.
  Qed.
  Lemma word_head i w ws : 0 <= i <= e -> nways (word_rx C) s e i = w :: ws -> nways step_rx s e (fst w) = [].
  Proof.
    intros Hi E. unfold word_rx in E. fold step_rx in E.
    assert (E1 : nways (NGrp n_word (NSeq (NCls (cls_w C)) (NStar step_rx))) s e i = map (fun w => (fst w, snd w ++ [(word_desc, (i, fst w))])) (nways (NSeq (NCls (cls_w C)) (NStar step_rx)) s e i)) by reflexivity. rewrite E1 in E. clear E1.
    destruct (nways (NSeq (NCls (cls_w C)) (NStar step_rx)) s e i) as [|v vs] eqn:Ev; [discriminate E|]. cbn [map] in E. injection E as <- _. cbn [fst].
    assert (E2 : nways (NSeq (NCls (cls_w C)) (NStar step_rx)) s e i = then_ (nways (NCls (cls_w C)) s e i) (nways (NStar step_rx) s e)) by reflexivity. rewrite E2 in Ev. clear E2.
    assert (E3 : nways (NCls (cls_w C)) s e i = if char_is (cls_w C) s e i then [(i + 1, [])] else []) by reflexivity. rewrite E3 in Ev. clear E3.
    destruct (char_is (cls_w C) s e i) eqn:Ec; [|discriminate Ev]. unfold then_ in Ev. cbn [flat_map fst snd] in Ev. rewrite app_nil_r in Ev.
    destruct (nways (NStar step_rx) s e (i + 1)) as [|x xs] eqn:Ex; [discriminate Ev|]. cbn [map] in Ev. injection Ev as <- _. cbn [fst].
    assert (Hi' : i < e) by (unfold char_is in Ec; apply andb_true_iff in Ec; destruct Ec as [Ec _]; lia).
    assert (E4 : nways (NStar step_rx) s e (i + 1) = rep_ways (nways step_rx s e) (S (Z.to_nat (e - (i + 1)))) 0 None (i + 1)) by reflexivity. rewrite E4 in Ex.
    apply (rep_head_least s e step_rx step_goes (S (Z.to_nat (e - (i + 1)))) 0%nat (i + 1) x xs); [lia|lia|exact Ex].
  Qed.
  (** words, as trees *)
  Theorem words_text a u : 0 <= a -> In u (words C s a e) -> word_text C (zsub s (t_start u) (t_stop u)) /\ a <= t_start u < t_stop u /\ t_stop u <= e /\
    forall j c, joint C j -> cls_w C c = true -> ~ written s e (t_stop u) (j ++ [c]).
  Proof.
    intros Ha Hu. unfold words, found_spans in Hu. apply in_map_iff in Hu. destruct Hu as (x & <- & Hx). apply in_map_iff in Hx. destruct Hx as (m & <- & Hm).
    destruct (found_way _ _ _ _ _ Hm) as (B1 & B2 & W). destruct (found_head _ _ _ _ _ Hm) as (_ & ws & Hh). unfold t_start, t_stop. cbn [t_f at_ f_start f_stop].
    destruct (proj1 (word_plain (fst (fst m)) (snd (fst m)) ltac:(lia)) (ex_intro (fun c => In (snd (fst m), c) (nways (word_rx C) s e (fst (fst m)))) (snd m) W)) as (u & Hu & (Wa & Wb & Wc) & E). rewrite E, Wc.
    destruct Hu as (c & us & -> & Hc & F). rewrite zlen_cons in *. pose proof (zlen_nonneg (concat us)). split; [apply (parts_word us [c]); [constructor; exact Hc|exact F]|]. split; [lia|]. split; [lia|].
    intros j c' Hj Hc' Wr. apply (word_head (fst (fst m)) _ _ ltac:(lia)) in Hh. cbn [fst] in Hh. rewrite E in Hh. apply (hits_some s e step_rx (fst (fst m) + (1 + zlen (concat us)))); [|exact Hh].
    eexists. apply step_plain; [lia|]. exists (j ++ [c']). split; [exists j, c'; auto|]. split; [exact Wr|reflexivity].
  Qed.
  Theorem words_cover a k c : 0 <= a <= k -> k < e -> zget s k = Some c -> cls_w C c = true -> exists u, In u (words C s a e) /\ takes_in u k.
  Proof.
    intros Ha Hk Hc Hw. destruct (found_gap (word_rx C) s a e k ltac:(lia)) as [(m & Hm & Q)|N].
    - exists (at_ s (fst (fst m)) (snd (fst m)) word_desc []). split; [unfold words, found_spans; apply in_map_iff; exists (fst m); split; [reflexivity|apply in_map; exact Hm]|].
      assert (R : fst (fst m) < snd (fst m)) by (apply (word_match C s a e m ltac:(lia) He Hm)).
      unfold takes_in, t_start, t_stop. cbn [t_f at_ f_start f_stop]. lia.
    - exfalso. apply (hits_some s e (word_rx C) k); [|exact N]. exists (k + 1). apply word_plain; [lia|]. exists [c]. split; [exists c, []; auto|]. split; [|rewrite zlen_cons; reflexivity]. unfold written. rewrite zlen_cons. change (zlen (@nil Z)) with 0. split; [lia|]. split; [lia|]. apply zsub_single; exact Hc.
  Qed.
End Words.
