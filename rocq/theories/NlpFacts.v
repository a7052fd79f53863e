(** Facts for Nlp.v: the engine. *)
From Verif Require Import Nlp SpecArbor PyFacts.

Lemma in_then ws f x : In x (then_ ws f) <-> exists w v, In w ws /\ In v (f (fst w)) /\ x = (fst v, snd w ++ snd v).
Proof.
  unfold then_. rewrite in_flat_map. split.
  - intros (w & Hw & H). apply in_map_iff in H. destruct H as (v & E & Hv). exists w, v. auto.
  - intros (w & v & Hw & Hv & E). exists w. split; [exact Hw|]. apply in_map_iff. exists v. auto.
Qed.
(** how a repetition matches: some rounds, each going on *)
Inductive rounds (f : Z -> list way) : nat -> Z -> way -> Prop :=
| R_stop i : rounds f 0 i (i, [])
| R_more n i w v : In w (f i) -> i < fst w -> rounds f n (fst w) v -> rounds f (S n) i (fst v, snd w ++ snd v).
Lemma rep_rounds f : forall fuel least most i x, In x (rep_ways f fuel least most i) ->
  exists n, (least <= n)%nat /\ match most with Some m => (n <= m)%nat | None => True end /\ rounds f n i x.
Proof.
  induction fuel as [|fuel IH]; intros least most i x H; [destruct H|]. cbn [rep_ways] in H. apply in_app_or in H. destruct H as [H|H].
  - destruct (match most with Some O => true | _ => false end) eqn:Em; [destruct most as [[|m]|]; try discriminate Em; destruct H|].
    assert (H' : In x (then_ (filter (fun w => i <? fst w) (f i)) (rep_ways f fuel (Nat.pred least) (option_map Nat.pred most)))) by (destruct most as [[|m]|]; [discriminate Em|exact H|exact H]). clear H.
    apply in_then in H'. destruct H' as (w & v & Hw & Hv & ->). apply filter_In in Hw. destruct Hw as [Hw L]. destruct (IH _ _ _ _ Hv) as (n & L1 & L2 & R). exists (S n). split; [lia|]. split; [destruct most as [[|m]|]; [discriminate Em|cbn in L2; lia|exact L2]|]. apply (R_more f n i w v); [exact Hw|lia|exact R].
  - destruct least; [|destruct H]. destruct H as [<-|[]]. exists 0%nat. split; [lia|]. split; [destruct most; [lia|exact I]|]. constructor.
Qed.
Lemma rounds_rep f e : (forall i w, In w (f i) -> fst w <= e) -> forall n i x, rounds f n i x -> i <= e ->
  forall fuel least most, (Z.to_nat (e - i) < fuel)%nat -> (least <= n)%nat -> match most with Some m => (n <= m)%nat | None => True end -> In x (rep_ways f fuel least most i).
Proof.
  intros B n i x R. induction R as [i|n i w v Hw L R IH]; intros He fuel least most Hf Hl Hm; (destruct fuel as [|fuel]; [lia|]); cbn [rep_ways]; apply in_or_app.
  - right. destruct least; [left; reflexivity|lia].
  - left. pose proof (B _ _ Hw). assert (In (fst v, snd w ++ snd v) (then_ (filter (fun w => i <? fst w) (f i)) (rep_ways f fuel (Nat.pred least) (option_map Nat.pred most)))).
    { apply in_then. exists w, v. split; [apply filter_In; split; [exact Hw|lia]|]. split; [|reflexivity]. apply IH; [lia|lia|lia|]. destruct most; cbn; [lia|exact I]. }
    destruct most as [[|m]|]; [lia|assumption|assumption].
Qed.
Lemma rounds_le f n i x : rounds f n i x -> i <= fst x.
Proof. induction 1; cbn [fst]; lia. Qed.
Lemma rounds_bound f e : (forall i w, In w (f i) -> fst w <= e) -> forall n i x, rounds f n i x -> i <= e -> fst x <= e.
Proof. intros B n i x R. induction R as [i|n i w v Hw L R IH]; intros He; cbn [fst]; [exact He|]. apply IH. exact (B _ _ Hw). Qed.

Lemma nways_bound s e : forall r i w, i <= e -> In w (nways r s e i) -> i <= fst w <= e.
Proof.
  induction r as [p|l|ls|a IHa b IHb|a IHa b IHb|least most a IHa|k a IHa|a IHa|want a IHa|]; intros i w Hi H; cbn [nways] in H.
  - unfold char_is in H. destruct (i <? e) eqn:E; cbn [andb] in H; [|destruct H]. destruct (nth_error _ _); [|destruct H]. destruct (p z); [|destruct H]. destruct H as [<-|[]]. cbn [fst]. lia.
  - unfold str_at in H. destruct (i + zlen l <=? e) eqn:E; cbn [andb] in H; [|destruct H]. destruct (eqb_str _ _); [|destruct H]. destruct H as [<-|[]]. cbn [fst]. pose proof (zlen_nonneg l). lia.
  - apply in_flat_map in H. destruct H as (l & _ & H). unfold str_at in H. destruct (i + zlen l <=? e) eqn:E; cbn [andb] in H; [|destruct H]. destruct (eqb_str _ _); [|destruct H]. destruct H as [<-|[]]. cbn [fst]. pose proof (zlen_nonneg l). lia.
  - apply in_then in H. destruct H as (x & v & Hx & Hv & ->). cbn [fst]. destruct (IHa _ _ Hi Hx) as [A1 A2]. destruct (IHb _ _ A2 Hv). lia.
  - apply in_app_or in H. destruct H; eauto.
  - apply rep_rounds in H. destruct H as (n & _ & _ & R). split; [exact (rounds_le _ _ _ _ R)|]. clear - R IHa Hi. induction R as [i|n i w v Hw L R IH]; cbn [fst]; [exact Hi|]. apply IH. apply (IHa i w Hi Hw).
  - apply in_map_iff in H. destruct H as (x & <- & Hx). cbn [fst]. eauto.
  - destruct (nways a s e i); [destruct H|]. destruct H as [<-|[]]. cbn [fst]. lia.
  - destruct (eqb _ _); [|destruct H]. destruct H as [<-|[]]. cbn [fst]. lia.
  - destruct (_ || _); [|destruct H]. destruct H as [<-|[]]. cbn [fst]. lia.
Qed.
(** membership for the derived forms *)
Lemma in_seq_ways a b s e i x : In x (nways (NSeq a b) s e i) <-> exists w v, In w (nways a s e i) /\ In v (nways b s e (fst w)) /\ x = (fst v, snd w ++ snd v).
Proof. cbn [nways]. apply in_then. Qed.
Lemma in_grp_ways k a s e i x : In x (nways (NGrp k a) s e i) <-> exists w, In w (nways a s e i) /\ x = (fst w, snd w ++ [(k, (i, fst w))]).
Proof. cbn [nways]. rewrite in_map_iff. split; intros (w & H1 & H2); exists w; auto. Qed.
Lemma in_opt_ways a s e i x : i <= e -> In x (nways (NOpt a) s e i) -> x = (i, []) \/ (In x (nways a s e i) /\ i < fst x).
Proof.
  intros He H. unfold NOpt in H. cbn [nways] in H. apply rep_rounds in H. destruct H as (n & _ & L & R). inversion R as [|m ? w v Hw L' R']; subst; [left; reflexivity|]. right.
  assert (m = 0)%nat by lia. subst m. inversion R' as [j|]; subst. cbn [fst snd] in *. rewrite app_nil_r. destruct w; cbn [fst snd] in *. split; [exact Hw|exact L'].
Qed.
Lemma in_cls_ways p s e i x : In x (nways (NCls p) s e i) <-> char_is p s e i = true /\ x = (i + 1, []).
Proof. cbn [nways]. destruct (char_is p s e i); cbn [In]; intuition congruence. Qed.
Lemma in_str_ways l s e i x : In x (nways (NStr l) s e i) <-> str_at l s e i = true /\ x = (i + zlen l, []).
Proof. cbn [nways]. destruct (str_at l s e i); cbn [In]; intuition congruence. Qed.
Lemma in_set_ways ls s e i x : In x (nways (NSet ls) s e i) <-> exists l, In l ls /\ str_at l s e i = true /\ x = (i + zlen l, []).
Proof.
  cbn [nways]. rewrite in_flat_map. split; intros (l & H1 & H2).
  - destruct (str_at l s e i) eqn:E; [|destruct H2]. destruct H2 as [<-|[]]. exists l. auto.
  - destruct H2 as [E ->]. exists l. split; [exact H1|]. rewrite E. left. reflexivity.
Qed.

(** ** finditer *)
Section Find.
  Variable (r : nrx) (s : pystr) (e : Z).
  (** what is found from position i on *)
  Inductive finds_from : Z -> list (span * list (pystr * span)) -> Prop :=
  | FF_end i : e < i -> finds_from i []
  | FF_skip i ms : i <= e -> nways r s e i = [] -> finds_from (i + 1) ms -> finds_from i ms
  | FF_hit i w ws ms : i <= e -> nways r s e i = w :: ws -> finds_from (if i <? fst w then fst w else i + 1) ms -> finds_from i (((i, fst w), snd w) :: ms).
  Lemma nfind_finds : forall fuel i, (Z.to_nat (e - i) + 1 < fuel)%nat \/ (e < i) -> finds_from i (nfind fuel r s e i).
  Proof.
    induction fuel as [|fuel IH]; intros i H.
    - destruct H; [lia|]. cbn. constructor. assumption.
    - cbn [nfind]. destruct (Z.ltb_spec e i) as [L|L]; [constructor; exact L|]. destruct (nways r s e i) as [|w ws] eqn:E.
      + apply FF_skip; [exact L|exact E|]. apply IH. lia.
      + apply (FF_hit i w ws); [exact L|exact E|]. apply IH. destruct (Z.ltb_spec i (fst w)); lia.
  Qed.
  Lemma found_finds a : finds_from a (found r s a e).
  Proof. unfold found. apply nfind_finds. lia. Qed.
  Lemma finds_ordered i ms : finds_from i ms -> i <= e -> ordered i (map fst ms) e.
  Proof.
    assert (G : forall i ms, finds_from i ms -> forall a, a <= i -> a <= e -> ordered a (map fst ms) e).
    { clear. induction 1 as [i L|i ms L E F IH|i w ws ms L E F IH]; intros a Ha Hae.
      - cbn. exact Hae.
      - apply IH; lia.
      - cbn [map fst ordered]. pose proof (nways_bound s e r i w L ltac:(rewrite E; left; reflexivity)) as B. split; [lia|]. split; [lia|]. apply IH; destruct (Z.ltb_spec i (fst w)); lia. }
    intros F He. exact (G i ms F i ltac:(lia) He).
  Qed.
  Lemma finds_head i ms : finds_from i ms -> forall m, In m ms -> i <= fst (fst m) <= e /\ exists ws, nways r s e (fst (fst m)) = (snd (fst m), snd m) :: ws.
  Proof.
    induction 1 as [i L|i ms L E F IH|i w ws ms L E F IH]; intros m Hm.
    - destruct Hm.
    - destruct (IH m Hm) as [A B]. split; [lia|exact B].
    - destruct Hm as [<-|Hm].
      + cbn [fst snd]. split; [lia|]. exists ws. destruct w; exact E.
      + destruct (IH m Hm) as [A B]. split; [|exact B]. destruct (Z.ltb_spec i (fst w)); lia.
  Qed.
  (** every position is in a match, or no match can begin there, or an empty one was found there *)
  Lemma finds_gap i ms : finds_from i ms -> forall k, i <= k <= e -> (exists m, In m ms /\ fst (fst m) <= k /\ (k < snd (fst m) \/ snd (fst m) = fst (fst m) /\ k = fst (fst m))) \/ nways r s e k = [].
  Proof.
    induction 1 as [i L|i ms L E F IH|i w ws ms L E F IH]; intros k Hk.
    - lia.
    - destruct (Z.eq_dec k i) as [->|N]; [right; exact E|]. apply IH. lia.
    - pose proof (nways_bound s e r i w L ltac:(rewrite E; left; reflexivity)) as B. destruct (Z.ltb_spec i (fst w)) as [Lw|Lw].
      + destruct (Z.lt_ge_cases k (fst w)) as [Lk|Lk]; [left; exists ((i, fst w), snd w); cbn [fst snd]; split; [left; reflexivity|]; lia|].
        destruct (IH k ltac:(lia)) as [(m & Hm & Q)|Q]; [left; exists m; split; [right; exact Hm|exact Q]|right; exact Q].
      + destruct (Z.eq_dec k i) as [->|N]; [left; exists ((i, fst w), snd w); cbn [fst snd]; split; [left; reflexivity|lia]|].
        destruct (IH k ltac:(lia)) as [(m & Hm & Q)|Q]; [left; exists m; split; [right; exact Hm|exact Q]|right; exact Q].
  Qed.
End Find.
Lemma found_ordered r s a b : a <= b -> ordered a (map fst (found r s a b)) b.
Proof. intros H. apply (finds_ordered r s b a); [apply found_finds|exact H]. Qed.
Lemma found_head r s a b m : In m (found r s a b) -> a <= fst (fst m) <= b /\ exists ws, nways r s b (fst (fst m)) = (snd (fst m), snd m) :: ws.
Proof. apply finds_head. apply found_finds. Qed.
Lemma found_gap r s a b k : a <= k <= b -> (exists m, In m (found r s a b) /\ fst (fst m) <= k /\ (k < snd (fst m) \/ snd (fst m) = fst (fst m) /\ k = fst (fst m))) \/ nways r s b k = [].
Proof. apply finds_gap. apply found_finds. Qed.
(** a match found, as a way *)
Lemma found_way r s a b m : In m (found r s a b) -> a <= fst (fst m) <= snd (fst m) /\ snd (fst m) <= b /\ In (snd (fst m), snd m) (nways r s b (fst (fst m))).
Proof.
  intros H. destruct (found_head r s a b m H) as [B (ws & E)]. pose proof (nways_bound s b r (fst (fst m)) (snd (fst m), snd m) ltac:(lia) ltac:(rewrite E; left; reflexivity)) as Q. cbn [fst] in Q.
  split; [lia|]. split; [lia|]. rewrite E. left. reflexivity.
Qed.
