(** Facts for Nlp.v: the first way to match a number is the longest. *)
From Verif Require Import NlpDoc PyFacts NlpFacts NlpFacts2 NlpFacts7.

Section Top.
  Variables (s : pystr) (e : Z).
  Notation W r i := (nways r s e i).
  (** the first way ends at p, no other further; those that end before do so where Q holds *)
  Definition top (r : nrx) (i p : Z) (Q : Z -> Prop) : Prop :=
    (exists c ws, W r i = (p, c) :: ws) /\ forall v, In v (W r i) -> fst v = p \/ (fst v < p /\ Q (fst v)).
  Definition neat (r : nrx) (i : Z) (Q : Z -> Prop) : Prop := W r i = [] \/ exists p, top r i p Q.
  Lemma top_imp r i p (Q R : Z -> Prop) : (forall j, Q j -> R j) -> top r i p Q -> top r i p R.
  Proof. intros H [T1 T2]. split; [exact T1|]. intros v Hv. destruct (T2 v Hv) as [E|[L E]]; auto. Qed.
  Lemma neat_imp r i (Q R : Z -> Prop) : (forall j, Q j -> R j) -> neat r i Q -> neat r i R.
  Proof. intros H [E|(p & T)]; [left; exact E|right; exists p; exact (top_imp r i p Q R H T)]. Qed.
  Lemma then_first w ws f v vs : f (fst w) = v :: vs -> exists t, then_ (w :: ws) f = (fst v, snd w ++ snd v) :: t.
  Proof. intros E. unfold then_. cbn [flat_map]. rewrite E. cbn [map app]. eauto. Qed.
  (** a then b, when b matches the empty text at least and nothing more where a may end before *)
  Lemma top_seq a b i p q Q R : top a i p Q -> top b p q R -> i <= e -> p <= q -> (forall j v, i <= j <= e -> Q j -> In v (W b j) -> fst v = j) -> top (NSeq a b) i q (fun j => Q j \/ R j).
  Proof.
    intros [(c & ws & E1) T1] [(c' & ws' & E2) T2] Hi Hpq H. split.
    - destruct (then_first (p, c) ws (nways b s e) (q, c') ws' E2) as (t & E). exists (c ++ c'), t. cbn [nways]. rewrite E1. exact E.
    - intros x Hx. apply in_seq_ways in Hx. destruct Hx as (w & v & Hw & Hv & ->). cbn [fst]. destruct (T1 w Hw) as [Ew|[Lw Qw]].
      + rewrite Ew in Hv. destruct (T2 v Hv) as [Ev|[Lv Rv]]; [left; exact Ev|right; auto].
      + pose proof (H _ v (nways_bound s e a i w Hi Hw) Qw Hv) as Ev. right. rewrite Ev. split; [lia|auto].
  Qed.
  (** a then b, when b does not match where a may end before *)
  Lemma neat_seq a b i (Q R : Z -> Prop) : i <= e -> neat a i Q -> (forall p, top a i p Q -> neat b p R) -> (forall j, i <= j <= e -> Q j -> W b j = []) -> neat (NSeq a b) i R.
  Proof.
    intros Hi [E|(p & T)] Hb Hq; [left; cbn [nways]; rewrite E; reflexivity|]. pose proof T as [(c & ws & E1) T1]. destruct (Hb p T) as [E2|(q & (c' & ws' & E2) & T2)].
    - left. destruct (W (NSeq a b) i) as [|x l] eqn:E; [reflexivity|]. exfalso. assert (Hx : In x (W (NSeq a b) i)) by (rewrite E; left; reflexivity). apply in_seq_ways in Hx. destruct Hx as (w & v & Hw & Hv & _). destruct (T1 w Hw) as [Ew|[_ Qw]]; [rewrite Ew, E2 in Hv; destruct Hv|rewrite (Hq _ (nways_bound s e a i w Hi Hw) Qw) in Hv; destruct Hv].
    - right. exists q. split.
      + destruct (then_first (p, c) ws (nways b s e) (q, c') ws' E2) as (t & E). exists (c ++ c'), t. cbn [nways]. rewrite E1. exact E.
      + intros x Hx. apply in_seq_ways in Hx. destruct Hx as (w & v & Hw & Hv & ->). cbn [fst]. destruct (T1 w Hw) as [Ew|[_ Qw]]; [rewrite Ew in Hv; exact (T2 v Hv)|rewrite (Hq _ (nways_bound s e a i w Hi Hw) Qw) in Hv; destruct Hv].
  Qed.
  Lemma top_grp k a i p Q : top a i p Q -> top (NGrp k a) i p Q.
  Proof. intros [(c & ws & E) T]. split; [cbn [nways]; rewrite E; cbn [map fst snd]; eauto|]. intros v Hv. apply in_grp_ways in Hv. destruct Hv as (w & Hw & ->). exact (T w Hw). Qed.
  Lemma grp_nil k a i : W a i = [] -> W (NGrp k a) i = [].
  Proof. intros E. cbn [nways]. rewrite E. reflexivity. Qed.
  Lemma neat_grp k a i Q : neat a i Q -> neat (NGrp k a) i Q.
  Proof. intros [E|(p & T)]; [left; apply grp_nil; exact E|right; exists p; apply top_grp; exact T]. Qed.
  Lemma neat_alt_l a b i Q : W a i = [] -> neat b i Q -> neat (NAlt a b) i Q.
  Proof. intros E H. unfold neat, top in *. cbn [nways]. rewrite E. exact H. Qed.
  Lemma neat_alt_r a b i Q : W b i = [] -> neat a i Q -> neat (NAlt a b) i Q.
  Proof. intros E H. unfold neat, top in *. cbn [nways]. rewrite E, app_nil_r. exact H. Qed.
  Lemma opt_ways a i : i <= e -> (forall w, In w (W a i) -> i < fst w) -> W (NOpt a) i = then_ (W a i) (fun j => [(j, [])]) ++ [(i, [])] \/ W (NOpt a) i = [(i, [])] /\ e <= i.
  Proof.
    intros Hi H. unfold NOpt. cbn [nways rep_ways]. assert (Ef : filter (fun w => i <? fst w) (W a i) = W a i).
    { revert H. induction (W a i) as [|w l IH]; intros H; [reflexivity|]. cbn [filter]. destruct (Z.ltb_spec i (fst w)) as [L|L]; [|specialize (H w (or_introl eq_refl)); lia]. f_equal. apply IH. intros x Hx. apply H. right. exact Hx. }
    rewrite Ef. destruct (Z.to_nat (e - i)) as [|n] eqn:En.
    - right. split; [|lia]. destruct (W a i) as [|w l] eqn:E; [reflexivity|]. exfalso. pose proof (nways_bound s e a i w Hi ltac:(rewrite E; left; reflexivity)). specialize (H w (or_introl eq_refl)). lia.
    - left. reflexivity.
  Qed.
  Lemma top_opt a i p Q : i <= e -> (forall w, In w (W a i) -> i < fst w) -> top a i p Q -> top (NOpt a) i p (fun j => j = i \/ Q j).
  Proof.
    intros Hi H [(c & ws & E) T]. assert (Lp : i < p) by (apply (H (p, c)); rewrite E; left; reflexivity). split.
    - destruct (opt_ways a i Hi H) as [E'|[_ L]]; [|pose proof (nways_bound s e a i (p, c) Hi ltac:(rewrite E; left; reflexivity)) as B; cbn [fst] in B; lia]. rewrite E', E. unfold then_. cbn [flat_map map fst snd app]. eauto.
    - intros v Hv. apply in_opt_ways in Hv; [|exact Hi]. destruct Hv as [->|[Hv _]]; [right; cbn [fst]; auto|]. destruct (T v Hv) as [Ev|[Lv Qv]]; auto.
  Qed.
  Lemma top_opt_none a i Q : i <= e -> W a i = [] -> top (NOpt a) i i Q.
  Proof.
    intros Hi E. split.
    - destruct (opt_ways a i Hi ltac:(rewrite E; intros w [])) as [E'|[E' _]]; rewrite E'; [rewrite E; cbn; eauto|eauto].
    - intros v Hv. apply in_opt_ways in Hv; [|exact Hi]. destruct Hv as [->|[Hv _]]; [auto|]. rewrite E in Hv. destruct Hv.
  Qed.
  Lemma opt_only a j v : j <= e -> W a j = [] -> In v (W (NOpt a) j) -> fst v = j.
  Proof. intros Hj E Hv. apply in_opt_ways in Hv; [|exact Hj]. destruct Hv as [->|[Hv _]]; [reflexivity|]. rewrite E in Hv. destruct Hv. Qed.
  Lemma top_le r i p Q : i <= e -> top r i p Q -> i <= p <= e.
  Proof. intros Hi [(c & ws & E) _]. exact (nways_bound s e r i (p, c) Hi ltac:(rewrite E; left; reflexivity)). Qed.
  (** repetition of something that matches in one way only *)
  Section Det.
    Variable a : nrx.
    Hypothesis one : forall i, i <= e -> W a i = [] \/ exists w, W a i = [w] /\ i < fst w.
    Lemma det_rep : forall fuel least i, i <= e -> (Z.to_nat (e - i) < fuel)%nat ->
      rep_ways (nways a s e) fuel least None i = [] \/
      exists p, W a p = [] /\ (exists c ws, rep_ways (nways a s e) fuel least None i = (p, c) :: ws) /\ i <= p <= e /\ forall v, In v (rep_ways (nways a s e) fuel least None i) -> fst v = p \/ (fst v < p /\ W a (fst v) <> []).
    Proof.
      induction fuel as [|fuel IH]; intros least i Hi Hf; [lia|]. cbn [rep_ways option_map]. destruct (one i Hi) as [E|(w & E & L)].
      - rewrite E. cbn [filter then_ flat_map app]. destruct least as [|least]; [|left; reflexivity]. right. exists i. split; [exact E|]. split; [eauto|]. split; [lia|]. intros v [<-|[]]. left. reflexivity.
      - pose proof (nways_bound s e a i w Hi ltac:(rewrite E; left; reflexivity)) as B. rewrite E. cbn [filter]. destruct (Z.ltb_spec i (fst w)); [|lia]. unfold then_. cbn [flat_map]. rewrite app_nil_r.
        destruct (IH (Nat.pred least) (fst w) ltac:(lia) ltac:(lia)) as [E2|(p & Ep & (c & ws & E2) & Bp & T)].
        + rewrite E2. cbn [map app]. destruct least as [|least]; [|left; reflexivity]. exfalso. cbn [Nat.pred] in E2. destruct fuel as [|fuel]; [lia|]. cbn [rep_ways] in E2. apply app_eq_nil in E2. destruct E2 as [_ E2]. discriminate E2.
        + right. exists p. split; [exact Ep|]. split; [rewrite E2; cbn [map fst snd app]; eauto|]. split; [lia|]. intros v Hv. apply in_app_or in Hv. destruct Hv as [Hv|Hv].
          * apply in_map_iff in Hv. destruct Hv as (x & <- & Hx). cbn [fst]. exact (T x Hx).
          * destruct least; [|destruct Hv]. destruct Hv as [<-|[]]. cbn [fst]. right. split; [lia|]. rewrite E. discriminate.
    Qed.
    Lemma neat_rep least i : i <= e -> W (NRep least None a) i = [] \/ exists p, W a p = [] /\ top (NRep least None a) i p (fun j => W a j <> []).
    Proof.
      intros Hi. destruct (det_rep (S (Z.to_nat (e - i))) least i Hi ltac:(lia)) as [E|(p & Ep & T1 & _ & T2)]; [left; exact E|]. right. exists p. split; [exact Ep|]. split; [exact T1|exact T2].
    Qed.
    Lemma plus_some i : i <= e -> W a i <> [] -> W (NPlus a) i <> [].
    Proof.
      intros Hi H. destruct (one i Hi) as [E|(w & E & L)]; [contradiction|]. unfold NPlus. cbn [nways rep_ways Nat.pred option_map]. rewrite E. cbn [filter]. destruct (Z.ltb_spec i (fst w)); [|lia]. unfold then_. cbn [flat_map]. rewrite !app_nil_r.
      pose proof (nways_bound s e a i w Hi ltac:(rewrite E; left; reflexivity)) as B. destruct (Z.to_nat (e - i)) as [|n] eqn:En; [lia|]. cbn [rep_ways]. intros Q. apply map_eq_nil in Q. apply app_eq_nil in Q. destruct Q as [_ Q]. discriminate Q.
    Qed.
  End Det.
  Lemma cls_one p i : i <= e -> W (NCls p) i = [] \/ exists w, W (NCls p) i = [w] /\ i < fst w.
  Proof. intros _. cbn [nways]. destruct (char_is p s e i); [right; eexists; split; [reflexivity|cbn; lia]|left; reflexivity]. Qed.
  Lemma cls_some p j : W (NCls p) j <> [] <-> char_is p s e j = true.
  Proof. cbn [nways]. destruct (char_is p s e j); split; intros H; try reflexivity; try discriminate; congruence. Qed.
  Lemma cls_none p j : char_is p s e j = false -> W (NCls p) j = [].
  Proof. intros E. cbn [nways]. rewrite E. reflexivity. Qed.
  Lemma plus_none a i : W a i = [] -> W (NPlus a) i = [].
  Proof. intros E. unfold NPlus. cbn [nways rep_ways]. rewrite E. reflexivity. Qed.
  Lemma seq_none a b i : W a i = [] -> W (NSeq a b) i = [].
  Proof. intros E. cbn [nways]. rewrite E. reflexivity. Qed.
  Lemma seq_none_r a b i : (forall w, In w (W a i) -> W b (fst w) = []) -> W (NSeq a b) i = [].
  Proof.
    intros H. destruct (W (NSeq a b) i) as [|x l] eqn:E; [reflexivity|]. exfalso. assert (Hx : In x (W (NSeq a b) i)) by (rewrite E; left; reflexivity). apply in_seq_ways in Hx. destruct Hx as (w & v & Hw & Hv & _). rewrite (H w Hw) in Hv. destruct Hv.
  Qed.
  (** what the character at j is excludes what it is not *)
  Lemma other_char (p q : Z -> bool) j : (forall c, p c = true -> q c = false) -> char_is p s e j = true -> char_is q s e j = false.
  Proof. unfold char_is. intros H. destruct (j <? e); [|discriminate]. destruct (nth_error s (Z.to_nat j)) as [c|]; [apply H|discriminate]. Qed.
  Lemma str_head c l j : e <= zlen s -> 0 <= j -> str_at (c :: l) s e j = true -> char_is (Z.eqb c) s e j = true.
  Proof.
    intros He Hj H. unfold str_at in H. apply andb_true_iff in H. destruct H as [H1 H2]. apply eqb_str_eq in H2. assert (St : stands s e j (c :: l)) by (split; [exact Hj|]; split; [lia|exact H2]).
    destruct (stands_char s e He j c l St) as [L E]. unfold char_is. rewrite E, Z.eqb_refl. apply andb_true_iff. split; [lia|reflexivity].
  Qed.
  Lemma str_none c l j : e <= zlen s -> 0 <= j -> char_is (Z.eqb c) s e j = false -> W (NStr (c :: l)) j = [].
  Proof. intros He Hj H. cbn [nways]. destruct (str_at (c :: l) s e j) eqn:E; [|reflexivity]. rewrite (str_head c l j He Hj E) in H. discriminate H. Qed.
  Lemma str_one c l i : i <= e -> W (NStr (c :: l)) i = [] \/ exists w, W (NStr (c :: l)) i = [w] /\ i < fst w.
  Proof. intros _. cbn [nways]. destruct (str_at (c :: l) s e i); [right; eexists; split; [reflexivity|]; cbn [fst]; rewrite zlen_cons; pose proof (zlen_nonneg l); lia|left; reflexivity]. Qed.
  (** one way: neat, whatever Q *)
  Lemma neat_one a i Q : W a i = [] \/ (exists w, W a i = [w] /\ i < fst w) -> neat a i Q.
  Proof. intros [E|(w & E & _)]; [left; exact E|right; exists (fst w)]. split; [exists (snd w), []; rewrite E; destruct w; reflexivity|]. intros v Hv. rewrite E in Hv. destruct Hv as [<-|[]]. auto. Qed.
  Lemma rep_exact p : forall m fuel j, let l := rep_ways (nways (NCls p) s e) fuel m (Some m) j in l = [] \/ exists w, l = [w] /\ j <= fst w /\ ((0 < m)%nat -> j < fst w).
  Proof.
    induction m as [|m IH]; intros fuel j; cbv zeta; (destruct fuel as [|fuel]; [left; reflexivity|]); cbn [rep_ways]; [right; eexists; split; [reflexivity|]; cbn [fst]; lia|]. rewrite app_nil_r. cbn [Nat.pred option_map].
    assert (Ew : nways (NCls p) s e j = if char_is p s e j then [(j + 1, [])] else []) by reflexivity. rewrite Ew. destruct (char_is p s e j) eqn:E; [|left; reflexivity]. cbn [filter fst]. destruct (Z.ltb_spec j (j + 1)); [|lia]. unfold then_. cbn [flat_map fst snd]. rewrite app_nil_r. destruct (IH fuel (j + 1)) as [E2|(w & E2 & L & _)]; rewrite E2; [left; reflexivity|]. right. cbn [map]. eexists. split; [reflexivity|]. cbn [fst]. lia.
  Qed.
  Lemma rep3_one p i : W (NRep 3 (Some 3%nat) (NCls p)) i = [] \/ exists w, W (NRep 3 (Some 3%nat) (NCls p)) i = [w] /\ i < fst w.
  Proof. destruct (rep_exact p 3 (S (Z.to_nat (e - i))) i) as [E|(w & E & _ & L)]; [left; exact E|right; exists w; split; [exact E|apply L; lia]]. Qed.
  Lemma seq_one a b i : (W a i = [] \/ exists w, W a i = [w] /\ i < fst w) -> (forall j, i < j -> W b j = [] \/ exists w, W b j = [w] /\ j < fst w) -> W (NSeq a b) i = [] \/ exists w, W (NSeq a b) i = [w] /\ i < fst w.
  Proof.
    intros [E|(w & E & L)] Hb; [left; apply seq_none; exact E|]. cbn [nways]. rewrite E. unfold then_. cbn [flat_map]. rewrite app_nil_r. destruct (Hb (fst w) L) as [E2|(v & E2 & L2)]; rewrite E2; [left; reflexivity|]. right. eexists. split; [reflexivity|]. cbn [fst]. lia.
  Qed.
  Lemma rep_chars p least most i w j : In w (W (NRep least most (NCls p)) i) -> i <= j < fst w -> char_is p s e j = true.
  Proof.
    cbn [nways]. intros H. apply rep_rounds in H. destruct H as (n & _ & _ & R). revert j. induction R as [i|n i w v Hw L R IH]; intros j Hj; cbn [fst] in Hj; [lia|]. apply in_cls_ways in Hw. destruct Hw as [Hc ->]. cbn [fst] in *. destruct (Z.eq_dec j i) as [->|N]; [exact Hc|]. apply IH. lia.
  Qed.
  (** a then b, when b matches at one of the ends of a only *)
  Lemma neat_seq_at a b i R : (forall w w', In w (W a i) -> In w' (W a i) -> W b (fst w) <> [] -> W b (fst w') <> [] -> fst w = fst w') -> (forall w, In w (W a i) -> neat b (fst w) R) ->
    W (NSeq a b) i = [] \/ exists w q, In w (W a i) /\ top b (fst w) q R /\ top (NSeq a b) i q R.
  Proof.
    intros U H. destruct (W (NSeq a b) i) as [|x l] eqn:E; [left; reflexivity|right].
    assert (G : exists w, In w (W a i) /\ exists q c ws c', W b (fst w) = (q, c) :: ws /\ fst x = q /\ c' = snd x).
    { cbn [nways] in E. clear U H. revert E. induction (W a i) as [|w ws IH]; [discriminate|]. unfold then_ in *. cbn [flat_map]. destruct (W b (fst w)) as [|[q c] vs] eqn:Ew.
      - cbn [map app]. intros E. destruct (IH E) as (w' & Hw' & Q). exists w'. split; [right; exact Hw'|exact Q].
      - cbn [map app fst snd]. intros [= <- _]. exists w. split; [left; reflexivity|]. exists q, c, vs, (snd w ++ c). cbn [fst snd]. auto. }
    destruct G as (w & Hw & q & c & ws & c' & Ew & Eq & _). destruct (H w Hw) as [E0|(q' & T)]; [rewrite E0 in Ew; discriminate Ew|].
    assert (q' = q) by (destruct T as [(c0 & ws0 & E0) _]; congruence). subst q'. exists w, q. split; [exact Hw|]. split; [exact T|]. split.
    - exists (snd x), l. rewrite E, <- Eq. destruct x; reflexivity.
    - intros v Hv. apply in_seq_ways in Hv. destruct Hv as (w' & v' & Hw' & Hv' & ->). cbn [fst]. rewrite <- (U w w' Hw Hw') in Hv'; [exact (proj2 T v' Hv')|rewrite Ew; discriminate|intros Q; rewrite Q in Hv'; destruct Hv'].
  Qed.
  Lemma empty_ways j : j <= e -> W (NStr []) j = [(j, [])].
  Proof. intros Hj. cbn [nways]. unfold str_at. change (zlen (@nil Z)) with 0. rewrite Z.add_0_r. rewrite (zsub_nil s j j) by lia. destruct (Z.leb_spec j e); [reflexivity|lia]. Qed.
  Lemma top_end a i p Q : i <= e -> top a i p Q -> top (NSeq a (NStr [])) i p Q.
  Proof.
    intros Hi T. pose proof (top_le a i p Q Hi T) as B. apply (top_imp _ i p (fun j => Q j \/ False)); [intros j [H|[]]; exact H|]. apply (top_seq a (NStr []) i p p Q (fun _ => False) T); [|exact Hi|lia|].
    - split; [rewrite empty_ways by lia; eauto|]. intros v Hv. rewrite empty_ways in Hv by lia. destruct Hv as [<-|[]]. auto.
    - intros j v Hj _ Hv. rewrite empty_ways in Hv by lia. destruct Hv as [<-|[]]. reflexivity.
  Qed.
  Lemma neat_end a i Q : i <= e -> neat a i Q -> neat (NSeq a (NStr [])) i Q.
  Proof. intros Hi [E|(p & T)]; [left; apply seq_none; exact E|right; exists p; apply top_end; assumption]. Qed.
  (** something optional that matches in one way only, then b, which does not match where it does *)
  Lemma neat_opt_seq a b i R : i <= e -> (W a i = [] \/ exists w, W a i = [w] /\ i < fst w) -> (forall j, i <= j <= e -> neat b j R) -> (W a i <> [] -> W b i = []) -> neat (NSeq (NOpt a) b) i R.
  Proof.
    intros Hi Ha Hb Hx. destruct Ha as [E|(w & E & L)].
    - apply (neat_seq (NOpt a) b i (fun _ => False) R Hi); [right; exists i; apply top_opt_none; assumption| |intros j _ []]. intros p T. apply Hb. exact (top_le _ _ _ _ Hi T).
    - assert (Ta : top a i (fst w) (fun _ => False)) by (split; [exists (snd w), []; rewrite E; destruct w; reflexivity|intros v Hv; rewrite E in Hv; destruct Hv as [<-|[]]; auto]).
      apply (neat_seq (NOpt a) b i (fun j => j = i \/ False) R Hi); [right; exists (fst w); apply top_opt; [exact Hi|intros v Hv; rewrite E in Hv; destruct Hv as [<-|[]]; exact L|exact Ta]| |].
      + intros p T. apply Hb. exact (top_le _ _ _ _ Hi T).
      + intros j _ [->|[]]. apply Hx. rewrite E. discriminate.
  Qed.
  Lemma opt_seq_none a b i : W a i = [] -> i <= e -> W b i = [] -> W (NSeq (NOpt a) b) i = [].
  Proof. intros E Hi Hb. apply seq_none_r. intros w Hw. rewrite (opt_only a i w Hi E Hw). exact Hb. Qed.
End Top.

Section Number.
  Variables (C : classes) (pc : Z) (pr : pystr) (sc : Z) (sr : pystr) (optional : bool) (s : pystr) (e : Z).
  Hypothesis He : e <= zlen s.
  Definition marks : pystr := lit "EeXx " ++ [10005].
  Hypothesis Hd : forall c, In c ([pc; sc] ++ lit "-+" ++ marks) -> cls_d C c = false.
  Hypothesis Hp : ~ In pc (sc :: lit "-+" ++ marks).
  Hypothesis Hs : ~ In sc marks.
  Notation W r i := (nways r s e i).
  Notation d := (NCls (cls_d C)).
  Definition is_d (j : Z) : Prop := char_is (cls_d C) s e j = true.
  Definition is_c (c j : Z) : Prop := char_is (Z.eqb c) s e j = true.
  Lemma is_among cs j : char_is (among cs) s e j = true -> exists c, In c cs /\ is_c c j.
  Proof. unfold is_c, char_is. destruct (j <? e); [|discriminate]. destruct (nth_error s (Z.to_nat j)) as [c|]; [|discriminate]. intros H. apply among_in in H. exists c. split; [exact H|]. cbn. apply Z.eqb_refl. Qed.
  Lemma c_unique c c' j : is_c c j -> is_c c' j -> c = c'.
  Proof. unfold is_c, char_is. destruct (j <? e); [|discriminate]. destruct (nth_error s (Z.to_nat j)) as [x|]; [|discriminate]. cbn. intros H1 H2. lia. Qed.
  Lemma c_not_d c j : is_c c j -> In c ([pc; sc] ++ lit "-+" ++ marks) -> char_is (cls_d C) s e j = false.
  Proof. intros H I. specialize (Hd c I). unfold is_c, char_is in *. destruct (j <? e); [|discriminate]. destruct (nth_error s (Z.to_nat j)) as [x|]; [|discriminate]. cbn in *. apply Z.eqb_eq in H. subst x. exact Hd. Qed.
  Lemma among_not_d cs j : char_is (among cs) s e j = true -> incl cs ([pc; sc] ++ lit "-+" ++ marks) -> char_is (cls_d C) s e j = false.
  Proof. intros H I. destruct (is_among cs j H) as (c & Hc & Q). exact (c_not_d c j Q (I c Hc)). Qed.
  Lemma d_not_c c j : is_d j -> In c ([pc; sc] ++ lit "-+" ++ marks) -> char_is (Z.eqb c) s e j = false.
  Proof. intros H I. destruct (char_is (Z.eqb c) s e j) eqn:E; [|reflexivity]. unfold is_d in H. rewrite (c_not_d c j E I) in H. discriminate H. Qed.
  Lemma c_not_c c c' j : is_c c j -> c <> c' -> char_is (Z.eqb c') s e j = false.
  Proof. intros H N. destruct (char_is (Z.eqb c') s e j) eqn:E; [|reflexivity]. exfalso. apply N. exact (c_unique c c' j H E). Qed.
  Lemma c_not_among c cs j : is_c c j -> ~ In c cs -> char_is (among cs) s e j = false.
  Proof. intros H N. destruct (char_is (among cs) s e j) eqn:E; [|reflexivity]. exfalso. destruct (is_among cs j E) as (c' & I & Q). rewrite (c_unique c c' j H Q) in N. contradiction. Qed.
  Lemma d_not_among cs j : is_d j -> incl cs ([pc; sc] ++ lit "-+" ++ marks) -> char_is (among cs) s e j = false.
  Proof. intros H I. destruct (char_is (among cs) s e j) eqn:E; [|reflexivity]. unfold is_d in H. rewrite (among_not_d cs j E I) in H. discriminate H. Qed.
  Lemma in_pc : In pc ([pc; sc] ++ lit "-+" ++ marks). Proof. left. reflexivity. Qed.
  Lemma in_sc : In sc ([pc; sc] ++ lit "-+" ++ marks). Proof. right. left. reflexivity. Qed.

  Lemma digits_neat i : i <= e -> W (NPlus d) i = [] \/ exists p, char_is (cls_d C) s e p = false /\ top s e (NPlus d) i p is_d.
  Proof.
    intros Hi. destruct (neat_rep s e d (cls_one s e (cls_d C)) 1 i Hi) as [E|(p & Ep & T)]; [left; exact E|]. right. exists p. split.
    - destruct (char_is (cls_d C) s e p) eqn:E; [|reflexivity]. apply cls_some in E. contradiction.
    - apply (top_imp s e _ i p _ _ (fun j H => proj1 (cls_some s e (cls_d C) j) H) T).
  Qed.
  Notation G := (NSeq (NStr (sc :: sr)) (NRep 3 (Some 3%nat) d)).
  Lemma G_one i : i <= e -> W G i = [] \/ exists w, W G i = [w] /\ i < fst w.
  Proof. intros Hi. apply seq_one; [apply str_one; exact Hi|]. intros j _. apply rep3_one. Qed.
  Lemma G_sep j : 0 <= j -> W G j <> [] -> is_c sc j.
  Proof. intros Hj H. destruct (char_is (Z.eqb sc) s e j) eqn:E; [exact E|]. exfalso. apply H. apply seq_none. apply str_none; assumption. Qed.
  Lemma plus_G_sep j : 0 <= j -> W (NPlus G) j <> [] -> is_c sc j.
  Proof. intros Hj H. apply G_sep; [exact Hj|]. intros E. apply H. apply plus_none. exact E. Qed.
  Notation grouped := (NSeq (NRep 1 (Some 3%nat) d) (NPlus G)).
  Lemma first_none i : char_is (cls_d C) s e i = false -> W (NRep 1 (Some 3%nat) d) i = [].
  Proof. intros E. cbn [nways rep_ways]. rewrite E. reflexivity. Qed.
  Lemma grouped_neat i : 0 <= i <= e -> W grouped i = [] \/ exists p q, is_c sc p /\ (forall j, i <= j < p -> is_d j) /\ p < q /\ i < p /\ top s e grouped i q (is_c sc).
  Proof.
    intros Hi. destruct (neat_seq_at s e (NRep 1 (Some 3%nat) d) (NPlus G) i (is_c sc)) as [E|(w & q & Hw & T1 & T2)]; [| |left; exact E|].
    - intros w w' Hw Hw' N N'. pose proof (nways_bound s e _ i w ltac:(lia) Hw) as B. pose proof (nways_bound s e _ i w' ltac:(lia) Hw') as B'. apply plus_G_sep in N; [|lia]. apply plus_G_sep in N'; [|lia].
      destruct (Z.lt_trichotomy (fst w) (fst w')) as [L|[L|L]]; [|exact L|]; exfalso.
      + pose proof (rep_chars s e (cls_d C) _ _ i w' (fst w) Hw' ltac:(lia)) as D. rewrite (c_not_d sc _ N in_sc) in D. discriminate D.
      + pose proof (rep_chars s e (cls_d C) _ _ i w (fst w') Hw ltac:(lia)) as D. rewrite (c_not_d sc _ N' in_sc) in D. discriminate D.
    - intros w Hw. pose proof (nways_bound s e _ i w ltac:(lia) Hw) as B. destruct (neat_rep s e G G_one 1 (fst w) ltac:(lia)) as [E|(p & _ & [T1 T2])]; [left; exact E|]. right. exists p. split; [exact T1|]. intros v Hv. destruct (T2 v Hv) as [Ev|[Lv Nv]]; [left; exact Ev|]. right. split; [exact Lv|]. apply G_sep; [|exact Nv]. pose proof (nways_bound s e _ (fst w) v ltac:(lia) Hv). lia.
    - right. pose proof (nways_bound s e _ i w ltac:(lia) Hw) as B. exists (fst w), q. split.
      + apply plus_G_sep; [lia|]. destruct T1 as [(c & ws & E) _]. rewrite E. discriminate.
      + split; [intros j Hj; exact (rep_chars s e (cls_d C) _ _ i w j Hw Hj)|]. split; [|split; [|exact T2]].
        * destruct T1 as [(c & ws & E) _]. assert (I : In (q, c) (W (NPlus G) (fst w))) by (rewrite E; left; reflexivity). unfold NPlus in I. cbn [nways] in I. apply rep_rounds in I. destruct I as (n & Ln & _ & R). inversion R as [|m ? x y Hx Lx R']; subst; [lia|]. apply rounds_le in R'. lia.
        * cbn [nways] in Hw. apply rep_rounds in Hw. destruct Hw as (n & Ln & _ & R). inversion R as [|m ? x y Hx Lx R']; subst; [lia|]. apply rounds_le in R'. cbn [fst]. lia.
  Qed.
  Definition Qi (j : Z) : Prop := is_d j \/ is_c sc j.
  Lemma integer_neat i : 0 <= i <= e -> neat s e (integer_rx C (sc :: sr) optional) i Qi.
  Proof.
    intros Hi. unfold integer_rx. cbv zeta. apply neat_grp. destruct (grouped_neat i Hi) as [E|(p & q & Sp & Dp & Lq & Lp & T)].
    - destruct optional; [|left; exact E]. apply neat_alt_l; [exact E|]. destruct (digits_neat i ltac:(lia)) as [E2|(p & _ & T)]; [left; exact E2|]. right. exists p. apply (top_imp s e _ i p is_d); [unfold Qi; auto|exact T].
    - right. exists q. destruct optional; [|apply (top_imp s e _ i q (is_c sc)); [unfold Qi; auto|exact T]]. destruct T as [(c & ws & E) T]. split; [cbn [nways] in *; rewrite E; cbn [app]; eauto|].
      intros v Hv. cbn [nways] in Hv. apply in_app_or in Hv. destruct Hv as [Hv|Hv]; [destruct (T v Hv) as [Q|[L Q]]; [left; exact Q|right; split; [exact L|right; exact Q]]|].
      right. pose proof (nways_bound s e (NPlus d) i v ltac:(lia) Hv) as B. destruct (Z.lt_trichotomy (fst v) p) as [L|[L|L]].
      + split; [lia|]. left. apply Dp. lia.
      + split; [lia|]. right. rewrite L. exact Sp.
      + exfalso. pose proof (rep_chars s e (cls_d C) 1 None i v p Hv ltac:(lia)) as D. rewrite (c_not_d sc _ Sp in_sc) in D. discriminate D.
  Qed.
  Lemma integer_none i : char_is (cls_d C) s e i = false -> W (integer_rx C (sc :: sr) optional) i = [].
  Proof.
    intros E. unfold integer_rx. cbv zeta. apply grp_nil. assert (Eg : W grouped i = []) by (apply seq_none; apply first_none; exact E). destruct optional; [|exact Eg]. assert (En : W (NPlus d) i = []) by (apply plus_none; apply cls_none; exact E). change (W grouped i ++ W (NPlus d) i = []). rewrite Eg, En. reflexivity.
  Qed.
  Lemma decimal_neat i : 0 <= i <= e -> neat s e (decimal_rx C (pc :: pr)) i is_d.
  Proof.
    intros Hi. unfold decimal_rx. apply neat_grp. apply (neat_seq s e (NStr (pc :: pr)) (NPlus d) i (fun _ => False) is_d ltac:(lia)); [apply neat_one; apply str_one; lia| |intros j _ []].
    intros p T. pose proof (top_le s e _ i p _ ltac:(lia) T) as B. destruct (digits_neat p ltac:(lia)) as [E|(q & _ & Tq)]; [left; exact E|right; exists q; exact Tq].
  Qed.
  Lemma decimal_none i : 0 <= i -> char_is (Z.eqb pc) s e i = false -> W (decimal_rx C (pc :: pr)) i = [].
  Proof. intros Hi E. apply grp_nil. apply seq_none. apply str_none; assumption. Qed.
  Lemma decimal_point i : 0 <= i -> W (decimal_rx C (pc :: pr)) i <> [] -> is_c pc i.
  Proof. intros Hi H. destruct (char_is (Z.eqb pc) s e i) eqn:E; [exact E|]. exfalso. apply H. apply decimal_none; assumption. Qed.
  Lemma decimal_goes i w : 0 <= i <= e -> In w (W (decimal_rx C (pc :: pr)) i) -> i < fst w.
  Proof.
    intros Hi H. pose proof (decimal_reads C (pc :: pr) s e He i w Hi H) as [D _]. apply decimal_len in D. pose proof (nways_bound s e _ i w ltac:(lia) H) as B. destruct (Z.eq_dec (fst w) i) as [E|N]; [|lia]. rewrite E, zsub_nil in D by lia. discriminate D.
  Qed.
  Definition Qb (j : Z) : Prop := is_d j \/ is_c sc j \/ is_c pc j.
  Notation body := (NAlt (NSeq (integer_rx C (sc :: sr) optional) (NOpt (decimal_rx C (pc :: pr)))) (decimal_rx C (pc :: pr))).
  Lemma pc_sc : sc <> pc. Proof. intros E. apply Hp. left. exact E. Qed.
  Lemma body_neat i : 0 <= i <= e -> neat s e body i Qb.
  Proof.
    intros Hi. destruct (char_is (cls_d C) s e i) eqn:Ed.
    - apply neat_alt_r; [apply decimal_none; [lia|]; apply d_not_c; [exact Ed|exact in_pc]|]. destruct (integer_neat i Hi) as [E|(p & T)]; [left; apply seq_none; exact E|]. right. pose proof (top_le s e _ i p _ ltac:(lia) T) as B.
      assert (No : forall j v, i <= j <= e -> Qi j -> In v (W (NOpt (decimal_rx C (pc :: pr))) j) -> fst v = j).
      { intros j v Hj Q. apply opt_only; [lia|]. apply decimal_none; [lia|]. destruct Q as [Q|Q]; [apply d_not_c; [exact Q|exact in_pc]|apply (c_not_c sc); [exact Q|exact pc_sc]]. }
      destruct (decimal_neat p ltac:(lia)) as [E|(q & Tq)].
      + exists p. apply (top_imp s e _ i p (fun j => Qi j \/ False)); [intros j [[Q|Q]|[]]; unfold Qb; auto|]. apply (top_seq s e _ _ i p p Qi (fun _ => False) T); [apply top_opt_none; [lia|exact E]|lia|lia|exact No].
      + exists q. pose proof (top_le s e _ p q _ ltac:(lia) Tq) as Bq. apply (top_imp s e _ i q (fun j => Qi j \/ (j = p \/ is_d j))).
        * intros j [[Q|Q]|[->|Q]]; unfold Qb; auto. right. right. apply decimal_point; [lia|]. destruct Tq as [(c & ws & E) _]. rewrite E. discriminate.
        * apply (top_seq s e _ _ i p q Qi _ T); [apply top_opt; [lia|intros w; apply decimal_goes; lia|exact Tq]|lia|lia|exact No].
    - apply neat_alt_l; [apply seq_none; apply integer_none; exact Ed|]. apply (neat_imp s e _ i is_d); [unfold Qb; auto|apply decimal_neat; exact Hi].
  Qed.
  Lemma body_none j : 0 <= j -> char_is (cls_d C) s e j = false -> char_is (Z.eqb pc) s e j = false -> W body j = [].
  Proof. intros Hj E1 E2. change (W (NSeq (integer_rx C (sc :: sr) optional) (NOpt (decimal_rx C (pc :: pr)))) j ++ W (decimal_rx C (pc :: pr)) j = []). rewrite seq_none by (apply integer_none; exact E1). rewrite decimal_none by assumption. reflexivity. Qed.
  (** ** exponents *)
  Lemma sign_one i : W sign_rx i = [] \/ exists w, W sign_rx i = [w] /\ i < fst w.
  Proof. unfold sign_rx. cbn [nways]. destruct (char_is _ s e i); [right; eexists; split; [reflexivity|cbn; lia]|left; reflexivity]. Qed.
  Lemma sign_char i : W sign_rx i <> [] -> char_is (among (lit "-+")) s e i = true.
  Proof. unfold sign_rx. cbn [nways]. destruct (char_is _ s e i); [reflexivity|]. intros H. exfalso. apply H. reflexivity. Qed.
  Notation tailG := (NSeq (NOpt sign_rx) (NSeq (NPlus d) (NStr []))).
  Lemma plus_d_none j : char_is (cls_d C) s e j = false -> W (NSeq (NPlus d) (NStr [])) j = [].
  Proof. intros E. apply seq_none. apply plus_none. apply cls_none. exact E. Qed.
  Ltac in_marks := intros ? ?; apply in_or_app; right; apply in_or_app; first [left; assumption | right; unfold marks; cbn in *; tauto].
  Lemma sign_incl : incl (lit "-+") ([pc; sc] ++ lit "-+" ++ marks). Proof. intros c H. apply in_or_app. right. apply in_or_app. left. exact H. Qed.
  Lemma marks_incl : incl marks ([pc; sc] ++ lit "-+" ++ marks). Proof. intros c H. apply in_or_app. right. apply in_or_app. right. exact H. Qed.
  Lemma tail_neat i : i <= e -> neat s e tailG i is_d.
  Proof.
    intros Hi. apply neat_opt_seq; [exact Hi|apply sign_one| |].
    - intros j Hj. apply neat_end; [lia|]. destruct (digits_neat j ltac:(lia)) as [E|(p & _ & T)]; [left; exact E|right; exists p; exact T].
    - intros N. apply plus_d_none. apply (among_not_d (lit "-+")); [apply sign_char; exact N|exact sign_incl].
  Qed.
  Lemma tail_none i : i <= e -> char_is (among (lit "-+")) s e i = false -> char_is (cls_d C) s e i = false -> W tailG i = [].
  Proof. intros Hi E1 E2. apply opt_seq_none; [|exact Hi|apply plus_d_none; exact E2]. unfold sign_rx. cbn [nways]. rewrite E1. reflexivity. Qed.
  Lemma space_char i : 0 <= i -> W (NStr (lit " ")) i <> [] -> is_c 32 i.
  Proof. intros Hi H. destruct (char_is (Z.eqb 32) s e i) eqn:E; [exact E|]. exfalso. apply H. exact (str_none s e 32 [] i He Hi E). Qed.
  Lemma exp_e_neat i : 0 <= i <= e -> neat s e (exp_e_rx C) i is_d.
  Proof.
    intros Hi. unfold exp_e_rx, NSeqs. cbn [fold_right]. apply (neat_seq s e _ _ i (fun _ => False) is_d ltac:(lia)); [apply neat_one; apply cls_one; lia| |intros j _ []]. intros p T. pose proof (top_le s e _ i p _ ltac:(lia) T). apply tail_neat. lia.
  Qed.
  Definition xs : pystr := lit "Xx" ++ [10005].
  Lemma exp_x10_neat i : 0 <= i <= e -> neat s e (exp_x10_rx C) i is_d.
  Proof.
    intros Hi. unfold exp_x10_rx, NSeqs. cbn [fold_right]. change (lit "Xx" ++ [10005]) with xs.
    assert (Sp : forall b j, 0 <= j <= e -> (forall k, 0 <= k <= e -> neat s e b k is_d) -> (is_c 32 j -> W b j = []) -> neat s e (NSeq (NOpt (NStr (lit " "))) b) j is_d).
    { intros b j Hj Hb Hx. apply neat_opt_seq; [lia|apply (str_one s e 32 [] j); lia|intros k Hk; apply Hb; lia|intros N; apply Hx; apply space_char; [lia|exact N]]. }
    assert (Sq : forall a b j, 0 <= j <= e -> (W a j = [] \/ exists w, W a j = [w] /\ j < fst w) -> (forall k, 0 <= k <= e -> neat s e b k is_d) -> neat s e (NSeq a b) j is_d).
    { intros a b j Hj Ha Hb. apply (neat_seq s e a b j (fun _ => False) is_d ltac:(lia)); [apply neat_one; exact Ha| |intros k _ []]. intros p T. pose proof (top_le s e _ j p _ ltac:(lia) T). apply Hb. lia. }
    apply Sp; [exact Hi| |]; [|intros Q; apply seq_none; apply cls_none; apply (c_not_among 32); [exact Q|vm_compute; intuition discriminate]].
    intros k1 K1. apply Sq; [exact K1|apply cls_one; lia|]. intros k2 K2. apply Sp; [exact K2| |intros Q; apply seq_none; apply (str_none s e 49 (lit "0^")); [exact He|lia|apply (c_not_c 32); [exact Q|lia]]].
    intros k3 K3. apply Sq; [exact K3|apply (str_one s e 49 (lit "0^")); lia|]. intros k4 K4. apply Sp; [exact K4| |].
    - intros k5 K5. apply tail_neat. lia.
    - intros Q. apply tail_none; [lia|apply (c_not_among 32); [exact Q|vm_compute; intuition discriminate]|]. apply (c_not_d 32); [exact Q|]. apply marks_incl. vm_compute. tauto.
  Qed.
  Lemma exp_e_none j : char_is (among (lit "Ee")) s e j = false -> W (exp_e_rx C) j = [].
  Proof. intros E. unfold exp_e_rx, NSeqs. cbn [fold_right]. apply seq_none. apply cls_none. exact E. Qed.
  Lemma exp_x10_none j : 0 <= j <= e -> char_is (Z.eqb 32) s e j = false -> char_is (among xs) s e j = false -> W (exp_x10_rx C) j = [].
  Proof.
    intros Hj E1 E2. unfold exp_x10_rx, NSeqs. cbn [fold_right]. apply opt_seq_none; [exact (str_none s e 32 [] j He ltac:(lia) E1)|lia|]. apply seq_none. apply cls_none. exact E2.
  Qed.
  Lemma exponent_neat i : 0 <= i <= e -> neat s e (exponent_rx C) i is_d.
  Proof.
    intros Hi. unfold exponent_rx. apply neat_grp. destruct (char_is (among (lit "Ee")) s e i) eqn:E.
    - apply neat_alt_r; [|apply exp_e_neat; exact Hi]. destruct (is_among _ _ E) as (c & Hc & Q). apply exp_x10_none; [exact Hi|apply (c_not_c c); [exact Q|intros ->; vm_compute in Hc; intuition discriminate]|apply (c_not_among c); [exact Q|destruct Hc as [<-|[<-|[]]]; vm_compute; intuition discriminate]].
    - apply neat_alt_l; [apply exp_e_none; exact E|apply exp_x10_neat; exact Hi].
  Qed.
  Lemma exponent_none j : 0 <= j <= e -> Qb j -> W (exponent_rx C) j = [].
  Proof.
    intros Hj Q. assert (N : forall cs, incl cs marks -> char_is (among cs) s e j = false).
    { intros cs I. destruct Q as [Q|[Q|Q]].
      - apply d_not_among; [exact Q|]. intros c Hc. apply marks_incl. apply I. exact Hc.
      - apply (c_not_among sc); [exact Q|]. intros Hc. apply Hs. apply I. exact Hc.
      - apply (c_not_among pc); [exact Q|]. intros Hc. apply Hp. right. apply in_or_app. right. apply I. exact Hc. }
    apply grp_nil. cbn [nways]. rewrite exp_e_none by (apply N; intros c; vm_compute; tauto). rewrite exp_x10_none; [reflexivity|exact Hj| |apply N; intros c; vm_compute; tauto].
    specialize (N [32] ltac:(intros c; vm_compute; tauto)). unfold char_is in *. destruct (j <? e); [|reflexivity]. cbn [andb] in *. destruct (nth_error s (Z.to_nat j)) as [c|]; [|reflexivity]. cbn in N. rewrite orb_false_r in N. rewrite Z.eqb_sym. exact N.
  Qed.
  Lemma exponent_goes i w : 0 <= i <= e -> In w (W (exponent_rx C) i) -> i < fst w.
  Proof.
    intros Hi H. pose proof (exponent_reads C s e He i w Hi H) as (c' & _ & (m & g & u & Eu & Hm & _ & Hu & _)). pose proof (nways_bound s e _ i w ltac:(lia) H) as B. destruct (Z.eq_dec (fst w) i) as [E|N]; [|lia]. rewrite E, zsub_nil in Eu by lia. destruct Hu as [Hu _]. destruct m, g, u; try discriminate Eu. congruence.
  Qed.
  Lemma number_neat i : 0 <= i <= e -> exists Q, neat s e (number_rx C (pc :: pr) (sc :: sr) optional) i Q.
  Proof.
    intros Hi. set (Q := fun j => Qb j \/ exists k, j = k \/ is_d j). exists Q. unfold number_rx, NSeqs. cbn [fold_right]. apply neat_grp. apply neat_opt_seq; [lia|apply sign_one| |].
    - intros j Hj. destruct (body_neat j ltac:(lia)) as [E|(p & T)]; [left; apply seq_none; exact E|]. right. pose proof (top_le s e _ j p _ ltac:(lia) T) as B.
      assert (No : forall k v, j <= k <= e -> Qb k -> In v (W (NSeq (NOpt (exponent_rx C)) (NStr [])) k) -> fst v = k).
      { intros k v Hk Qk Hv. apply in_seq_ways in Hv. destruct Hv as (w & v' & Hw & Hv & ->). cbn [fst]. pose proof (opt_only s e _ k w ltac:(lia) (exponent_none k ltac:(lia) Qk) Hw) as Ew. rewrite Ew in Hv. rewrite empty_ways in Hv by lia. destruct Hv as [<-|[]]. reflexivity. }
      destruct (exponent_neat p ltac:(lia)) as [E|(q & Tq)].
      + exists p. apply (top_imp s e _ j p (fun j => Qb j \/ False)); [intros k [H|[]]; left; exact H|]. apply (top_seq s e _ _ j p p Qb (fun _ => False) T); [apply top_end; [lia|]; apply top_opt_none; [lia|exact E]|lia|lia|exact No].
      + exists q. pose proof (top_le s e _ p q _ ltac:(lia) Tq) as Bq. apply (top_imp s e _ j q (fun j => Qb j \/ (j = p \/ is_d j))); [intros k [H|H]; [left; exact H|right; exists p; exact H]|].
        apply (top_seq s e _ _ j p q Qb _ T); [apply top_end; [lia|]; apply top_opt; [lia|intros w; apply exponent_goes; lia|exact Tq]|lia|lia|exact No].
    - intros N. apply seq_none. apply sign_char in N. apply body_none; [lia|apply (among_not_d (lit "-+")); [exact N|exact sign_incl]|]. destruct (is_among _ _ N) as (c & Hc & Qc). apply (c_not_c c); [exact Qc|]. intros ->. apply Hp. right. apply in_or_app. left. exact Hc.
  Qed.
End Number.
(** ** the numbers found are the longest *)
Theorem found_longest C pc pr sc sr optional s a b x : b <= zlen s -> 0 <= a ->
  (forall c, In c ([pc; sc] ++ lit "-+" ++ marks) -> cls_d C c = false) -> ~ In pc (sc :: lit "-+" ++ marks) -> ~ In sc marks ->
  In x (found_spans (number_rx C (pc :: pr) (sc :: sr) optional) s a b) ->
  forall n, numeral_ok C (pc :: pr) (sc :: sr) optional n -> stands s b (fst x) (nu_text n) -> fst x + zlen (nu_text n) <= snd x.
Proof.
  intros Hb Ha Hd Hp Hs Hx n Hn St. unfold found_spans in Hx. apply in_map_iff in Hx. destruct Hx as (m & <- & Hm). destruct (found_head _ _ _ _ _ Hm) as [B (ws & E)].
  destruct (number_accepted C (pc :: pr) (sc :: sr) optional s b Hb _ n Hn St) as (c & Hc). destruct (number_neat C pc pr sc sr optional s b Hb Hd Hp Hs (fst (fst m)) ltac:(lia)) as (Q & [E0|(p & (c' & ws' & E1) & T)]); [rewrite E0 in E; discriminate E|].
  assert (p = snd (fst m)) by congruence. subst p. destruct (T _ Hc) as [L|[L _]]; cbn [fst] in L; lia.
Qed.
