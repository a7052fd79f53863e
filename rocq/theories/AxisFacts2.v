(** What each axis selects from one node. *)
From Verif Require Export AxisFacts.

Lemma existsb_false_iff {A} (f : A -> bool) l : existsb f l = false <-> forall x, In x l -> f x = false.
Proof.
  induction l as [|x l IH]; cbn; [split; [intros _ y []|reflexivity]|]. rewrite orb_false_iff, IH. split.
  - intros [E1 E2] y [<-|Hy]; auto.
  - intros F. split; [apply F; left; reflexivity|intros y Hy; apply F; right; exact Hy].
Qed.

Lemma seq_index_at h p l i r : hwf h -> n_kids (nd h p) = l ++ i :: r -> forall k, seq_index h i k (n_kids (nd h p)) = Ok (k + length l)%nat.
Proof.
  intros H E. pose proof (hwf_sorted h H p) as S. unfold kids_sorted in S. rewrite E in *. clear E.
  induction l as [|x l IH]; intros k; cbn [app seq_index length].
  - unfold node_eqb. rewrite Nat.eqb_refl. cbn [orb]. f_equal. lia.
  - cbn [app] in S. inversion S as [|? ? S' F]; subst. rewrite Forall_forall in F.
    assert (B : h_before h x i) by (apply F; apply in_or_app; right; left; reflexivity). destruct B as [B _].
    assert (Ne : node_eqb h x i = false).
    { unfold node_eqb. apply orb_false_iff. split.
      - apply Nat.eqb_neq. intros ->. lia.
      - unfold key_eqb. unfold h_start in B. destruct (f_start (n_f (nd h x)) =? f_start (n_f (nd h i))) eqn:E; [apply Z.eqb_eq in E; lia|]. reflexivity. }
    rewrite Ne, IH by exact S'. f_equal. lia.
Qed.
Lemma kids_split h i p : hwf h -> n_par (nd h i) = Some p -> exists l r, n_kids (nd h p) = l ++ i :: r.
Proof. intros H E. apply in_split. exact (proj1 (hwf_par h H p i E)). Qed.
Lemma kids_unique_split h p l i r l' r' : hwf h -> n_kids (nd h p) = l ++ i :: r -> n_kids (nd h p) = l' ++ i :: r' -> l = l' /\ r = r'.
Proof.
  intros H E E'. pose proof (kids_sorted_NoDup h _ (hwf_sorted h H p)) as N. rewrite E in N. rewrite E in E'. clear E. revert l' E'. induction l as [|x l IH]; intros [|y l'] E; cbn [app] in *.
  - injection E as ->. auto.
  - injection E as -> ->. exfalso. inversion N as [|? ? N1 _]; subst. apply N1. apply in_or_app. right. left. reflexivity.
  - injection E as -> E. exfalso. inversion N as [|? ? N1 _]; subst. apply N1. apply in_or_app. right. left. reflexivity.
  - injection E as -> E. inversion N; subst. destruct (IH H3 l' E) as [-> ->]. auto.
Qed.
Lemma sib_doc h p ks : hwf h -> (exists l r, n_kids (nd h p) = l ++ ks ++ r) -> StronglySorted (doc_before h) ks.
Proof.
  intros H. induction ks as [|x ks IH]; intros (l & r & E); [constructor|]. constructor.
  - apply IH. exists (l ++ [x]), r. rewrite E, <- app_assoc. reflexivity.
  - apply Forall_forall. intros y Hy. apply in_split in Hy. destruct Hy as (m & m' & ->). right. exists p, l, x, m, y, (m' ++ r). cbn [app] in E. rewrite E, <- app_assoc.
    split; [reflexivity|]. split; left; reflexivity.
Qed.
Lemma anc_doc h l : StronglySorted (fun a b => anc h b a) l -> StronglySorted (fun a b => doc_before h b a) l.
Proof. apply SS_impl. intros a b _ _ A. left. exact A. Qed.

Lemma walk_root h i : hwf h -> acyclic h -> (i < length h)%nat -> n_par (nd h i) <> None ->
  exists ancs l1 l2, anc_list (depth_fuel h) h i = Ok ancs /\ (forall j, In j ancs <-> anc h j i) /\
    let r := last ancs i in root_of h r i /\ walk h r false = (l1 ++ i :: l2, None) /\ walk h r true = (rev (l1 ++ i :: l2), None) /\
    NoDup (l1 ++ i :: l2) /\ (forall j, In j (l1 ++ i :: l2) <-> anc h r j) /\ StronglySorted (doc_before h) (l1 ++ i :: l2).
Proof.
  intros H Ha Hi Np. destruct (anc_list_spec h i H Ha Hi) as (ancs & E & S1 & _ & R).
  assert (A : anc h (last ancs i) i) by (destruct R as [R1 [R2|R2]]; [rewrite R2 in R1; congruence|exact R2]).
  destruct (walk_gen h (last ancs i) H Ha) as (l & W1 & W2 & N & S2 & S3); [apply (anc_bound h _ i H) in A; lia|].
  pose proof (proj2 (S2 i) A) as I. apply in_split in I. destruct I as (l1 & l2 & ->). exists ancs, l1, l2. cbv zeta. repeat (split; [assumption|]). assumption.
Qed.
Lemma order_split h l1 i l2 : StronglySorted (doc_before h) (l1 ++ i :: l2) -> (forall j, In j l1 -> doc_before h j i) /\ (forall j, In j l2 -> doc_before h i j).
Proof.
  intros S. apply SS_app_inv in S. destruct S as (S1 & S2 & S3). split.
  - intros j Hj. apply S3; [exact Hj|left; reflexivity].
  - inversion S2 as [|? ? _ F]; subst. rewrite Forall_forall in F. exact F.
Qed.

Lemma axis_of_spec h k i : hwf h -> acyclic h -> (i < length h)%nat -> ax_domain h k i -> (ax_local k = false -> k <> AxSelf -> k <> AxDedup -> n_par (nd h i) <> None) ->
  exists l, axis_of h k false i = (l, None) /\ axis_of h k true i = (rev l, None) /\ (forall j, In j l <-> ax_set h k i j) /\ StronglySorted (ax_order h k) l.
Proof.
  intros H Ha Hi D Np. unfold ax_order. destruct k; cbn [axis_of ax_set ax_backward ax_domain ax_local] in *.
  - (* root *) destruct (anc_list_spec h i H Ha Hi) as (l & E & S1 & S2 & R1 & R2). rewrite E. cbn [bind gen_of_res].
    destruct (rev l) as [|x r] eqn:Er.
    + exists []. split; [reflexivity|]. split; [reflexivity|]. split; [|constructor]. intros j. split; [intros []|]. intros [_ A]. apply S1 in A. apply in_rev in A. rewrite Er in A. destruct A.
    + exists [x]. split; [reflexivity|]. split; [reflexivity|]. split; [|repeat constructor].
      assert (El : l = rev r ++ [x]) by (rewrite <- (rev_involutive l), Er; reflexivity). rewrite El in R1, R2. rewrite last_last in R1, R2.
      intros j. cbn [In]. split.
      * intros [<-|[]]. split; [exact R1|]. destruct R2 as [R2|R2]; [|exact R2]. apply S1. rewrite El. apply in_or_app. right. left. reflexivity.
      * intros [P A]. left. apply (root_unique h i); split; auto.
  - (* ancestors *) destruct (anc_list_spec h i H Ha Hi) as (l & E & S1 & S2 & _). rewrite E. cbn [bind gen_of_res]. exists l. repeat (split; [reflexivity|]). split; [exact S1|apply anc_doc; exact S2].
  - (* parent *) destruct (n_par (nd h i)) as [p|]; [exists [p]|exists []]; (split; [reflexivity|]; split; [reflexivity|]; split; [|repeat constructor]); intros j; cbn [In]; split.
    + intros [<-|[]]. reflexivity.
    + intros [= <-]. auto.
    + intros [].
    + discriminate.
  - (* self *) exists [i]. split; [reflexivity|]. split; [reflexivity|]. split; [|repeat constructor]. intros j. cbn [In]. split; [intros [<-|[]]; reflexivity|auto].
  - exists [i]. split; [reflexivity|]. split; [reflexivity|]. split; [|repeat constructor]. intros j. cbn [In]. split; [intros [<-|[]]; reflexivity|auto].
  - (* children *) exists (n_kids (nd h i)). split; [reflexivity|]. split; [reflexivity|]. split.
    + intros j. split; [apply kids_par; exact H|intros E; exact (proj1 (hwf_par h H i j E))].
    + apply (sib_doc h i _ H). exists [], []. cbn [app]. rewrite app_nil_r. reflexivity.
  - (* descendants *) destruct (walk_gen h i H Ha Hi) as (l & W1 & W2 & _ & S1 & S2). exists l. auto.
  - (* leaves *) destruct (walk_gen h i H Ha Hi) as (l & W1 & W2 & _ & S1 & S2). rewrite W1, W2. unfold gmap. cbn [fst snd]. eexists. split; [reflexivity|]. rewrite filter_rev. split; [reflexivity|]. split.
    + intros j. rewrite filter_In, S1. destruct (n_kids (nd h j)); intuition discriminate.
    + apply SS_filter. exact S2.
  - (* preceding *) assert (Np' : n_par (nd h i) <> None) by (apply Np; [reflexivity|discriminate|discriminate]).
    destruct D as [D|D]; [contradiction|].
    destruct (walk_root h i H Ha Hi Np') as (ancs & l1 & l2 & E & S0 & R & W1 & W2 & N & S1 & S2). rewrite E. cbn [negb]. cbv zeta in *. rewrite W1, W2. unfold gmap. cbn [fst snd].
    pose proof (NoDup_remove_2 _ _ _ N) as N2. destruct (order_split h l1 i l2 S2) as [O1 O2].
    rewrite rev_app_distr. cbn [rev]. rewrite <- app_assoc. cbn [app]. rewrite drop_while_split by (intros X; apply in_rev in X; apply N2; apply in_or_app; right; exact X). cbn [tl].
    rewrite take_while_split by (intros X; apply N2; apply in_or_app; left; exact X). rewrite filter_rev.
    eexists. split; [reflexivity|]. rewrite rev_involutive. split; [reflexivity|]. split.
    + intros j. rewrite <- in_rev, filter_In, negb_true_iff. split.
      * intros [I1 I2]. split; [exact (O1 j I1)|]. intros A. rewrite existsb_false_iff in I2. specialize (I2 j (proj2 (S0 j) A)). unfold node_eqb in I2. rewrite Nat.eqb_refl in I2. discriminate.
      * intros [P1 P2]. split.
        -- assert (I : In j (l1 ++ i :: l2)).
           { apply S1. destruct (doc_before_root h j i H P1 _ R) as [X|X]; [|exact X]. exfalso. rewrite X in P2. apply P2. destruct R as [R1 [R2|R2]]; [rewrite R2 in R1; congruence|exact R2]. }
           apply in_app_or in I. destruct I as [I|[I|I]]; [exact I| |].
           ++ subst j. destruct (doc_before_irrefl h H Ha i P1).
           ++ destruct (doc_asym h H Ha i j (O2 j I) P1).
        -- apply existsb_false_iff. intros a Ia. apply S0 in Ia. unfold node_eqb. apply orb_false_iff. split.
           ++ apply Nat.eqb_neq. intros ->. exact (P2 Ia).
           ++ destruct P1 as [P1|(p & l & x & m & y & r & Ek & Hx & Hy)]; [contradiction|].
              pose proof (sib_spans h p l x m y r j i H Ek Hx Hy) as B. apply (anc_span h a i H) in Ia. destruct Ia as (_ & A1 & A2). unfold nonempty in D.
              unfold key_eqb. unfold h_start, h_stop in *. destruct (f_stop (n_f (nd h a)) =? f_stop (n_f (nd h j))) eqn:Es; [apply Z.eqb_eq in Es; lia|]. rewrite andb_false_r. reflexivity.
    + rewrite <- filter_rev. apply SS_filter. apply SS_app_inv in S2. destruct S2 as (S2 & _). apply SS_rev in S2. exact S2.
  - (* preceding siblings *) destruct (n_par (nd h i)) as [p|] eqn:Ep.
    + destruct (kids_split h i p H Ep) as (l & r & Ek). rewrite (seq_index_at h p l i r H Ek). cbn [Nat.add]. rewrite Ek.
      rewrite firstn_app, Nat.sub_diag, firstn_all. cbn [firstn]. rewrite app_nil_r. exists (rev l). split; [reflexivity|]. rewrite rev_involutive. split; [reflexivity|]. split.
      * intros j. rewrite <- in_rev. split.
        -- intros Hj. apply in_split in Hj. destruct Hj as (l1 & l2 & ->). exists p, l1, l2, r. rewrite Ek, <- app_assoc. reflexivity.
        -- intros (q & l1 & m & r1 & E). pose proof (proj2 (sib_mem _ _ _ _ _ _ _ E)) as Iq. apply (kids_par _ _ _ H) in Iq. rewrite Ep in Iq. injection Iq as <-.
           assert (E' : n_kids (nd h p) = (l1 ++ j :: m) ++ i :: r1) by (rewrite E, <- app_assoc; reflexivity).
           destruct (kids_unique_split h p _ _ _ _ _ H Ek E') as [-> _]. apply in_or_app. right. left. reflexivity.
      * apply (SS_rev (doc_before h)). apply (sib_doc h p l H). exists [], (i :: r). exact Ek.
    + exists []. split; [reflexivity|]. split; [reflexivity|]. split; [|constructor]. intros j. split; [intros []|]. intros (q & l1 & m & r1 & E).
      pose proof (proj2 (sib_mem _ _ _ _ _ _ _ E)) as Iq. apply (kids_par _ _ _ H) in Iq. congruence.
  - (* previous sibling *) destruct (n_par (nd h i)) as [p|] eqn:Ep.
    + destruct (kids_split h i p H Ep) as (l & r & Ek). rewrite (seq_index_at h p l i r H Ek). cbn [Nat.add]. rewrite Ek.
      assert (U : forall j, sib_next h j i -> exists l', l = l' ++ [j]).
      { intros j (q & l1 & r1 & E). assert (Iq : In i (n_kids (nd h q))) by (rewrite E; apply in_or_app; right; right; left; reflexivity). apply (kids_par _ _ _ H) in Iq. rewrite Ep in Iq. injection Iq as <-.
        assert (E' : n_kids (nd h p) = (l1 ++ [j]) ++ i :: r1) by (rewrite E, <- app_assoc; reflexivity). destruct (kids_unique_split h p _ _ _ _ _ H Ek E') as [-> _]. eauto. }
      destruct (rev l) as [|x l'] eqn:El.
      * assert (l = []) by (rewrite <- (rev_involutive l), El; reflexivity). subst l. cbn [length]. exists []. split; [reflexivity|]. split; [reflexivity|]. split; [|constructor].
        intros j. split; [intros []|]. intros X. apply U in X. destruct X as (l' & X). destruct l'; discriminate.
      * assert (El' : l = rev l' ++ [x]) by (rewrite <- (rev_involutive l), El; reflexivity). clear El. subst l. rewrite app_length. cbn [length].
        replace (0 <? length (rev l') + 1)%nat with true by (symmetry; apply Nat.ltb_lt; lia). replace (length (rev l') + 1 - 1)%nat with (length (rev l')) by lia.
        rewrite <- app_assoc. rewrite app_nth2 by lia. rewrite Nat.sub_diag. cbn [app nth]. exists [x]. split; [reflexivity|]. split; [reflexivity|]. split; [|repeat constructor].
        intros j. cbn [In]. split.
        -- intros [<-|[]]. exists p, (rev l'), r. rewrite Ek, <- app_assoc. reflexivity.
        -- intros X. apply U in X. destruct X as (l2 & X). apply app_inj_tail in X. left. tauto.
    + exists []. split; [reflexivity|]. split; [reflexivity|]. split; [|constructor]. intros j. split; [intros []|]. intros (q & l1 & r1 & E).
      assert (Iq : In i (n_kids (nd h q))) by (rewrite E; apply in_or_app; right; right; left; reflexivity). apply (kids_par _ _ _ H) in Iq. congruence.
  - (* next sibling *) destruct (n_par (nd h i)) as [p|] eqn:Ep.
    + destruct (kids_split h i p H Ep) as (l & r & Ek). rewrite (seq_index_at h p l i r H Ek). cbn [Nat.add]. rewrite Ek.
      assert (U : forall j, sib_next h i j -> exists r', r = j :: r').
      { intros j (q & l1 & r1 & E). assert (Iq : In i (n_kids (nd h q))) by (rewrite E; apply in_or_app; right; left; reflexivity). apply (kids_par _ _ _ H) in Iq. rewrite Ep in Iq. injection Iq as <-.
        destruct (kids_unique_split h p _ _ _ _ _ H Ek E) as [_ ->]. eauto. }
      rewrite app_length. cbn [length]. destruct r as [|x r'].
      * cbn [length]. replace (length l <? length l + 1 - 1)%nat with false by (symmetry; apply Nat.ltb_ge; lia). exists []. split; [reflexivity|]. split; [reflexivity|]. split; [|constructor].
        intros j. split; [intros []|]. intros X. apply U in X. destruct X as (r' & X). discriminate.
      * cbn [length]. replace (length l <? length l + S (S (length r')) - 1)%nat with true by (symmetry; apply Nat.ltb_lt; lia).
        rewrite app_nth2 by lia. replace (length l + 1 - length l)%nat with 1%nat by lia. cbn [nth]. exists [x]. split; [reflexivity|]. split; [reflexivity|]. split; [|repeat constructor].
        intros j. cbn [In]. split.
        -- intros [<-|[]]. exists p, l, r'. exact Ek.
        -- intros X. apply U in X. destruct X as (r2 & [= -> _]). auto.
    + exists []. split; [reflexivity|]. split; [reflexivity|]. split; [|constructor]. intros j. split; [intros []|]. intros (q & l1 & r1 & E).
      assert (Iq : In i (n_kids (nd h q))) by (rewrite E; apply in_or_app; right; left; reflexivity). apply (kids_par _ _ _ H) in Iq. congruence.
  - (* following siblings *) destruct (n_par (nd h i)) as [p|] eqn:Ep.
    + destruct (kids_split h i p H Ep) as (l & r & Ek). rewrite (seq_index_at h p l i r H Ek). cbn [Nat.add]. rewrite Ek.
      rewrite skipn_app. rewrite skipn_all2 by lia. replace (length l + 1 - length l)%nat with 1%nat by lia. cbn [skipn app]. exists r. split; [reflexivity|]. split; [reflexivity|]. split.
      * intros j. split.
        -- intros Hj. apply in_split in Hj. destruct Hj as (l1 & l2 & ->). exists p, l, l1, l2. exact Ek.
        -- intros (q & l1 & m & r1 & E). pose proof (proj1 (sib_mem _ _ _ _ _ _ _ E)) as Iq. apply (kids_par _ _ _ H) in Iq. rewrite Ep in Iq. injection Iq as <-.
           destruct (kids_unique_split h p _ _ _ _ _ H Ek E) as [_ ->]. apply in_or_app. right. left. reflexivity.
      * apply (sib_doc h p r H). exists (l ++ [i]), []. rewrite Ek, app_nil_r, <- app_assoc. reflexivity.
    + exists []. split; [reflexivity|]. split; [reflexivity|]. split; [|constructor]. intros j. split; [intros []|]. intros (q & l1 & m & r1 & E).
      pose proof (proj1 (sib_mem _ _ _ _ _ _ _ E)) as Iq. apply (kids_par _ _ _ H) in Iq. congruence.
  - (* following *) assert (Np' : n_par (nd h i) <> None) by (apply Np; [reflexivity|discriminate|discriminate]).
    destruct D as [D|[D1 D2]]; [contradiction|].
    destruct (walk_root h i H Ha Hi Np') as (ancs & l1 & l2 & E & S0 & R & W1 & W2 & N & S1 & S2). rewrite E. cbv zeta in *. rewrite W1, W2. unfold gmap. cbn [fst snd].
    destruct (order_split h l1 i l2 S2) as [O1 O2]. set (L := l1 ++ i :: l2) in *.
    rewrite drop_while_filter. 2:{ eapply SS_impl; [|exact S2]. intros a b _ _ B Hb. apply (doc_start h a b H) in B. apply Z.ltb_lt in Hb. apply Z.ltb_lt. lia. }
    rewrite take_while_filter. 2:{ apply SS_rev in S2. eapply SS_impl; [|exact S2]. intros a b _ _ B Hb. cbn in B. apply (doc_start h b a H) in B. apply Z.leb_le in Hb. apply Z.leb_le. lia. }
    eexists. split; [reflexivity|]. rewrite filter_rev. split.
    { f_equal. f_equal. apply filter_ext. intros a. rewrite Z.leb_antisym. reflexivity. }
    split; [|apply SS_filter; exact S2]. intros j. rewrite filter_In, negb_true_iff, Z.ltb_ge. split.
    + intros [I J]. unfold L in I. apply in_app_or in I. unfold nonempty in D1. destruct I as [I|[I|I]].
      * apply O1 in I. apply (doc_start h j i H) in I. lia.
      * subst j. lia.
      * split; [exact (O2 j I)|]. intros A. pose proof (D2 j A) as Nj. apply (anc_span h i j H) in A. destruct A as (_ & A1 & A2). unfold nonempty in Nj. lia.
    + intros [P1 P2]. split.
      * apply S1. destruct R as [R1 R2]. assert (Rj : root_of h (last ancs i) j).
        { split; [exact R1|]. destruct P1 as [P1|(p & l & x & m & y & r & Ek & Hx & Hy)]; [contradiction|]. right.
          pose proof (sib_mem _ _ _ _ _ _ _ Ek) as [Ix Iy]. pose proof (soa_anc h p x i (kids_par _ _ _ H Ix) Hx) as Aa. pose proof (soa_anc h p y j (kids_par _ _ _ H Iy) Hy) as Ab.
          destruct R2 as [R2|R2]; [rewrite R2 in R1; congruence|]. destruct (anc_comparable h p _ i Aa R2) as [<-|[X|X]]; [exact Ab| |eapply anc_trans; eassumption].
          apply anc_up_inv in X. destruct X as (? & X & _). congruence. }
        destruct Rj as [_ [Rj|Rj]]; [|exact Rj]. exfalso. rewrite Rj in R2. destruct R2 as [R2|R2]; [subst j|].
        -- exact (doc_before_irrefl h H Ha _ P1).
        -- refine (doc_asym h H Ha i j P1 _). left. exact R2.
      * destruct P1 as [P1|(p & l & x & m & y & r & Ek & Hx & Hy)]; [contradiction|]. exact (sib_spans h p l x m y r i j H Ek Hx Hy).
Qed.
