(** Facts for Nlp.v: what the patterns match. *)
From Verif Require Import NlpDoc PyFacts NlpFacts.

Section Reads.
  Variables (s : pystr) (e : Z).
  Hypothesis He : e <= zlen s.
  (** at every position, what r matches has P: position, text, captures *)
  Definition reads (r : nrx) (P : Z -> pystr -> list (pystr * span) -> Prop) : Prop :=
    forall i w, 0 <= i <= e -> In w (nways r s e i) -> P i (zsub s i (fst w)) (snd w).
  Lemma text_len i j : 0 <= i -> i <= j -> j <= e -> zlen (zsub s i j) = j - i.
  Proof. intros. apply zsub_len; lia. Qed.
  Lemma reads_imp r (P Q : Z -> pystr -> list (pystr * span) -> Prop) : (forall i u c, P i u c -> Q i u c) -> reads r P -> reads r Q.
  Proof. intros H R i w Hi Hw. apply H. exact (R i w Hi Hw). Qed.
  Lemma reads_seq a b P Q : reads a P -> reads b Q -> reads (NSeq a b) (fun i u c => exists u1 u2 c1 c2, u = u1 ++ u2 /\ c = c1 ++ c2 /\ P i u1 c1 /\ Q (i + zlen u1) u2 c2).
  Proof.
    intros Ra Rb i x Hi Hx. apply in_seq_ways in Hx. destruct Hx as (w & v & Hw & Hv & ->). cbn [fst snd].
    pose proof (nways_bound s e a i w ltac:(lia) Hw) as B1. pose proof (nways_bound s e b (fst w) v ltac:(lia) Hv) as B2.
    exists (zsub s i (fst w)), (zsub s (fst w) (fst v)), (snd w), (snd v). rewrite zsub_app_split by lia. split; [reflexivity|]. split; [reflexivity|]. split; [exact (Ra i w Hi Hw)|].
    rewrite text_len by lia. replace (i + (fst w - i)) with (fst w) by lia. apply Rb; [lia|exact Hv].
  Qed.
  Lemma reads_alt a b P Q : reads a P -> reads b Q -> reads (NAlt a b) (fun i u c => P i u c \/ Q i u c).
  Proof. intros Ra Rb i x Hi Hx. cbn [nways] in Hx. apply in_app_or in Hx. destruct Hx as [Hx|Hx]; [left; exact (Ra i x Hi Hx)|right; exact (Rb i x Hi Hx)]. Qed.
  Lemma reads_grp k a P : reads a P -> reads (NGrp k a) (fun i u c => exists c', c = c' ++ [(k, (i, i + zlen u))] /\ P i u c').
  Proof.
    intros Ra i x Hi Hx. apply in_grp_ways in Hx. destruct Hx as (w & Hw & ->). cbn [fst snd]. pose proof (nways_bound s e a i w ltac:(lia) Hw) as B. exists (snd w). rewrite text_len by lia. replace (i + (fst w - i)) with (fst w) by lia. split; [reflexivity|exact (Ra i w Hi Hw)].
  Qed.
  Lemma reads_opt a P : reads a P -> reads (NOpt a) (fun i u c => (u = [] /\ c = []) \/ (u <> [] /\ P i u c)).
  Proof.
    intros Ra i x Hi Hx. apply in_opt_ways in Hx; [|lia]. destruct Hx as [->|[Hx L]]; cbn [fst snd].
    - left. split; [apply zsub_nil; lia|reflexivity].
    - right. split; [|exact (Ra i x Hi Hx)]. intros E. pose proof (nways_bound s e a i x ltac:(lia) Hx) as B. pose proof (text_len i (fst x) ltac:(lia) ltac:(lia) ltac:(lia)) as L2. rewrite E in L2. unfold zlen in L2. cbn [length] in L2. lia.
  Qed.
  Lemma reads_cls p : reads (NCls p) (fun i u c => c = [] /\ exists x, u = [x] /\ p x = true).
  Proof.
    intros i w Hi Hw. apply in_cls_ways in Hw. destruct Hw as [Hc ->]. cbn [fst snd]. split; [reflexivity|]. unfold char_is in Hc. apply andb_true_iff in Hc. destruct Hc as [_ Hc]. destruct (nth_error s (Z.to_nat i)) as [x|] eqn:E; [|discriminate Hc]. exists x. split; [|exact Hc]. apply zsub_single. unfold zget. destruct (Z.ltb_spec i 0); [lia|exact E].
  Qed.
  Lemma reads_str l : reads (NStr l) (fun i u c => c = [] /\ u = l).
  Proof. intros i w Hi Hw. apply in_str_ways in Hw. destruct Hw as [Hc ->]. cbn [fst snd]. split; [reflexivity|]. unfold str_at in Hc. apply andb_true_iff in Hc. destruct Hc as [_ Hc]. apply eqb_str_eq in Hc. exact Hc. Qed.
  Lemma reads_set ls : reads (NSet ls) (fun i u c => c = [] /\ In u ls).
  Proof.
    intros i w Hi Hw. apply in_set_ways in Hw. destruct Hw as (l & Hl & Hc & ->). cbn [fst snd]. split; [reflexivity|]. unfold str_at in Hc. apply andb_true_iff in Hc. destruct Hc as [_ Hc]. apply eqb_str_eq in Hc. rewrite Hc. exact Hl.
  Qed.
  Lemma reads_still r : (forall i w, In w (nways r s e i) -> fst w = i /\ snd w = []) -> reads r (fun i u c => u = [] /\ c = []).
  Proof. intros H i w _ Hw. destruct (H i w Hw) as [-> ->]. split; [apply zsub_nil; lia|reflexivity]. Qed.
  Lemma reads_ahead a : reads (NAhead a) (fun i u c => u = [] /\ c = []).
  Proof. apply reads_still. intros i w H. cbn [nways] in H. destruct (nways a s e i); [destruct H|]. destruct H as [<-|[]]. auto. Qed.
  Lemma reads_behind b a : reads (NBehind b a) (fun i u c => u = [] /\ c = []).
  Proof. apply reads_still. intros i w H. cbn [nways] in H. destruct (eqb _ _); [|destruct H]. destruct H as [<-|[]]. auto. Qed.
  Lemma reads_end : reads NEnd (fun i u c => u = [] /\ c = []).
  Proof. apply reads_still. intros i w H. cbn [nways] in H. destruct (_ || _); [|destruct H]. destruct H as [<-|[]]. auto. Qed.
  (** repetition: the text is made of rounds *)
  Inductive many (P : Z -> pystr -> list (pystr * span) -> Prop) : nat -> Z -> pystr -> list (pystr * span) -> Prop :=
  | M_nil i : many P 0 i [] []
  | M_cons n i u v c1 c2 : u <> [] -> P i u c1 -> many P n (i + zlen u) v c2 -> many P (S n) i (u ++ v) (c1 ++ c2).
  Lemma reads_rep least most a P : reads a P -> reads (NRep least most a) (fun i u c => exists n, (least <= n)%nat /\ match most with Some m => (n <= m)%nat | None => True end /\ many P n i u c).
  Proof.
    intros Ra i x Hi Hx. cbn [nways] in Hx. apply rep_rounds in Hx. destruct Hx as (n & L1 & L2 & R). exists n. split; [exact L1|]. split; [exact L2|]. clear L1 L2. revert Hi. induction R as [i|n i w v Hw L R IH]; intros Hi; cbn [fst snd].
    - rewrite zsub_nil by lia. constructor.
    - pose proof (nways_bound s e a i w ltac:(lia) Hw) as B. pose proof (rounds_le _ _ _ _ R) as L2.
      assert (L3 : fst v <= e). { assert (Bw : fst w <= e) by lia. clear - R Bw. induction R as [j|m j w' v' Hw' L' R' IH']; cbn [fst]; [exact Bw|]. apply IH'. exact (proj2 (nways_bound s e a j w' Bw Hw')). }
      rewrite <- (zsub_app_split s i (fst w) (fst v)) by lia. constructor.
      + intros E. pose proof (text_len i (fst w) ltac:(lia) ltac:(lia) ltac:(lia)) as L4. rewrite E in L4. unfold zlen in L4. cbn [length] in L4. lia.
      + exact (Ra i w Hi Hw).
      + rewrite text_len by lia. replace (i + (fst w - i)) with (fst w) by lia. apply IH. lia.
  Qed.
  Lemma reads_cls_rep p least most : reads (NRep least most (NCls p)) (fun i u c => c = [] /\ (least <= length u)%nat /\ match most with Some m => (length u <= m)%nat | None => True end /\ Forall (fun x => p x = true) u).
  Proof.
    intros i w Hi Hw. pose proof (reads_rep least most _ _ (reads_cls p) i w Hi Hw) as (n & L1 & L2 & M). assert (G : snd w = [] /\ length (zsub s i (fst w)) = n /\ Forall (fun x => p x = true) (zsub s i (fst w))).
    { clear - M. induction M as [|n i u v c1 c2 N (-> & x & -> & Hx) M (-> & L & F)]; [repeat split; constructor|]. cbn. repeat split; [lia|constructor; assumption]. }
    destruct G as (-> & <- & F). auto.
  Qed.
End Reads.

(** a capture, when not empty *)
Definition cap_opt (a b : Z) (k : pystr) : list (pystr * span) := if a <? b then [(k, (a, b))] else [].
Section Number.
  Variables (C : classes) (point sep : pystr) (optional : bool) (s : pystr) (e : Z).
  Hypothesis He : e <= zlen s.
  Notation reads := (reads s e).
  Lemma digits_reads : reads (NPlus (NCls (cls_d C))) (fun _ u c => c = [] /\ digits C u).
  Proof. eapply reads_imp; [|exact (reads_cls_rep s e He (cls_d C) 1 None)]. cbn. intros i u c (-> & L & _ & F). split; [reflexivity|]. split; [destruct u; [cbn in L; lia|discriminate]|exact F]. Qed.
  Lemma among_in cs x : among cs x = true -> In x cs.
  Proof. unfold among. intros H. apply existsb_exists in H. destruct H as (y & Hy & E). apply Z.eqb_eq in E. subst y. exact Hy. Qed.
  Lemma sign_reads : reads sign_rx (fun i u c => sign_text u /\ c = [(n_sign, (i, i + zlen u))]).
  Proof.
    eapply reads_imp; [|exact (reads_grp s e He _ _ _ (reads_cls s e (among (lit "-+"))))]. cbn beta. intros i u c (c' & -> & -> & x & -> & Hx). split; [|reflexivity]. apply among_in in Hx. cbn in Hx. destruct Hx as [<-|[<-|[]]]; [left|right]; reflexivity.
  Qed.
  Lemma sign_opt_reads : reads (NOpt sign_rx) (fun i u c => (u = [] \/ sign_text u) /\ c = cap_opt i (i + zlen u) n_sign).
  Proof.
    eapply reads_imp; [|exact (reads_opt s e He _ _ sign_reads)]. cbn beta. intros i u c [[-> ->]|(N & St & ->)]; [split; [left; reflexivity|unfold cap_opt; change (zlen (@nil Z)) with 0; rewrite Z.add_0_r, Z.ltb_irrefl; reflexivity]|]. split; [right; exact St|]. unfold cap_opt. destruct u as [|x u]; [contradiction|]. rewrite zlen_cons. pose proof (zlen_nonneg u). destruct (Z.ltb_spec i (i + (1 + zlen u))); [reflexivity|lia].
  Qed.
  Lemma space_opt_reads : reads (NOpt (NStr (lit " "))) (fun _ u c => c = [] /\ space_opt u).
  Proof. eapply reads_imp; [|exact (reads_opt s e He _ _ (reads_str s e (lit " ")))]. cbn beta. intros i u c [[-> ->]|(N & -> & ->)]; (split; [reflexivity|]); [left|right]; reflexivity. Qed.
  Lemma empty_reads : reads (NStr []) (fun _ u c => c = [] /\ u = []).
  Proof. exact (reads_str s e []). Qed.
  (** text and captures of an exponent behind the mark m *)
  Definition exp_of (i : Z) (u : pystr) (c : list (pystr * span)) : Prop :=
    exists m g d, u = m ++ g ++ d /\ mark_text m /\ (g = [] \/ sign_text g) /\ digits C d /\
      c = cap_opt (i + zlen m) (i + zlen m + zlen g) n_sign.
  Lemma exp_e_reads : reads (exp_e_rx C) exp_of.
  Proof.
    unfold exp_e_rx, NSeqs. cbn [fold_right].
    eapply reads_imp; [|exact (reads_seq s e He _ _ _ _ (reads_cls s e _) (reads_seq s e He _ _ _ _ sign_opt_reads (reads_seq s e He _ _ _ _ digits_reads empty_reads)))].
    cbn beta. intros i u c (m & u1 & c1 & c2 & -> & -> & (-> & x & -> & Hx) & (g & u2 & c3 & c4 & -> & -> & (Hg & ->) & (d & u3 & c5 & c6 & -> & -> & (-> & Hd) & (-> & ->)))).
    exists [x], g, d. rewrite !app_nil_r. split; [reflexivity|]. split; [|split; [exact Hg|split; [exact Hd|reflexivity]]]. apply among_in in Hx. cbn in Hx. destruct Hx as [<-|[<-|[]]]; [left|right; left]; reflexivity.
  Qed.
  Lemma exp_x10_reads : reads (exp_x10_rx C) exp_of.
  Proof.
    unfold exp_x10_rx, NSeqs. cbn [fold_right].
    eapply reads_imp; [|exact (reads_seq s e He _ _ _ _ space_opt_reads (reads_seq s e He _ _ _ _ (reads_cls s e _) (reads_seq s e He _ _ _ _ space_opt_reads (reads_seq s e He _ _ _ _ (reads_str s e _) (reads_seq s e He _ _ _ _ space_opt_reads (reads_seq s e He _ _ _ _ sign_opt_reads (reads_seq s e He _ _ _ _ digits_reads empty_reads)))))))].
    cbn beta. intros i u c (p & u1 & c1 & c2 & -> & -> & (-> & Hp) & (x0 & u2 & c3 & c4 & -> & -> & (-> & x & -> & Hx) & (q & u3 & c5 & c6 & -> & -> & (-> & Hq) & (t & u4 & c7 & c8 & -> & -> & (-> & ->) & (r & u5 & c9 & c10 & -> & -> & (-> & Hr) & (g & u6 & c11 & c12 & -> & -> & (Hg & ->) & (d & u7 & c13 & c14 & -> & -> & (-> & Hd) & (-> & ->)))))))).
    exists (p ++ [x] ++ q ++ lit "10^" ++ r), g, d. rewrite !app_nil_r. split; [rewrite <- !app_assoc; reflexivity|]. split; [|split; [exact Hg|split; [exact Hd|]]].
    - right. right. exists p, [x], q, r. split; [reflexivity|]. split; [exact Hp|]. split; [exact Hq|]. split; [exact Hr|]. apply among_in in Hx. cbn in Hx. destruct Hx as [<-|[<-|[<-|[]]]]; [left|right; left|right; right]; reflexivity.
    - cbn [app]. rewrite !zlen_app, !zlen_cons, !zlen_app. change (zlen (@nil Z)) with 0. match goal with |- cap_opt ?a _ _ = cap_opt ?b _ _ => replace b with a by lia; reflexivity end.
  Qed.
  Lemma exponent_reads : reads (exponent_rx C) (fun i u c => exists c', c = c' ++ [(n_exponent, (i, i + zlen u))] /\ exp_of i u c').
  Proof.
    unfold exponent_rx. eapply reads_imp; [|exact (reads_grp s e He _ _ _ (reads_alt s e _ _ _ _ exp_e_reads exp_x10_reads))]. cbn beta. intros i u c (c' & -> & [H|H]); exists c'; auto.
  Qed.
  Lemma many_groups : forall n i u c, (1 <= n)%nat ->
    many (fun _ u c => c = [] /\ exists v, u = sep ++ v /\ digits C v /\ zlen v = 3) n i u c -> c = [] /\ groups C sep u.
  Proof.
    intros n i u c L M. induction M as [|n i u v c1 c2 N (-> & x & -> & Dx & Lx) M IH]; [lia|]. destruct n as [|n].
    - inversion M; subst. split; [reflexivity|]. rewrite app_nil_r. constructor; assumption.
    - destruct (IH ltac:(lia)) as [-> G]. split; [reflexivity|]. rewrite <- app_assoc. constructor; assumption.
  Qed.
  Lemma grouped_reads : reads (NSeq (NRep 1 (Some 3%nat) (NCls (cls_d C))) (NPlus (NSeq (NStr sep) (NRep 3 (Some 3%nat) (NCls (cls_d C))))))
    (fun _ u c => c = [] /\ exists v g, u = v ++ g /\ digits C v /\ zlen v <= 3 /\ groups C sep g).
  Proof.
    assert (G1 : reads (NSeq (NStr sep) (NRep 3 (Some 3%nat) (NCls (cls_d C)))) (fun _ u c => c = [] /\ exists v, u = sep ++ v /\ digits C v /\ zlen v = 3)).
    { eapply reads_imp; [|exact (reads_seq s e He _ _ _ _ (reads_str s e sep) (reads_cls_rep s e He (cls_d C) 3 (Some 3%nat)))]. cbn beta. intros i u c (u1 & u2 & c1 & c2 & -> & -> & (-> & ->) & (-> & L1 & L2 & F)). split; [reflexivity|]. exists u2. split; [reflexivity|]. split; [split; [destruct u2; [cbn in L1; lia|discriminate]|exact F]|]. unfold zlen. lia. }
    eapply reads_imp; [|exact (reads_seq s e He _ _ _ _ (reads_cls_rep s e He (cls_d C) 1 (Some 3%nat)) (reads_rep s e He 1 None _ _ G1))]. cbn beta.
    intros i u c (u1 & u2 & c1 & c2 & -> & -> & (-> & L1 & L2 & F) & (n & Ln & _ & M)). destruct (many_groups n _ _ _ Ln M) as [-> G]. split; [reflexivity|]. exists u1, u2. split; [reflexivity|]. split; [split; [destruct u1; [cbn in L1; lia|discriminate]|exact F]|]. split; [unfold zlen; lia|exact G].
  Qed.
  Lemma integer_reads : reads (integer_rx C sep optional) (fun i u c => integer_text C sep optional u /\ c = [(n_integer, (i, i + zlen u))]).
  Proof.
    unfold integer_rx. cbv zeta. destruct optional eqn:Eo.
    - eapply reads_imp; [|exact (reads_grp s e He _ _ _ (reads_alt s e _ _ _ _ grouped_reads digits_reads))]. cbn beta. intros i u c (c' & -> & [(-> & v & g & H)|(-> & H)]); (split; [|reflexivity]); [left; exists v, g; exact H|right; split; [reflexivity|exact H]].
    - eapply reads_imp; [|exact (reads_grp s e He _ _ _ grouped_reads)]. cbn beta. intros i u c (c' & -> & (-> & v & g & H)). split; [|reflexivity]. left. exists v, g. exact H.
  Qed.
  Lemma decimal_reads : reads (decimal_rx C point) (fun i u c => decimal_text C point u /\ c = [(n_decimal, (i, i + zlen u))]).
  Proof.
    unfold decimal_rx. eapply reads_imp; [|exact (reads_grp s e He _ _ _ (reads_seq s e He _ _ _ _ (reads_str s e point) digits_reads))]. cbn beta.
    intros i u c (c' & -> & (u1 & u2 & c1 & c2 & -> & -> & (-> & ->) & (-> & D))). split; [|reflexivity]. exists u2. auto.
  Qed.
  (** the captures of the numeral n at a *)
  Definition num_caps (a : Z) (n : numeral) : list (pystr * span) :=
    let i := a + zlen (nu_sign n) in let d := i + zlen (nu_int n) in let q := d + zlen (nu_dec n) in
    let x := q + zlen (nu_mark n) in let b := q + zlen (nu_exponent n) in
    cap_opt a i n_sign ++ cap_opt i d n_integer ++ cap_opt d q n_decimal ++ cap_opt x (x + zlen (nu_esign n)) n_sign ++ cap_opt q b n_exponent ++ [(n_number, (a, b))].
  Lemma nonempty_len {A} (u : list A) : u <> [] -> 0 < zlen u.
  Proof. destruct u; [congruence|]. rewrite zlen_cons. pose proof (zlen_nonneg u). lia. Qed.
  Lemma digits_len u : digits C u -> 0 < zlen u.
  Proof. intros [N _]. exact (nonempty_len u N). Qed.
  Lemma decimal_len u : decimal_text C point u -> 0 < zlen u.
  Proof. intros (v & -> & D). rewrite zlen_app. pose proof (digits_len v D). pose proof (zlen_nonneg point). lia. Qed.
  Lemma integer_len u : integer_text C sep optional u -> 0 < zlen u.
  Proof. intros [(v & g & -> & D & _)|[_ D]]; [rewrite zlen_app; pose proof (digits_len v D); pose proof (zlen_nonneg g); lia|exact (digits_len u D)]. Qed.
  Lemma exponent_opt_reads : reads (NOpt (exponent_rx C)) (fun i u c => exists m g d, u = m ++ g ++ d /\
    ((m = [] /\ g = [] /\ d = []) \/ (mark_text m /\ (g = [] \/ sign_text g) /\ digits C d)) /\
    c = cap_opt (i + zlen m) (i + zlen m + zlen g) n_sign ++ cap_opt i (i + zlen (m ++ g ++ d)) n_exponent).
  Proof.
    eapply reads_imp; [|exact (reads_opt s e He _ _ exponent_reads)]. cbn beta. intros i u c [[-> ->]|(N & c' & -> & (m & g & d & -> & Hm & Hg & Hd & ->))].
    - exists [], [], []. split; [reflexivity|]. split; [left; auto|]. unfold cap_opt. cbn [app]. change (zlen []) with 0. rewrite !Z.add_0_r, Z.ltb_irrefl. reflexivity.
    - exists m, g, d. split; [reflexivity|]. split; [right; auto|]. unfold cap_opt. pose proof (nonempty_len _ N). destruct (Z.ltb_spec i (i + zlen (m ++ g ++ d))); [reflexivity|lia].
  Qed.
  Theorem number_reads : reads (number_rx C point sep optional) (fun a u c => exists n, numeral_ok C point sep optional n /\ u = nu_text n /\ c = num_caps a n).
  Proof.
    unfold number_rx, NSeqs. cbn [fold_right].
    eapply reads_imp; [|exact (reads_grp s e He _ _ _ (reads_seq s e He _ _ _ _ sign_opt_reads (reads_seq s e He _ _ _ _ (reads_alt s e _ _ _ _ (reads_seq s e He _ _ _ _ integer_reads (reads_opt s e He _ _ decimal_reads)) decimal_reads) (reads_seq s e He _ _ _ _ exponent_opt_reads empty_reads))))].
    cbn beta. intros a u c (c' & -> & (g & u1 & c1 & c2 & -> & -> & (Hg & ->) & (v & u2 & c3 & c4 & -> & -> & Hv & (x & u3 & c5 & c6 & -> & -> & (m & gx & d & -> & Hx & ->) & (-> & ->))))).
    rewrite !app_nil_r in *.
    assert (V : exists it de, v = it ++ de /\ ((integer_text C sep optional it /\ (de = [] \/ decimal_text C point de)) \/ (it = [] /\ decimal_text C point de)) /\
      c3 = cap_opt (a + zlen g) (a + zlen g + zlen it) n_integer ++ cap_opt (a + zlen g + zlen it) (a + zlen g + zlen it + zlen de) n_decimal).
    { unfold cap_opt. destruct Hv as [(it & de & k1 & k2 & -> & -> & (Hi & ->) & [[-> ->]|(N & Hd & ->)])|(Hd & ->)].
      - exists it, []. split; [reflexivity|]. split; [left; auto|]. pose proof (integer_len it Hi). change (zlen []) with 0. rewrite Z.add_0_r, Z.ltb_irrefl. destruct (Z.ltb_spec (a + zlen g) (a + zlen g + zlen it)); [reflexivity|lia].
      - exists it, de. split; [reflexivity|]. split; [left; auto|]. pose proof (integer_len it Hi). pose proof (decimal_len de Hd). destruct (Z.ltb_spec (a + zlen g) (a + zlen g + zlen it)); [|lia]. destruct (Z.ltb_spec (a + zlen g + zlen it) (a + zlen g + zlen it + zlen de)); [reflexivity|lia].
      - exists [], v. split; [reflexivity|]. split; [right; auto|]. pose proof (decimal_len v Hd). change (zlen []) with 0. rewrite Z.add_0_r, Z.ltb_irrefl. destruct (Z.ltb_spec (a + zlen g) (a + zlen g + zlen v)); [reflexivity|lia]. }
    destruct V as (it & de & -> & Hv' & ->). clear Hv. exists (Num g it de m gx d). split; [|split].
    - split; [exact Hg|]. split; [exact Hv'|exact Hx].
    - unfold nu_text, nu_exponent. cbn [nu_sign nu_int nu_dec nu_mark nu_esign nu_exp]. rewrite <- !app_assoc. reflexivity.
    - unfold num_caps, nu_exponent. cbn [nu_sign nu_int nu_dec nu_mark nu_esign nu_exp]. rewrite !zlen_app, !Z.add_assoc, <- !app_assoc. reflexivity.
  Qed.
End Number.
