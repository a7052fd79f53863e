(** Single filters: values, index ranges. *)
From Verif Require Export QueryFacts12.

(** -- safe texts -- *)
Fixpoint safe (cs : pystr) (esc : bool) (s : pystr) : Prop :=
  match s with
  | [] => esc = false
  | x :: r => if esc then safe cs false r else if x =? 92 then safe cs true r else ~ In x cs /\ safe cs false r
  end.
Lemma safe_app cs s t : forall esc, safe cs esc s -> safe cs false t -> safe cs esc (s ++ t).
Proof.
  induction s as [|x s IH]; intros esc H1 H2; [cbn in H1; subst esc; exact H2|]. cbn [safe app] in *. destruct esc; [auto|]. destruct (x =? 92); [auto|]. destruct H1. auto.
Qed.
Lemma safe_plain cs s : (forall c, In c s -> c <> 92 /\ ~ In c cs) -> safe cs false s.
Proof.
  induction s as [|x s IH]; intros H; [reflexivity|]. destruct (H x (or_introl eq_refl)) as [H1 H2]. cbn [safe]. replace (x =? 92) with false by (symmetry; apply Z.eqb_neq; exact H1).
  split; [exact H2|]. apply IH. intros c Hc. apply H. right. exact Hc.
Qed.
Lemma safe_sub cs cs' s : (forall c, In c cs' -> In c cs) -> forall esc, safe cs esc s -> safe cs' esc s.
Proof.
  intros H. induction s as [|x s IH]; intros esc HS; [exact HS|]. cbn [safe] in *. destruct esc; [auto|]. destruct (x =? 92); [auto|]. destruct HS. split; [intros C; auto|auto].
Qed.
Lemma safe_escape cs v : (forall c, In c cs -> In c must_escape) -> ~ In 92 cs -> safe cs false (escape v).
Proof.
  intros H N. rewrite escape_flat. induction v as [|x v IH]; [reflexivity|]. cbn [flat_map]. apply safe_app; [|exact IH]. unfold esc1. destruct (mem_char x must_escape) eqn:E.
  - reflexivity.
  - cbn [safe]. destruct (Z.eqb_spec x 92) as [->|]; [rewrite mem_92 in E; discriminate|]. split; [|reflexivity]. intros C. apply H in C. apply mem_char_in in C. congruence.
Qed.
Lemma safe_at cs s : forall esc d u x v, safe cs esc s -> s = u ++ x :: v -> In x cs -> ~ In 92 cs -> fst (after esc d u) = true.
Proof.
  induction s as [|y s IH]; intros esc d u x v HS E HI N; [destruct u; discriminate|]. destruct u as [|z u].
  - cbn in E. injection E as <- <-. cbn [after fst]. cbn [safe] in HS. destruct esc; [reflexivity|]. destruct (Z.eqb_spec y 92) as [->|]; [contradiction|]. destruct HS. contradiction.
  - cbn in E. injection E as <- E. cbn [after safe] in *. destruct esc; [apply (IH _ _ _ _ _ HS E HI N)|]. destruct (y =? 92); [apply (IH _ _ _ _ _ HS E HI N)|]. destruct HS as [_ HS]. apply (IH _ _ _ _ _ HS E HI N).
Qed.
Lemma safe_after cs s : In 123 cs -> In 125 cs -> forall esc d, safe cs esc s -> after esc d s = (false, d).
Proof.
  intros H1 H2. induction s as [|y s IH]; intros esc d HS; [cbn in HS; subst esc; reflexivity|]. cbn [after safe] in *. destruct esc; [auto|]. destruct (y =? 92); [auto|]. destruct HS as [N HS].
  destruct (Z.eqb_spec y 123) as [->|]; [contradiction|]. destruct (Z.eqb_spec y 125) as [->|]; [contradiction|]. rewrite Z.add_0_r. auto.
Qed.
Lemma safe_single s : safe (lit "/{}") false s -> single_phrase s /\ no_brace s /\ complete s.
Proof.
  intros H. assert (N : ~ In 92 (lit "/{}")) by (cbn; lia). split; [|split].
  - split; [rewrite (safe_after (lit "/{}") s) by (cbn; tauto || exact H); reflexivity|]. intros u v E C. pose proof (safe_at _ _ false 0 u 47 v H E ltac:(cbn; tauto) N) as A. rewrite C in A. discriminate.
  - intros u v E. exact (safe_at _ _ false 0 u 123 v H E ltac:(cbn; tauto) N).
  - unfold complete. apply (safe_after (lit "/{}")); [cbn; tauto|cbn; tauto|exact H].
Qed.
Lemma esc_state p : forall d, fst (after false d p) = Nat.odd (esc_run 92 p).
Proof.
  induction p as [|x p IH] using rev_ind; intros d; [reflexivity|]. rewrite after_app, QueryFacts6.esc_run_snoc. rewrite IH. cbn [after]. destruct (Nat.odd (esc_run 92 p)) eqn:E; destruct (x =? 92); cbn [fst]; rewrite ?UtilFacts.odd_S, ?E; reflexivity.
Qed.
(** a group around a safe text *)
Lemma quiet_level o c s : o <> 92 -> c <> 92 -> forall esc bs, safe [o; c] esc s -> (esc = true -> bs = true) -> forall p q, s = p ++ q -> level o c bs p = 0.
Proof.
  intros No Nc. induction s as [|x s IH]; intros esc bs HS B p q E; [destruct p; [reflexivity|discriminate]|]. destruct p as [|y p]; [reflexivity|]. cbn in E. injection E as <- E. cbn [level safe] in *.
  destruct esc.
  - rewrite B by reflexivity. apply (IH _ _ HS) with (q := q); [discriminate|exact E].
  - destruct (Z.eqb_spec x 92) as [->|N].
    + replace (92 =? o) with false by (symmetry; apply Z.eqb_neq; lia). replace (92 =? c) with false by (symmetry; apply Z.eqb_neq; lia). rewrite (IH _ true HS (fun _ => eq_refl) p q E). destruct bs; reflexivity.
    + destruct HS as [NI HS]. cbn in NI. replace (x =? o) with false by (symmetry; apply Z.eqb_neq; intros ->; tauto). replace (x =? c) with false by (symmetry; apply Z.eqb_neq; intros ->; tauto).
      rewrite (IH _ false HS ltac:(discriminate) p q E). destruct bs; reflexivity.
Qed.
Lemma group_safe o c b : o <> c -> o <> 92 -> c <> 92 -> safe [o; c] false b -> last b 0 <> 92 -> one_group o c (o :: b ++ [c]) /\ escapes_ok o c (o :: b ++ [c]).
Proof.
  intros Noc No Nc HS L. pose proof (quiet_level o c b No Nc false false HS ltac:(discriminate)) as Q. split.
  - split; [eauto|]. split.
    + cbn [level]. rewrite Z.eqb_refl. replace (o =? 92) with false by (symmetry; apply Z.eqb_neq; exact No). rewrite level_app, (Q b []) by (rewrite app_nil_r; reflexivity).
      replace (match b with [] => false | _ :: _ => last b 0 =? 92 end) with false by (destruct b; [reflexivity|symmetry; apply Z.eqb_neq; exact L]). cbn [level].
      replace (c =? o) with false by (symmetry; apply Z.eqb_neq; lia). rewrite Z.eqb_refl. lia.
    + intros p q E P1 P2. destruct p as [|y p]; [congruence|]. cbn in E. injection E as <- E. destruct (exists_last P2) as (q' & z & ->). rewrite app_assoc in E. apply app_inj_tail in E as [E _].
      cbn [level]. rewrite Z.eqb_refl. replace (o =? 92) with false by (symmetry; apply Z.eqb_neq; exact No). rewrite (Q p q' E). lia.
  - intros p x q E HX. destruct p as [|y p]; [left; reflexivity|]. cbn in E. injection E as <- E. destruct q as [|z q] using rev_ind; [|clear IHq].
    + apply app_inj_tail in E as [-> _]. left. change (o :: p) with ([o] ++ p). destruct p as [|z p] using rev_ind; [change (esc_run 92 ([] ++ [o]) = O); rewrite QueryFacts6.esc_run_snoc; replace (o =? 92) with false by (symmetry; apply Z.eqb_neq; lia); reflexivity|].
      rewrite app_assoc, QueryFacts6.esc_run_snoc. rewrite last_last in L. replace (z =? 92) with false by (symmetry; apply Z.eqb_neq; exact L). reflexivity.
    + rewrite app_comm_cons, app_assoc in E. apply app_inj_tail in E as [E _]. right. rewrite <- (esc_state (o :: p) 0). cbn [after]. replace (o =? 92) with false by (symmetry; apply Z.eqb_neq; exact No). rewrite after_base. cbn [fst].
      apply (safe_at [o; c] b false 0 p x q HS E); cbn; [intuition|lia].
Qed.

(** -- reading [name:value] -- *)
Lemma take_keys k r : forallb key_char k = true -> key_char (hd 0 r) = false -> take_while key_char (k ++ r) = k /\ drop_while key_char (k ++ r) = r.
Proof.
  intros H R. induction k as [|x k IH]; cbn [app take_while drop_while] in *.
  - destruct r as [|y r]; [auto|]. cbn [hd] in R. cbn. rewrite R. auto.
  - cbn [forallb] in H. apply andb_true_iff in H as [H1 H2]. rewrite H1. destruct (IH H2) as [-> ->]. auto.
Qed.
Lemma parse_written E k t : k <> [] -> forallb key_char k = true -> writable E t -> parse_filter E (91 :: (k ++ 58 :: t) ++ [93]) = Some (false, k, t).
Proof.
  intros K1 K2 ((x & t' & -> & X) & _). unfold parse_filter. cbn [Z.eqb Pos.eqb negb]. rewrite last_last, removelast_last. cbn [Z.eqb Pos.eqb negb].
  destruct k as [|y k]; [congruence|]. cbn [app]. assert (Y : key_char y = true) by (cbn in K2; apply andb_true_iff in K2; tauto).
  assert (Y' : (y =? c_not) = false) by (destruct (Z.eqb_spec y c_not) as [->|]; [discriminate Y|reflexivity]). rewrite Y'.
  destruct (take_keys (y :: k) (58 :: x :: t') K2 eq_refl) as [T1 T2]. cbn [app] in T1, T2. rewrite T1, T2. cbn [Z.eqb Pos.eqb negb drop_while]. rewrite X. reflexivity.
Qed.
Lemma key_names k name : key_name k name -> filter_key name = Some k /\ name <> [] /\ forallb key_char name = true.
Proof.
  unfold key_name. intros H. destruct k; cbn [names_of In] in H; repeat (destruct H as [<-|H]; [split; [reflexivity|split; [discriminate|reflexivity]]|]); destruct H.
Qed.
Lemma key_safe cs name : forallb key_char name = true -> (forall c, In c cs -> key_char c = false) -> safe cs false (name ++ [58]) \/ In 58 cs.
Proof.
  intros H N. destruct (in_dec Z.eq_dec 58 cs) as [|N58]; [right; assumption|left]. apply safe_plain. intros c Hc. apply in_app_or in Hc as [Hc|[<-|[]]]; [|split; [lia|exact N58]].
  rewrite forallb_forall in H. specialize (H c Hc). split; [intros ->; discriminate H|]. intros C. rewrite (N c C) in H. discriminate.
Qed.
Lemma value_safe vs : safe (lit "[]/{}") false (value_list vs).
Proof.
  unfold value_list. change (lit ",") with [44]. assert (S : forall v, safe (lit "[]/{}") false (escape v)) by (intros v; apply safe_escape; [intros c Hc; cbn in *; tauto|cbn; lia]).
  induction vs as [|v vs IH]; [reflexivity|]. cbn [map py_join]. destruct vs as [|v2 vs]; [cbn [map]; apply S|]. cbn [map] in *.
  apply safe_app; [apply S|]. apply safe_app; [apply safe_plain; intros c [<-|[]]; cbn; lia|exact IH].
Qed.
Lemma written_ok E name t : name <> [] -> forallb key_char name = true -> safe (lit "[]/{}") false t -> writable E t ->
  one_group 91 93 (written name t) /\ escapes_ok 91 93 (written name t) /\ parse_filter E (written name t) = Some (false, name, t) /\ safe (lit "/{}") false (written name t).
Proof.
  intros K1 K2 HS W. assert (B : safe (lit "[]/{}") false (name ++ 58 :: t)).
  { change (58 :: t) with ([58] ++ t). rewrite app_assoc. apply safe_app; [|exact HS]. destruct (key_safe (lit "[]/{}") name K2) as [|C]; [intros c Hc; cbn in Hc; repeat (destruct Hc as [<-|Hc]; [reflexivity|]); destruct Hc|assumption|cbn in C; lia]. }
  assert (L : last (name ++ 58 :: t) 0 <> 92). { destruct W as ((x & t' & Et & _) & L). rewrite last_app_ne by discriminate. change (58 :: t) with ([58] ++ t). rewrite last_app_ne by (rewrite Et; discriminate). exact L. }
  destruct (group_safe 91 93 (name ++ 58 :: t)) as [G1 G2]; [lia|lia|lia|apply (safe_sub (lit "[]/{}")); [cbn; tauto|exact B]|exact L|]. split; [exact G1|]. split; [exact G2|]. split; [exact (parse_written E name t K1 K2 W)|].
  change (safe (lit "/{}") false ([91] ++ (name ++ 58 :: t) ++ [93])). apply safe_app; [apply safe_plain; intros c [<-|[]]; cbn; lia|]. apply safe_app; [apply (safe_sub (lit "[]/{}")); [cbn; tauto|exact B]|apply safe_plain; intros c [<-|[]]; cbn; lia].
Qed.
Lemma axis_safe a w : axis_text a w -> safe (lit "/{}") false w.
Proof.
  destruct a as [k rv o]. intros (sg & S & ->). cbn [ax_rev ax_key ax_self] in *. apply safe_plain.
  destruct rv; [subst sg|destruct S as [-> | ->]]; destruct k, o; cbn; intros c Hc; lia.
Qed.
Lemma find_written E h r i a w name t f ys b : plain_delims E -> axis_text a w -> printable E w -> name <> [] -> forallb key_char name = true -> safe (lit "[]/{}") false t -> writable E t ->
  filter_func E false name t = Ok f -> axis_find h a ([i], None) = (ys, None) -> (forall ec, In ec ys -> f h r ec = Ok (b ec)) ->
  ito_find_all E h r i (w ++ written name t) = (map snd (filter b ys), None).
Proof.
  intros HE HA PR K1 K2 HS W F AX V. destruct (written_ok E name t K1 K2 HS W) as (G1 & G2 & G3 & G4).
  pose proof (find_filters E h r i a w (Some (EAtom (written name t))) [IF (written name t)] ys (fun ec _ => b ec)) as T. cbn [text_of atoms part part_truth truth] in T. rewrite app_nil_r in T.
  destruct (safe_single (w ++ written name t)) as (S1 & S2 & _); [apply safe_app; [exact (axis_safe a w HA)|exact G4]|]. destruct (safe_single _ G4) as (_ & S4 & S5).
  apply T; try assumption.
  - cbn. lia.
  - exists false. apply r_up, r_up, r_up. apply r_atom.
  - intros g [<-|[]]. split; [exact G1|]. split; [exact G2|]. exists f. unfold one_filter. rewrite G3. exact F.
  - unfold complete in S5. rewrite S5. reflexivity.
  - destruct PR as (c & C1 & C2). exists c. split; [apply in_or_app; left; exact C1|exact C2].
  - intros g ec [<-|[]] Hec. unfold filter_value, one_filter. rewrite G3, F. exact (V ec Hec).
Qed.
