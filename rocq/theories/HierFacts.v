(** Proofs: what add_hierarchical decides; the algorithm on trees. *)
From Verif Require Export SpecHier HeapFacts4.
From Coq Require Import Arith.

(** a store: starts and stops of sorted, disjoint spans *)
Definition seg_ok (ss es : list Z) : Prop :=
  length es = length ss /\ (forall i, (i < length ss)%nat -> key_at ss i <= key_at es i) /\
  (forall i j, (i < j < length ss)%nat -> key_at ss i < key_at ss j /\ key_at es i <= key_at ss j).
Lemma sorted_of_nth l : (forall i j, (i < j < length l)%nat -> key_at l i <= key_at l j) -> StronglySorted Z.le l.
Proof.
  induction l as [|x l IH]; intros H; constructor.
  - apply IH. intros i j Hij. apply (H (S i) (S j)). cbn. lia.
  - apply Forall_forall. intros y Hy. apply (In_nth _ _ 0) in Hy. destruct Hy as (k & Hk & <-). apply (H 0%nat (S k)). cbn. lia.
Qed.
Definition act_ok (ss es : list Z) (a b : Z) (deeper : nat -> bool) (r : action) : Prop :=
  match r with
  | ARec i => (i < length ss)%nat /\ key_at ss i <= a /\ b <= key_at es i /\
              (key_at ss i = a -> key_at es i = b -> deeper i = true)
  | AErr => exists i, (i < length ss)%nat /\
              ((key_at ss i < a /\ a < key_at es i /\ key_at es i < b) \/ (a < key_at ss i /\ key_at ss i < b /\ b < key_at es i))
  | AWrap i j => (i <= j <= length ss)%nat /\
      (forall k, (k < i)%nat -> key_at ss k < a /\ key_at es k <= a) /\
      (forall k, (i <= k < j)%nat -> a <= key_at ss k /\ key_at es k <= b) /\
      (forall k, (j <= k < length ss)%nat -> a < key_at ss k /\ b <= key_at ss k) /\
      (j = S i -> key_at ss i = a -> key_at es i = b -> deeper i = false)
  end.
Lemma hier_rest_ok ss es a b deeper i : seg_ok ss es -> a <= b -> (i <= length ss)%nat ->
  (forall k, (k < i)%nat -> key_at ss k < a /\ key_at es k <= a) ->
  (forall k, (i <= k < length ss)%nat -> a <= key_at ss k) ->
  ((i < length ss)%nat -> key_at ss i = a -> key_at es i <= b) ->
  act_ok ss es a b deeper (hier_rest ss es a b deeper i).
Proof.
  intros (Hl & Hse & Hss) Hab Hi Hlo Hhi Hfd. unfold hier_rest.
  assert (Hes : StronglySorted Z.le es).
  { apply sorted_of_nth. intros u v Huv. rewrite Hl in Huv. pose proof (Hss u v Huv). pose proof (Hse v). lia. }
  pose proof (bfind_stop_spec es b Hes) as Hb. cbv zeta in Hb. destruct (bfind_stop es b) as [fj j]. cbn [fst snd] in Hb. destruct Hb as (Hjl & Hj1 & Hj2 & ->).
  rewrite Hl in *. cbn [negb andb].
  assert (Hij : (i <= j)%nat).
  { destruct (Nat.le_gt_cases i j) as [|Hgt]; [assumption|]. pose proof (Hj2 j ltac:(lia)). pose proof (Hlo j Hgt). lia. }
  destruct (Nat.ltb_spec 0 j) as [Hj0|Hj0]; cbn [andb].
  { destruct ((key_at ss (j - 1) <? a) && (a <? key_at es (j - 1))) eqn:E.
    - exfalso. apply andb_true_iff in E. destruct E as [E1 E2]. destruct (Nat.lt_ge_cases (j - 1) i) as [Hc|Hc].
      + pose proof (Hlo _ Hc). lia.
      + pose proof (Hhi (j - 1)%nat ltac:(lia)). lia.
    - clear E. destruct ((j <? length ss)%nat && ((a <? key_at ss j) && (key_at ss j <? b))) eqn:E.
      + apply andb_true_iff in E. destruct E as [E1 E2]. apply Nat.ltb_lt in E1. pose proof (Hj2 j ltac:(lia)). exists j. split; [exact E1|]. right. lia.
      + assert (Hr : forall k, (j <= k < length ss)%nat -> a < key_at ss k /\ b <= key_at ss k).
        { intros k Hk. assert (Hjj : a < key_at ss j /\ b <= key_at ss j).
          { assert (Ej : (j <? length ss)%nat = true) by (apply Nat.ltb_lt; lia). rewrite Ej in E. cbn [andb] in E. pose proof (Hj2 j ltac:(lia)). pose proof (Hhi j ltac:(lia)).
            assert (a <> key_at ss j); [|lia]. intros Ea. destruct (Nat.eq_dec i j) as [->|Hne]; [specialize (Hfd ltac:(lia) (eq_sym Ea)); lia|].
            pose proof (Hss i j ltac:(lia)). pose proof (Hhi i ltac:(lia)). lia. }
          destruct (Nat.eq_dec j k) as [->|Hne]; [exact Hjj|]. pose proof (Hss j k ltac:(lia)). lia. }
        assert (Hm : forall k, (i <= k < j)%nat -> a <= key_at ss k /\ key_at es k <= b) by (intros k Hk; split; [apply Hhi|apply Hj1]; lia).
        destruct (Nat.eqb_spec i j) as [->|Hne]; [split; [lia|]; split; [exact Hlo|]; split; [exact Hm|]; split; [exact Hr|]; lia|].
        destruct (Nat.eqb_spec j (S i)) as [->|Hne2]; cbn [andb].
        * destruct ((a =? key_at ss i) && (b =? key_at es i)) eqn:E3; cbn [andb].
          -- destruct (deeper i) eqn:E4.
             ++ split; [lia|]. split; [lia|]. split; [lia|]. auto.
             ++ split; [lia|]. split; [exact Hlo|]. split; [exact Hm|]. split; [exact Hr|]. auto.
          -- split; [lia|]. split; [exact Hlo|]. split; [exact Hm|]. split; [exact Hr|]. intros _ Ea Eb. lia.
        * split; [lia|]. split; [exact Hlo|]. split; [exact Hm|]. split; [exact Hr|]. lia. }
  assert (j = 0)%nat by lia. subst j. assert (i = 0)%nat by lia. subst i. clear Hj0.
  destruct ((0 <? length ss)%nat && ((a <? key_at ss 0) && (key_at ss 0 <? b))) eqn:E.
  - apply andb_true_iff in E. destruct E as [E1 E2]. apply Nat.ltb_lt in E1. pose proof (Hj2 0%nat ltac:(lia)). exists 0%nat. split; [exact E1|]. right. lia.
  - cbn [Nat.eqb]. split; [lia|]. split; [intros; lia|]. split; [intros; lia|]. split; [|intros; lia].
    intros k Hk. assert (Hjj : a < key_at ss 0 /\ b <= key_at ss 0).
    { assert (Ej : (0 <? length ss)%nat = true) by (apply Nat.ltb_lt; lia). rewrite Ej in E. cbn [andb] in E. pose proof (Hj2 0%nat ltac:(lia)). pose proof (Hhi 0%nat ltac:(lia)).
      assert (a <> key_at ss 0); [|lia]. intros Ea. specialize (Hfd ltac:(lia) (eq_sym Ea)). lia. }
    destruct k as [|k]; [exact Hjj|]. pose proof (Hss 0%nat (S k) ltac:(lia)). lia.
Qed.
Lemma hier_action_ok ss es a b deeper : seg_ok ss es -> a <= b -> act_ok ss es a b deeper (hier_action ss es a b deeper).
Proof.
  intros Hok Hab. pose proof Hok as (Hl & Hse & Hss). unfold hier_action.
  assert (Hsts : StronglySorted Z.le ss) by (apply sorted_of_nth; intros u v Huv; pose proof (Hss u v Huv); lia).
  pose proof (bfind_start_spec ss a Hsts) as Hb. cbv zeta in Hb. destruct (bfind_start ss a) as [found i]. cbn [fst snd] in Hb. destruct Hb as (Hi & Hlo & Hhi & Hin & Hfd).
  destruct found.
  - destruct (Hfd eq_refl) as [Hil Hia]. destruct (Z.ltb_spec b (key_at es i)) as [Hb|Hb].
    + split; [exact Hil|]. split; [lia|]. split; [lia|]. intros _ E. lia.
    + apply hier_rest_ok; auto. intros k Hk. split; [apply Hlo; exact Hk|]. pose proof (Hss k i ltac:(lia)). lia.
  - assert (Hni : forall k, (k < length ss)%nat -> key_at ss k <> a).
    { intros k Hk E. assert (Hx : In a ss) by (rewrite <- E; apply nth_In; exact Hk). apply Hin in Hx. discriminate. }
    destruct (Nat.ltb_spec 0 i) as [H0|H0].
    + destruct (Z.leb_spec b (key_at es (i - 1))) as [Hb|Hb].
      * pose proof (Hlo (i - 1)%nat ltac:(lia)). split; [lia|]. split; [lia|]. split; [lia|]. intros E. lia.
      * destruct (Z.ltb_spec a (key_at es (i - 1))) as [Ha|Ha].
        -- exists (i - 1)%nat. pose proof (Hlo (i - 1)%nat ltac:(lia)). split; [lia|]. left. lia.
        -- apply hier_rest_ok; auto.
           ++ intros k Hk. split; [apply Hlo; exact Hk|]. destruct (Nat.eq_dec k (i - 1)) as [->|Hne]; [exact Ha|]. pose proof (Hss k (i - 1)%nat ltac:(lia)). pose proof (Hlo (i - 1)%nat ltac:(lia)). lia.
           ++ intros Hil E. exfalso. exact (Hni i Hil E).
    + assert (i = 0)%nat by lia. subst i. apply hier_rest_ok; auto; [intros; lia|]. intros Hil E. exfalso. exact (Hni 0%nat Hil E).
Qed.

Lemma twf_forest f ts : twf (T f ts) <-> fwf f /\ forest_wf f ts.
Proof. rewrite twf_unfold. unfold forest_wf, t_fits, inside, t_string, t_start, t_stop. cbn [t_f]. tauto. Qed.
Lemma key_tstart ks i : (i < length ks)%nat -> key_at (map t_start ks) i = t_start (nth i ks dtree).
Proof. intros H. unfold key_at. rewrite (nth_indep _ 0 (t_start dtree)) by (rewrite map_length; exact H). apply map_nth. Qed.
Lemma key_tstop ks i : (i < length ks)%nat -> key_at (map t_stop ks) i = t_stop (nth i ks dtree).
Proof. intros H. unfold key_at. rewrite (nth_indep _ 0 (t_stop dtree)) by (rewrite map_length; exact H). apply map_nth. Qed.
Lemma twf_span t : twf t -> 0 <= t_start t <= t_stop t /\ t_stop t <= zlen (t_string t).
Proof. destruct t as [f ts]. rewrite twf_unfold. intros ((H1 & H2) & _). unfold t_start, t_stop, t_string. cbn. lia. Qed.
Lemma SS_nth {A} (R : A -> A -> Prop) l d i j : StronglySorted R l -> (i < j < length l)%nat -> R (nth i l d) (nth j l d).
Proof.
  intros H. revert i j. induction H as [|x l Hs IH Hf]; intros i j Hij; cbn [length] in Hij; [lia|].
  destruct j as [|j]; [lia|]. destruct i as [|i]; cbn [nth]; [|apply IH; lia]. rewrite Forall_forall in Hf. apply Hf. apply nth_In. lia.
Qed.
Lemma forest_seg ks : StronglySorted t_before ks -> Forall twf ks -> seg_ok (map t_start ks) (map t_stop ks).
Proof.
  intros Hs Ht. unfold seg_ok. rewrite !map_length. split; [reflexivity|]. split.
  - intros i Hi. rewrite key_tstart, key_tstop by exact Hi. rewrite Forall_forall in Ht. pose proof (twf_span _ (Ht _ (nth_In ks dtree Hi))). lia.
  - intros i j Hij. rewrite !key_tstart, key_tstop by lia. apply (SS_nth _ ks dtree i j Hs Hij).
Qed.
Lemma f_fits_iff c p : f_fits_b c p = true <-> inside c p.
Proof.
  unfold f_fits_b, inside. rewrite andb_true_iff, negb_true_iff, orb_false_iff, !Z.ltb_ge.
  split; intros (H1 & H2); [apply eqb_str_eq in H1|]; [tauto|]. split; [apply eqb_str_eq; exact H1|tauto].
Qed.
Lemma skipn_skipn' {A} x y (l : list A) : skipn x (skipn y l) = skipn (x + y) l.
Proof. revert x l; induction y as [|y IH]; intros x l; [rewrite Nat.add_0_r; reflexivity|]. rewrite Nat.add_succ_r. destruct l as [|a l]; cbn [skipn]; [apply skipn_nil|apply IH]. Qed.
Lemma split3 {A} (l : list A) i j : (i <= j <= length l)%nat -> l = firstn i l ++ firstn (j - i) (skipn i l) ++ skipn j l.
Proof.
  intros H. rewrite <- (firstn_skipn i l) at 1. f_equal. rewrite <- (firstn_skipn (j - i) (skipn i l)) at 1. f_equal.
  rewrite skipn_skipn'. f_equal. lia.
Qed.
Lemma nth_split1 {A} (l : list A) i d : (i < length l)%nat -> l = firstn i l ++ nth i l d :: skipn (S i) l.
Proof. revert i; induction l as [|x l IH]; intros [|i] H; cbn in H; try lia; cbn [firstn nth skipn app]; [reflexivity|]. f_equal. apply IH. lia. Qed.
Lemma In_firstn_nth {A} (l : list A) i d x : (i <= length l)%nat -> In x (firstn i l) -> exists k, (k < i)%nat /\ nth k l d = x.
Proof.
  intros Hi H. apply (In_nth _ _ d) in H. destruct H as (k & Hk & <-). rewrite firstn_length_le in Hk by exact Hi. exists k. split; [exact Hk|].
  revert i Hi Hk. revert k. induction l as [|y l IH]; intros k i Hi Hk; [cbn in Hi; lia|]. destruct i as [|i]; [lia|]. destruct k as [|k]; [reflexivity|]. cbn [firstn nth]. apply IH; cbn in Hi; lia.
Qed.
Lemma In_skipn_nth {A} (l : list A) j d x : In x (skipn j l) -> exists k, (j <= k < length l)%nat /\ nth k l d = x.
Proof.
  revert j. induction l as [|y l IH]; intros j H; [destruct j; destruct H|]. destruct j as [|j].
  - apply (In_nth _ _ d) in H. destruct H as (k & Hk & <-). exists k. split; [cbn [skipn] in *; lia|reflexivity].
  - destruct (IH j H) as (k & Hk & <-). exists (S k). split; [cbn; lia|reflexivity].
Qed.
Lemma In_mid_nth {A} (l : list A) i j d x : (i <= j <= length l)%nat -> In x (firstn (j - i) (skipn i l)) -> exists k, (i <= k < j)%nat /\ nth k l d = x.
Proof.
  intros Hij H. destruct (In_firstn_nth (skipn i l) (j - i) d x) as (k & Hk & E); [rewrite skipn_length; lia|exact H|].
  exists (i + k)%nat. split; [lia|]. rewrite <- E. clear. revert l. induction i as [|i IH]; intros l; [reflexivity|]. destruct l as [|y l]; [destruct k; reflexivity|]. cbn. apply IH.
Qed.

(** the three things hplace can do *)
Inductive placed (key : hkey) (rec : fito -> list tree -> fito -> res (list tree)) (pf : fito) (ks : list tree) (f : fito) : res (list tree) -> Prop :=
| placed_in l k r : ks = l ++ k :: r -> t_start k <= f_start f -> f_stop f <= t_stop k ->
    (t_start k = f_start f -> t_stop k = f_stop f -> key_deeper key f (t_f k) = true) ->
    placed key rec pf ks f (do ks' <- rec (t_f k) (t_kids k) f; Ok (l ++ T (t_f k) ks' :: r))
| placed_err k : In k ks -> crosses (t_f k) f -> placed key rec pf ks f (Err ValueError)
| placed_here l m r : ks = l ++ m ++ r ->
    (forall x, In x l -> t_start x < f_start f /\ t_stop x <= f_start f) ->
    (forall x, In x m -> f_start f <= t_start x /\ t_stop x <= f_stop f) ->
    (forall x, In x r -> f_start f < t_start x /\ f_stop f <= t_start x) ->
    (forall x, m = [x] -> t_start x = f_start f -> t_stop x = f_stop f -> key_deeper key f (t_f x) = false) ->
    placed key rec pf ks f (if forallb (fun k => f_fits_b (t_f k) f) m && f_fits_b f pf then Ok (l ++ T f m :: r) else Err ValueError).
Lemma hplace_placed key rec pf ks f : StronglySorted t_before ks -> Forall twf ks -> f_start f <= f_stop f ->
  placed key rec pf ks f (hplace rec key pf ks f).
Proof.
  intros Hs Ht Hf. unfold hplace.
  pose proof (hier_action_ok _ _ (f_start f) (f_stop f) (fun i => key_deeper key f (t_f (nth i ks dtree))) (forest_seg ks Hs Ht) Hf) as Ha.
  destruct (hier_action _ _ _ _ _) as [i| |i j]; cbn [act_ok] in Ha; rewrite map_length in Ha.
  - destruct Ha as (Hi & H1 & H2 & H3). rewrite key_tstart, key_tstop in * by exact Hi.
    eapply placed_in; [apply nth_split1; exact Hi|exact H1|exact H2|]. exact H3.
  - destruct Ha as (i & Hi & Hc). rewrite !key_tstart, !key_tstop in Hc by exact Hi.
    apply (placed_err _ _ _ _ _ (nth i ks dtree)); [apply nth_In; exact Hi|]. unfold crosses. unfold t_start, t_stop in Hc. lia.
  - destruct Ha as (Hij & H1 & H2 & H3 & H4). apply (placed_here _ _ _ _ _ (firstn i ks) (firstn (j - i) (skipn i ks)) (skipn j ks)).
    + apply split3. exact Hij.
    + intros x Hx. destruct (In_firstn_nth ks i dtree x ltac:(lia) Hx) as (k & Hk & <-). rewrite <- key_tstart, <- key_tstop by lia. apply H1. exact Hk.
    + intros x Hx. destruct (In_mid_nth ks i j dtree x Hij Hx) as (k & Hk & <-). rewrite <- key_tstart, <- key_tstop by lia. apply H2. exact Hk.
    + intros x Hx. destruct (In_skipn_nth ks j dtree x Hx) as (k & Hk & <-). rewrite <- key_tstart by lia. apply H3. exact Hk.
    + intros x Ex E1 E2. assert (Ej : j = S i).
      { assert (L : length (firstn (j - i) (skipn i ks)) = 1%nat) by (rewrite Ex; reflexivity). rewrite firstn_length_le in L by (rewrite skipn_length; lia). lia. }
      subst j. assert (Exn : x = nth i ks dtree).
      { assert (Hx : In x (firstn (S i - i) (skipn i ks))) by (rewrite Ex; left; reflexivity). destruct (In_mid_nth ks i (S i) dtree x Hij Hx) as (k & Hk & <-). f_equal. lia. }
      subst x. apply H4; [reflexivity|rewrite key_tstart by lia|rewrite key_tstop by lia]; assumption.
Qed.
