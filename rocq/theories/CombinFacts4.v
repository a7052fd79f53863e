(** Proofs about from_match: the containment forest of the captures. *)
From Verif Require Import CombinFacts3.

(** -- the sort -- *)
Lemma cap_le_order x y : cap_le x y = true <-> cap_order x y.
Proof.
  unfold cap_le, cap_order. rewrite orb_true_iff, andb_true_iff, Z.ltb_lt, Z.eqb_eq, Z.leb_le. reflexivity.
Qed.
Lemma cap_order_total x y : cap_order x y \/ cap_order y x.
Proof. unfold cap_order. lia. Qed.
Lemma cap_order_trans x y z : cap_order x y -> cap_order y z -> cap_order x z.
Proof. unfold cap_order. lia. Qed.
Lemma insert_cap_perm x l : Permutation (insert_cap x l) (x :: l).
Proof.
  induction l as [|y l IH]; cbn [insert_cap]; [apply Permutation_refl|]. destruct (cap_le (fst x) (fst y)); [apply Permutation_refl|].
  rewrite IH. apply perm_swap.
Qed.
Lemma insert_cap_sorted x l : StronglySorted cap2_order l -> StronglySorted cap2_order (insert_cap x l).
Proof.
  induction l as [|y l IH]; intros H; cbn [insert_cap]; [repeat constructor|]. inversion H as [|? ? H1 H2]; subst.
  destruct (cap_le (fst x) (fst y)) eqn:E.
  - apply cap_le_order in E. constructor; [exact H|]. constructor; [exact E|]. eapply Forall_impl; [|exact H2]. intros z. apply cap_order_trans. exact E.
  - constructor; [apply IH; exact H1|]. apply Forall_forall. intros z Hz. apply (Permutation_in _ (insert_cap_perm x l)) in Hz.
    destruct Hz as [<-|Hz]; [|rewrite Forall_forall in H2; apply H2; exact Hz].
    destruct (cap_order_total (fst x) (fst y)) as [O|O]; [apply cap_le_order in O; congruence|exact O].
Qed.
(** sorted() is a stable sort: captures of equal span keep their order *)
Lemma eqb_span_eq x y : eqb_span x y = true <-> x = y.
Proof.
  unfold eqb_span. rewrite andb_true_iff, !Z.eqb_eq. destruct x as [x1 x2], y as [y1 y2]; cbn [fst snd]. split; [intros [-> ->]; reflexivity|intros [= -> ->]; auto].
Qed.
Lemma insert_cap_stable s x l : StronglySorted cap2_order l ->
  filter (fun c => eqb_span (fst c) s) (insert_cap x l) = filter (fun c => eqb_span (fst c) s) (x :: l).
Proof.
  induction l as [|y l IH]; intros H; [reflexivity|]. inversion H as [|? ? H1 H2]; subst. cbn [insert_cap].
  destruct (cap_le (fst x) (fst y)) eqn:E; [reflexivity|]. cbn [filter]. rewrite (IH H1). cbn [filter].
  destruct (eqb_span (fst x) s) eqn:Ex, (eqb_span (fst y) s) eqn:Ey; try reflexivity.
  apply eqb_span_eq in Ex, Ey. assert (cap_le (fst x) (fst y) = true); [|congruence]. apply cap_le_order. rewrite Ex, Ey. right. lia.
Qed.
Lemma sort_caps_spec l : Permutation (sort_caps l) l /\ StronglySorted cap2_order (sort_caps l) /\
  forall s, filter (fun c => eqb_span (fst c) s) (sort_caps l) = filter (fun c => eqb_span (fst c) s) l.
Proof.
  induction l as [|x l (IP & IS & IF)]; cbn [sort_caps fold_right].
  - split; [apply Permutation_refl|]. split; [constructor|reflexivity].
  - fold (sort_caps l). split; [rewrite insert_cap_perm; constructor; exact IP|]. split; [apply insert_cap_sorted; exact IS|].
    intros s. rewrite insert_cap_stable by exact IS. cbn [filter]. rewrite IF. reflexivity.
Qed.

(** -- containment among sorted non-crossing spans -- *)
Section Spans.
  Variable caps : list span.
  Hypothesis Hsort : forall i j, (i < j < length caps)%nat -> cap_order (nth i caps (0, 0)) (nth j caps (0, 0)).
  Hypothesis Hcross : forall i j, (i < length caps)%nat -> (j < length caps)%nat -> ~ cap_cross (nth i caps (0, 0)) (nth j caps (0, 0)).
  Hypothesis Hval : forall i, (i < length caps)%nat -> fst (nth i caps (0, 0)) <= snd (nth i caps (0, 0)).
  Local Notation sp i := (nth i caps (0, 0)).
  (** k between i and j, not inside i, but j inside i: then j is inside k too *)
  Lemma between_container i k j : (i < k < j)%nat -> (j < length caps)%nat -> cap_inside (sp j) (sp i) -> ~ cap_inside (sp k) (sp i) -> cap_inside (sp j) (sp k).
  Proof.
    intros H Hj Hin Hn. assert (O1 := Hsort i k ltac:(lia)). assert (O2 := Hsort k j ltac:(lia)).
    assert (X := Hcross i k ltac:(lia) ltac:(lia)). assert (V := Hval j Hj). assert (V2 := Hval k ltac:(lia)).
    unfold cap_inside, cap_cross, cap_order in *. lia.
  Qed.
  Lemma nearest_exists j : (j < length caps)%nat -> (exists i, nearest_container caps i j) \/ no_container caps j.
  Proof.
    intros Hj.
    assert (A : forall n, (n <= j)%nat -> (exists i, (i < n)%nat /\ cap_inside (sp j) (sp i) /\ forall k, (i < k < n)%nat -> ~ cap_inside (sp j) (sp k)) \/ (forall k, (k < n)%nat -> ~ cap_inside (sp j) (sp k))).
    { induction n as [|n IH]; intros Hn; [right; lia|].
      assert (D : cap_inside (sp j) (sp n) \/ ~ cap_inside (sp j) (sp n)) by (unfold cap_inside; lia).
      destruct D as [D|D]; [left; exists n; split; [lia|split; [exact D|lia]]|].
      destruct IH as [(i & Hi & I & F)|F]; [lia|left|right].
      - exists i. split; [lia|]. split; [exact I|]. intros k Hk. destruct (Nat.eq_dec k n) as [->|]; [exact D|apply F; lia].
      - intros k Hk. destruct (Nat.eq_dec k n) as [->|]; [exact D|apply F; lia]. }
    destruct (A j (Nat.le_refl _)) as [(i & Hi & I & F)|F]; [left; exists i; split; auto|right; exact F].
  Qed.
  Lemma nearest_unique i i' j : nearest_container caps i j -> nearest_container caps i' j -> i = i'.
  Proof.
    clear Hsort Hcross Hval. intros (L1 & I1 & F1) (L2 & I2 & F2). destruct (Nat.lt_trichotomy i i') as [H|[H|H]]; [|exact H|].
    - exfalso. apply (F1 i'); auto.
    - exfalso. apply (F2 i); auto.
  Qed.
  (** a later sibling begins after the earlier one ends *)
  Lemma sibling_clear k j : (k < j < length caps)%nat -> ~ cap_inside (sp j) (sp k) -> fst (sp k) < fst (sp j) /\ snd (sp k) <= fst (sp j).
  Proof.
    intros H Hn. assert (O := Hsort k j H). assert (X := Hcross k j ltac:(lia) ltac:(lia)). assert (V := Hval j ltac:(lia)). assert (V2 := Hval k ltac:(lia)).
    unfold cap_inside, cap_cross, cap_order in *. lia.
  Qed.
  (** ancestor chains of containers *)
  Inductive canc (a : nat) : nat -> Prop :=
  | canc_one j : nearest_container caps a j -> canc a j
  | canc_up j p : nearest_container caps p j -> canc a p -> canc a j.
  Lemma canc_lt a j : canc a j -> (a < j)%nat.
  Proof. clear Hsort Hcross Hval. intros H. induction H as [j (H & _)|j p (H & _) _ IH]; lia. Qed.
  Lemma canc_trans a b c : canc a b -> canc b c -> canc a c.
  Proof. clear Hsort Hcross Hval. intros H1 H2. induction H2 as [j H|j p H _ IH]; [apply (canc_up a j b); assumption|apply (canc_up a j p); assumption]. Qed.
  Lemma interval1 i k : nearest_container caps i k -> (k < length caps)%nat -> forall j, (i < j < k)%nat -> canc i j.
  Proof.
    intros (L & I & F) Hk. intros j. induction j as [j IH] using lt_wf_ind. intros Hj.
    assert (D : cap_inside (sp j) (sp i) \/ ~ cap_inside (sp j) (sp i)) by (unfold cap_inside; lia).
    destruct D as [D|D]; [|exfalso; apply (F j Hj); apply (between_container i j k); auto].
    destruct (nearest_exists j) as [(m & Hm)|Hn]; [lia| |exfalso; apply (Hn i); [lia|exact D]].
    destruct Hm as (Lm & Im & Fm). destruct (Nat.lt_trichotomy m i) as [H|[H|H]].
    - exfalso. apply (Fm i); [lia|exact D].
    - subst m. apply canc_one. split; auto.
    - apply (canc_up i j m); [split; auto|]. apply IH; lia.
  Qed.
  Lemma interval i k : canc i k -> (k < length caps)%nat -> forall j, (i < j < k)%nat -> canc i j.
  Proof.
    intros H. induction H as [k H|k p H Hp IH]; intros Hk j Hj; [exact (interval1 i k H Hk j Hj)|].
    assert (p < k)%nat by apply H. destruct (Nat.lt_trichotomy j p) as [L|[->|L]].
    - apply IH; lia.
    - exact Hp.
    - apply (canc_trans i p j Hp). apply (interval1 p k H Hk). lia.
  Qed.
End Spans.

(** -- the loop -- *)
Lemma pop_until_spec h c : forall stack, exists pre, stack = pre ++ pop_until h c stack /\
  Forall (fun p => ~ (h_start h p <= h_start h c /\ h_stop h c <= h_stop h p)) pre /\
  match pop_until h c stack with [] => True | p :: _ => h_start h p <= h_start h c /\ h_stop h c <= h_stop h p end.
Proof.
  induction stack as [|p st (pre & E & F & R)]; cbn [pop_until]; [exists []; repeat split; constructor|].
  destruct ((h_start h c <? h_start h p) || (h_stop h p <? h_stop h c)) eqn:D.
  - exists (p :: pre). split; [cbn [app]; f_equal; exact E|]. split; [|exact R]. constructor; [|exact F].
    apply orb_prop in D. destruct D as [D|D]; apply Z.ltb_lt in D; lia.
  - exists []. split; [reflexivity|]. split; [constructor|]. apply orb_false_elim in D. destruct D as [D1 D2]. apply Z.ltb_ge in D1, D2. lia.
Qed.
Lemma StronglySorted_suffix {A} (R : A -> A -> Prop) l l' : StronglySorted R (l ++ l') -> StronglySorted R l'.
Proof. intros H. apply SS_app_inv in H. apply H. Qed.

(** the state of the loop after n captures *)
Definition parents_ok (h : heap) (base : nat) (caps : list span) (n : nat) : Prop :=
  forall j, (j < n)%nat -> match n_par (nd h (base + j)) with
                          | Some q => exists i, q = (base + i)%nat /\ nearest_container caps i j
                          | None => no_container caps j
                          end.
Record fm_state (h0 : heap) (s : pystr) (df : gkey -> option pystr) (all : list (span * gkey)) (n : nat) (h : heap) (st : list nat) (roots : list nat) : Prop := {
  fs_wf : hwf h;
  fs_len : length h = (length h0 + n)%nat;
  fs_ext : extends h0 h;
  fs_data : forall j, (j < n)%nat -> n_f (nd h (length h0 + j)) = FI s (fst (fst (nth j all ((0, 0), KInt 0)))) (snd (fst (nth j all ((0, 0), KInt 0)))) (df (snd (nth j all ((0, 0), KInt 0)))) None;
  fs_par : parents_ok h (length h0) (map fst all) n;
  fs_roots : roots = filter (is_root h) (seq (length h0) n);
  fs_stack : StronglySorted (fun a b => (b < a)%nat) st /\ Forall (fun a => (a < n)%nat) st;
  fs_popped : forall i, (i < n)%nat -> ~ In i st -> exists k, (i < k < n)%nat /\ ~ cap_inside (nth k (map fst all) (0, 0)) (nth i (map fst all) (0, 0))
}.

Section Loop.
  Variables (h0 : heap) (s : pystr) (df : gkey -> option pystr) (all : list (span * gkey)).
  Let caps := map fst all.
  Local Notation sp i := (nth i caps (0, 0)).
  Hypothesis H0 : hwf h0.
  Hypothesis Hsort : forall i j, (i < j < length caps)%nat -> cap_order (sp i) (sp j).
  Hypothesis Hcross : forall i j, (i < length caps)%nat -> (j < length caps)%nat -> ~ cap_cross (sp i) (sp j).
  Hypothesis Hval : forall i, (i < length caps)%nat -> 0 <= fst (sp i) <= snd (sp i) /\ snd (sp i) <= zlen s.

  Lemma caps_nth i : fst (nth i all ((0, 0), KInt 0)) = sp i.
  Proof. unfold caps. change (0, 0) with (fst ((0, 0), KInt 0)) at 2. rewrite map_nth. reflexivity. Qed.
  Lemma caps_len : length caps = length all.
  Proof. apply map_length. Qed.

  Lemma fm_loop_spec : forall rest n h st roots, all = firstn n all ++ rest -> length (firstn n all) = n ->
    fm_state h0 s df all n h st roots ->
    exists h' st' roots', fm_loop h s df (map (fun a => (length h0 + a)%nat) st) roots rest = (h', Ok roots') /\ fm_state h0 s df all (length all) h' st' roots'.
  Proof.
    induction rest as [|[spn gk] rest IH]; intros n h st roots Eall Ln FS; cbn [fm_loop].
    - exists h, st, roots. split; [reflexivity|]. rewrite app_nil_r in Eall. assert (n = length all) by (rewrite Eall; symmetry; exact Ln). subst n. exact FS.
    - destruct FS as [Fw Fl Fx Fd Fp Fr [Fs1 Fs2] Fpop].
      assert (Hn : (n < length all)%nat).
      { assert (length all = length (firstn n all ++ (spn, gk) :: rest)) as -> by (rewrite <- Eall; reflexivity). rewrite app_length. cbn [length]. lia. }
      assert (En : nth n all ((0, 0), KInt 0) = (spn, gk)).
      { rewrite Eall, app_nth2 by lia. rewrite Ln, Nat.sub_diag. reflexivity. }
      assert (Esp : sp n = spn) by (rewrite <- caps_nth, En; reflexivity).
      assert (Hv := Hval n ltac:(rewrite caps_len; exact Hn)). rewrite Esp in Hv.
      unfold new_str, new_node. rewrite ito_of_str_in by lia. set (f := FI s (fst spn) (snd spn) (df gk) None).
      unfold obind at 1. cbn [fst snd].
      set (base := length h0) in *. set (h1 := h ++ [Nd f None []]).
      assert (Wf : fwf f) by (unfold f; split; cbn; lia).
      assert (H1 : hwf h1) by (apply hwf_new; assumption).
      assert (N1 : forall j, nd h1 j = if (j =? length h)%nat then Nd f None [] else nd h j) by (intros j; apply nd_app).
      assert (L1 : length h1 = S (length h)) by (unfold h1; rewrite app_length; cbn; lia).
      assert (Ec : nd h1 (length h) = Nd f None []) by (rewrite N1, Nat.eqb_refl; reflexivity).
      assert (Nold : forall j, (j < n)%nat -> nd h1 (base + j) = nd h (base + j)).
      { intros j Hj. rewrite N1. destruct (Nat.eqb_spec (base + j) (length h)); [lia|reflexivity]. }
      assert (Sj : forall j, (j < n)%nat -> h_start h1 (base + j) = fst (sp j) /\ h_stop h1 (base + j) = snd (sp j) /\ h_string h1 (base + j) = s).
      { intros j Hj. unfold h_start, h_stop, h_string. rewrite Nold by exact Hj. rewrite Fd by exact Hj. cbn. rewrite caps_nth. auto. }
      assert (Sc : h_start h1 (length h) = fst (sp n) /\ h_stop h1 (length h) = snd (sp n) /\ h_string h1 (length h) = s).
      { unfold h_start, h_stop, h_string. rewrite Ec, Esp. cbn. auto. }
      assert (Cb : forall j, (j < n)%nat -> (h_start h1 (base + j) <= h_start h1 (length h) /\ h_stop h1 (length h) <= h_stop h1 (base + j)) <-> cap_inside (sp n) (sp j)).
      { intros j Hj. destruct (Sj j Hj) as (-> & -> & _). destruct Sc as (-> & -> & _). unfold cap_inside. reflexivity. }
      destruct (pop_until_spec h1 (length h) (map (fun a => (base + a)%nat) st)) as (pre & Epre & Fpre & Rpre).
      set (rem := pop_until h1 (length h) (map (fun a => (base + a)%nat) st)) in *.
      (* the same on indices *)
      assert (Hidx : exists ipre irem, st = ipre ++ irem /\ pre = map (fun a => (base + a)%nat) ipre /\ rem = map (fun a => (base + a)%nat) irem).
      { exists (firstn (length pre) st), (skipn (length pre) st). split; [symmetry; apply firstn_skipn|].
        rewrite <- firstn_map, <- skipn_map, Epre. split.
        - rewrite firstn_app, Nat.sub_diag, firstn_all. cbn. rewrite app_nil_r. reflexivity.
        - rewrite skipn_app, Nat.sub_diag, skipn_all. reflexivity. }
      destruct Hidx as (ipre & irem & Est & -> & Erem). rewrite Forall_map in Fpre.
      assert (Bst : forall a, In a st -> (a < n)%nat) by (rewrite Forall_forall in Fs2; exact Fs2).
      assert (Hpre : forall a, In a ipre -> ~ cap_inside (sp n) (sp a)).
      { intros a Hain Hi. rewrite Forall_forall in Fpre. apply (Fpre a Hain). apply Cb; [apply Bst; rewrite Est; apply in_or_app; left; exact Hain|exact Hi]. }
      assert (Hoff : forall a, (a < n)%nat -> ~ In a irem -> (exists k, (a < k < S n)%nat /\ ~ cap_inside (sp k) (sp a))).
      { intros a Hlt Hni. destruct (in_dec Nat.eq_dec a st) as [Hin|Hin].
        - exists n. split; [lia|]. apply Hpre. rewrite Est in Hin. apply in_app_or in Hin. tauto.
        - destruct (Fpop a Hlt Hin) as (k & Hk & D). exists k. split; [lia|exact D]. }
      (* the top of what remains is the nearest container *)
      assert (Hnear : match irem with [] => no_container caps n | p :: _ => nearest_container caps p n end).
      { assert (G : forall a, (a < n)%nat -> ~ In a irem -> cap_inside (sp n) (sp a) -> exists b, (a < b < n)%nat /\ cap_inside (sp n) (sp b)).
        { intros a Hlt Hni Hi. destruct (in_dec Nat.eq_dec a st) as [Hin|Hin].
          - exfalso. apply (Hpre a); [|exact Hi]. rewrite Est in Hin. apply in_app_or in Hin. tauto.
          - destruct (Fpop a Hlt Hin) as (k & Hk & D). exists k. split; [exact Hk|].
            apply (between_container caps Hsort Hcross (fun i Hi => proj2 (proj1 (Hval i Hi))) a k n); auto. rewrite caps_len. exact Hn. }
        destruct irem as [|p irem'].
        - intros a Hlt. remember (n - a)%nat as m eqn:Em. revert a Hlt Em. induction m as [m IHm] using lt_wf_ind. intros a Hlt Em Hi.
          destruct (G a Hlt (fun X => X) Hi) as (b & Hb & Hbi). apply (IHm (n - b)%nat ltac:(lia) b ltac:(lia) eq_refl Hbi).
        - assert (Hp : (p < n)%nat) by (apply Bst; rewrite Est; apply in_or_app; right; left; reflexivity).
          rewrite Erem in Rpre. cbn [map] in Rpre. split; [exact Hp|]. split; [apply (Cb p Hp); exact Rpre|].
          intros a Hlt. remember (n - a)%nat as m eqn:Em. revert a Hlt Em. induction m as [m IHm] using lt_wf_ind. intros a Hlt Em Hi.
          assert (Hni : ~ In a (p :: irem')).
          { intros [->|Hin]; [lia|]. rewrite Est in Fs1. apply StronglySorted_suffix in Fs1. inversion Fs1 as [|? ? _ Fq]; subst. rewrite Forall_forall in Fq. specialize (Fq a Hin). lia. }
          destruct (G a ltac:(lia) Hni Hi) as (b & Hb & Hbi). apply (IHm (n - b)%nat ltac:(lia) b ltac:(lia) eq_refl Hbi). }
      assert (Enext : all = firstn (S n) all ++ rest /\ length (firstn (S n) all) = S n).
      { assert (Ef : firstn (S n) all = firstn n all ++ [(spn, gk)]).
        { rewrite Eall at 1. rewrite firstn_app, firstn_firstn, Ln. replace (Nat.min (S n) n) with n by lia. replace (S n - n)%nat with 1%nat by lia. reflexivity. }
        rewrite Ef, <- app_assoc. cbn [app]. split; [exact Eall|]. rewrite app_length, Ln. cbn. lia. }
      destruct Enext as [Enext Lnext].
      rewrite Erem. destruct irem as [|p irem']; cbn [map].
      + (* a root *)
        replace ([length h]) with (map (fun a => (base + a)%nat) [n]) by (cbn [map]; rewrite Fl; reflexivity).
        apply (IH (S n)); [exact Enext|exact Lnext|]. constructor.
        * exact H1.
        * lia.
        * apply (extends_trans h0 h h1 Fx). apply extends_app.
        * fold base. intros j Hj. destruct (Nat.eq_dec j n) as [->|].
          -- rewrite <- Fl, Ec, En. reflexivity.
          -- rewrite Nold by lia. apply Fd. lia.
        * intros j Hj. fold base. destruct (Nat.eq_dec j n) as [->|].
          -- rewrite <- Fl, Ec. cbn [n_par]. exact Hnear.
          -- rewrite Nold by lia. apply Fp. lia.
        * fold base. assert (E1 : filter (is_root h1) (seq base n) = filter (is_root h) (seq base n)).
          { apply filter_ext_in. intros j Hj. apply in_seq in Hj. unfold is_root. rewrite N1. destruct (Nat.eqb_spec j (length h)); [lia|reflexivity]. }
          assert (E2 : is_root h1 (length h) = true) by (unfold is_root; rewrite Ec; reflexivity).
          rewrite seq_S, filter_app. cbn [filter map]. rewrite <- Fl, E1, E2, Fr. reflexivity.
        * split; [repeat constructor|repeat constructor; lia].
        * intros a Hlt Hni. assert (a <> n) by (intros ->; apply Hni; left; reflexivity). apply Hoff; [lia|intros []].
      + (* a child of p *)
        assert (Hp : (p < n)%nat) by (apply Bst; rewrite Est; apply in_or_app; right; left; reflexivity).
        assert (Hcl : (length h < length h1)%nat) by lia. assert (Hpl : (base + p < length h1)%nat) by lia.
        assert (Hkids : forall k, In k (n_kids (nd h1 (base + p))) -> exists a, k = (base + a)%nat /\ (p < a < n)%nat).
        { intros k Hk. destruct (hwf_kid h1 H1 _ k Hk) as (Pk & _ & _ & Lk).
          assert (k <> length h) by (intros ->; rewrite Ec in Pk; discriminate).
          destruct (Nat.lt_ge_cases k base) as [Lt|Ge].
          - exfalso. rewrite N1 in Pk. destruct (Nat.eqb_spec k (length h)); [congruence|]. rewrite (proj2 Fx) in Pk by exact Lt.
            apply (hwf_par h0 H0) in Pk. destruct Pk as [_ Pk]. fold base in Pk. lia.
          - exists (k - base)%nat. split; [lia|]. assert (Hk' : (k - base < n)%nat) by lia. specialize (Fp (k - base)%nat Hk').
            fold base in Fp. replace (base + (k - base))%nat with k in Fp by lia. rewrite N1 in Pk. destruct (Nat.eqb_spec k (length h)); [congruence|].
            rewrite Pk in Fp. destruct Fp as (i & Ei & (Hi & _)). lia. }
        assert (Hbef : Forall (fun k => h_before h1 k (length h)) (n_kids (nd h1 (base + p)))).
        { apply Forall_forall. intros k Hk. destruct (Hkids k Hk) as (a & -> & Hpa). unfold h_before.
          destruct (Sj a) as (-> & -> & _); [lia|]. destruct Sc as (-> & _).
          apply (sibling_clear caps Hsort Hcross (fun i Hi => proj2 (proj1 (Hval i Hi)))); [rewrite caps_len; lia|]. apply Hnear. exact Hpa. }
        assert (Hadd : addable h1 (base + p) (length h)).
        { split; [rewrite Ec; reflexivity|]. split; [|split; [lia|]].
          - destruct (Sj p Hp) as (E1 & E2 & E3). destruct Sc as (E4 & E5 & E6). unfold fits. rewrite E1, E2, E3, E4, E5, E6. split; [reflexivity|].
            destruct Hnear as (_ & [I1 I2] & _). split; assumption.
          - eapply Forall_impl; [|exact Hbef]. unfold h_before, clear_of. intros k. lia. }
        destruct (kids_add_one h1 (base + p) (length h) H1 Hpl Hcl) as [(_ & l & r & Ek & Fl1 & Fr1 & Eadd)|(C & _)]; [|contradiction].
        rewrite Eadd. unfold obind. cbn [fst snd].
        assert (r = []).
        { destruct r as [|z r]; [reflexivity|]. exfalso. inversion Fr1 as [|? ? Fz _]; subst. rewrite Forall_forall in Hbef.
          assert (Hz : In z (n_kids (nd h1 (base + p)))) by (rewrite Ek; apply in_or_app; right; left; reflexivity). specialize (Hbef z Hz). unfold h_before in *. lia. }
        subst r. set (h2 := set_kids (set_par h1 (length h) (Some (base + p)%nat)) (base + p) (l ++ [length h])) in *.
        assert (Hne : length h <> (base + p)%nat) by lia.
        destruct (hwf_insert h1 (base + p) (length h) l [] H1 Hpl Hcl (proj1 Hadd) (proj1 (proj2 Hadd)) Hne Ek Fl1 Fr1) as (H2 & L2 & D2).
        fold h2 in H2, L2, D2.
        destruct (add_effect h1 (base + p) (length h) (l ++ [length h]) Hpl Hcl) as (_ & Eff). fold h2 in Eff.
        replace (length h :: (base + p)%nat :: map (fun a => (base + a)%nat) irem') with (map (fun a => (base + a)%nat) (n :: p :: irem')) by (cbn [map]; rewrite Fl; reflexivity).
        assert (P2 : forall j, n_par (nd h2 j) = if (j =? length h)%nat then Some (base + p)%nat else n_par (nd h1 j)) by (intros j; apply Eff).
        apply (IH (S n)); [exact Enext|exact Lnext|]. constructor.
        * exact H2.
        * fold base. lia.
        * split; [fold base; lia|]. intros j Hj. fold base in Hj. rewrite <- (proj2 Fx j Hj).
          assert (E1 : nd h1 j = nd h j) by (rewrite N1; destruct (Nat.eqb_spec j (length h)); [lia|reflexivity]). rewrite <- E1.
          destruct (Eff j) as (Ef1 & Ef2 & Ef3). destruct (Nat.eqb_spec j (length h)); [lia|]. destruct (Nat.eqb_spec j (base + p)); [lia|].
          destruct (nd h2 j), (nd h1 j). cbn in *. congruence.
        * fold base. intros j Hj. rewrite D2. destruct (Nat.eq_dec j n) as [->|].
          -- rewrite <- Fl, Ec, En. reflexivity.
          -- rewrite Nold by lia. apply Fd. lia.
        * intros j Hj. fold base. rewrite P2. destruct (Nat.eqb_spec (base + j) (length h)) as [Ej|Ej].
          -- assert (j = n) by lia. subst j. exists p. split; [reflexivity|exact Hnear].
          -- rewrite Nold by lia. apply Fp. lia.
        * fold base. assert (E1 : filter (is_root h2) (seq base n) = filter (is_root h) (seq base n)).
          { apply filter_ext_in. intros j Hj. apply in_seq in Hj. unfold is_root. rewrite P2, N1. destruct (Nat.eqb_spec j (length h)); [lia|reflexivity]. }
          assert (E2 : is_root h2 (length h) = false) by (unfold is_root; rewrite P2, Nat.eqb_refl; reflexivity).
          rewrite seq_S, filter_app. cbn [filter]. rewrite <- Fl, E1, E2, app_nil_r, Fr. reflexivity.
        * rewrite Est in Fs1, Fs2. apply StronglySorted_suffix in Fs1. apply Forall_app in Fs2. destruct Fs2 as [_ Fs2]. split.
          -- constructor; [exact Fs1|]. exact Fs2.
          -- constructor; [lia|]. eapply Forall_impl; [|exact Fs2]. cbn beta. lia.
        * intros a Hlt Hni. assert (a <> n) by (intros ->; apply Hni; left; reflexivity). apply Hoff; [lia|]. intros Hin. apply Hni. right. exact Hin.
  Qed.
End Loop.

(** strictly ascending lists with the same elements are equal *)
Lemma asc_seq l : forall a n, StronglySorted lt l -> (forall x, In x l <-> (a <= x < a + n)%nat) -> l = seq a n.
Proof.
  induction l as [|x l IH]; intros a n HS HI.
  - destruct n as [|n]; [reflexivity|]. exfalso. apply (proj2 (HI a)). lia.
  - inversion HS as [|? ? HS1 HF]; subst. rewrite Forall_forall in HF.
    assert (Hx : (a <= x < a + n)%nat) by (apply HI; left; reflexivity). destruct n as [|n]; [lia|]. cbn [seq].
    assert (x = a).
    { assert (Ha : In a (x :: l)) by (apply HI; lia). destruct Ha as [E|Ha]; [exact E|]. specialize (HF a Ha). lia. }
    subst x. f_equal. apply IH; [exact HS1|]. intros y. split.
    + intros Hy. specialize (HF y Hy). assert (a <= y < a + S n)%nat by (apply HI; right; exact Hy). lia.
    + intros Hy. assert (Hy' : In y (a :: l)) by (apply HI; lia). destruct Hy' as [E|Hy']; [lia|exact Hy'].
Qed.
Lemma SS_lt_concat ls : Forall (StronglySorted lt) ls -> StronglySorted (fun l l' => forall x y, In x l -> In y l' -> (x < y)%nat) ls -> StronglySorted lt (concat ls).
Proof.
  induction ls as [|l ls IH]; intros H1 H2; cbn [concat]; [constructor|]. inversion H1 as [|? ? A B]; subst. inversion H2 as [|? ? C D]; subst.
  apply SS_app; [exact A|apply IH; assumption|]. intros x y Hx Hy. apply in_concat in Hy. destruct Hy as (l' & Hl' & Hy). rewrite Forall_forall in D. exact (D l' Hl' x y Hx Hy).
Qed.

Section Final.
  Variables (h0 h : heap) (s : pystr) (df : gkey -> option pystr) (all : list (span * gkey)) (st roots : list nat).
  Let caps := map fst all.
  Let base := length h0.
  Local Notation sp i := (nth i caps (0, 0)).
  Hypothesis H0 : hwf h0.
  Hypothesis A0 : acyclic h0.
  Hypothesis Hsort : forall i j, (i < j < length caps)%nat -> cap_order (sp i) (sp j).
  Hypothesis Hcross : forall i j, (i < length caps)%nat -> (j < length caps)%nat -> ~ cap_cross (sp i) (sp j).
  Hypothesis Hval : forall i, (i < length caps)%nat -> 0 <= fst (sp i) <= snd (sp i) /\ snd (sp i) <= zlen s.
  Hypothesis FS : fm_state h0 s df all (length all) h st roots.
  Let Hval' := fun i Hi => proj2 (proj1 (Hval i Hi)).

  Lemma par_new j p : n_par (nd h (base + j)) = Some p -> (j < length all)%nat -> exists i, p = (base + i)%nat /\ nearest_container caps i j.
  Proof. intros E Hj. pose proof (fs_par _ _ _ _ _ _ _ _ FS j Hj) as P. fold base in P. rewrite E in P. exact P. Qed.
  Lemma par_bound i p : n_par (nd h i) = Some p -> (i < length h)%nat /\ (p < length h)%nat.
  Proof.
    intros E. apply (hwf_par _ (fs_wf _ _ _ _ _ _ _ _ FS)) in E. destruct E as [E Hp]. apply (hwf_kid _ (fs_wf _ _ _ _ _ _ _ _ FS)) in E. tauto.
  Qed.
  Lemma hlen : length h = (base + length all)%nat.
  Proof. exact (fs_len _ _ _ _ _ _ _ _ FS). Qed.
  Lemma anc_canc a j : anc h a (base + j) -> (j < length all)%nat -> exists i, a = (base + i)%nat /\ canc caps i j.
  Proof.
    intros Hanc. remember (base + j)%nat as b eqn:Eb. revert j Eb. induction Hanc as [b E|b p E _ IH]; intros j Eb Hj; subst b.
    - destruct (par_new j a E Hj) as (i & -> & N). exists i. split; [reflexivity|apply canc_one; exact N].
    - destruct (par_new j p E Hj) as (i & -> & N). assert (i < j)%nat by apply N. destruct (IH i eq_refl) as (k & -> & C); [lia|].
      exists k. split; [reflexivity|]. apply (canc_up caps k j i); assumption.
  Qed.
  Lemma canc_anc i j : canc caps i j -> (j < length all)%nat -> anc h (base + i) (base + j).
  Proof.
    assert (PN : forall i j, nearest_container caps i j -> (j < length all)%nat -> n_par (nd h (base + j)) = Some (base + i)%nat).
    { intros a b N Hb. pose proof (fs_par _ _ _ _ _ _ _ _ FS b Hb) as P. fold base caps in P. destruct (n_par (nd h (base + b))) as [q|].
      - destruct P as (i' & -> & N'). rewrite (nearest_unique caps a i' b N N'). reflexivity.
      - exfalso. destruct N as (L & I & _). exact (P a L I). }
    intros C. induction C as [j N|j p N C IH]; intros Hj.
    - apply anc_parent. apply PN; assumption.
    - apply (anc_up h _ _ (base + p)); [apply PN; assumption|]. apply IH. assert (p < j)%nat by apply N. lia.
  Qed.
  Lemma anc_old a i : anc h a i -> (i < base)%nat -> anc h0 a i.
  Proof.
    intros Hanc. induction Hanc as [i E|i p E _ IH]; intros Hi; rewrite (proj2 (fs_ext _ _ _ _ _ _ _ _ FS)) in E by exact Hi.
    - apply anc_parent. exact E.
    - apply (anc_up h0 a i p E). apply IH. apply (hwf_par h0 H0) in E. apply E.
  Qed.
  Lemma anc_dom a i : anc h a i -> (i < length h)%nat.
  Proof. intros Hanc. destruct Hanc as [i E|i p E _]; apply par_bound in E; apply E. Qed.
  Lemma fm_acyclic : acyclic h.
  Proof.
    intros i Hi. pose proof (anc_dom i i Hi) as Hl. destruct (Nat.lt_ge_cases i base) as [L|G]; [apply (A0 i); apply anc_old; assumption|].
    rewrite hlen in Hl. assert (Hi' : anc h i (base + (i - base))) by (replace (base + (i - base))%nat with i by lia; exact Hi).
    destruct (anc_canc i (i - base) Hi') as (k & Ek & C); [lia|]. apply canc_lt in C. lia.
  Qed.
  Lemma canc_in i j : canc caps i j -> (j < length all)%nat -> (i < j < length caps)%nat.
  Proof. intros C Hj. apply canc_lt in C. unfold caps. rewrite map_length. lia. Qed.
  Lemma anc_lt a x : anc h a x -> (base <= x < length h)%nat -> (base <= a < x)%nat.
  Proof.
    intros Han Hx. rewrite hlen in Hx. assert (Han' : anc h a (base + (x - base))) by (replace (base + (x - base))%nat with x by lia; exact Han).
    destruct (anc_canc a (x - base) Han') as (k & -> & C); [lia|]. apply canc_lt in C. lia.
  Qed.
  Lemma anc_interval a b c : anc h a c -> (base <= c < length h)%nat -> (a < b < c)%nat -> anc h a b.
  Proof.
    intros Han Hc Hb. rewrite hlen in Hc. assert (Han' : anc h a (base + (c - base))) by (replace (base + (c - base))%nat with c by lia; exact Han).
    destruct (anc_canc a (c - base) Han') as (k & -> & C); [lia|].
    replace b with (base + (b - base))%nat by lia. apply canc_anc; [|lia].
    apply (interval caps Hsort Hcross Hval' k (c - base) C); [unfold caps; rewrite map_length; lia|lia].
  Qed.
  Lemma sib_lt u v p : (base <= u < length h)%nat -> (base <= v < length h)%nat -> h_before h u v -> n_par (nd h u) = Some p -> (u < v)%nat.
  Proof.
    intros Hu Hv B _. rewrite hlen in *. set (i := (u - base)%nat). set (j := (v - base)%nat).
    assert (Ex : u = (base + i)%nat) by (unfold i; lia). assert (Ey : v = (base + j)%nat) by (unfold j; lia). clearbody i j. subst u v.
    destruct (Nat.lt_ge_cases (base + i) (base + j)) as [|G]; [assumption|exfalso]. destruct (Nat.eq_dec i j) as [->|Hne]; [unfold h_before in B; lia|].
    assert (O := Hsort j i ltac:(unfold caps; rewrite map_length; lia)). unfold h_before, h_start in B.
    pose proof (fs_data _ _ _ _ _ _ _ _ FS i ltac:(lia)) as Di. pose proof (fs_data _ _ _ _ _ _ _ _ FS j ltac:(lia)) as Dj. fold base in Di, Dj. rewrite Di, Dj in B. cbn in B.
    rewrite !(caps_nth all) in B. fold caps in B. unfold cap_order in O. lia.
  Qed.
  Lemma doc_lt x y : (base <= x < length h)%nat -> (base <= y < length h)%nat -> doc_before h x y -> (x < y)%nat.
  Proof.
    intros Hx Hy D. destruct D as [Han|(p & l & u & m & v & r & Ek & Su & Sv)]; [apply anc_lt in Han; lia|].
    assert (Iu : In u (n_kids (nd h p))) by (rewrite Ek; apply in_or_app; right; left; reflexivity).
    assert (Iv : In v (n_kids (nd h p))) by (rewrite Ek; apply in_or_app; right; right; apply in_or_app; right; left; reflexivity).
    pose proof (fs_wf _ _ _ _ _ _ _ _ FS) as HW.
    destruct (hwf_kid h HW p u Iu) as (Pu & _). destruct (hwf_kid h HW p v Iv) as (Pv & _).
    assert (Bu : (base <= u <= x)%nat) by (destruct Su as [<-|Su]; [lia|apply anc_lt in Su; lia]).
    assert (Bv : (base <= v <= y)%nat) by (destruct Sv as [<-|Sv]; [lia|apply anc_lt in Sv; lia]).
    assert (Bf : h_before h u v).
    { pose proof (hwf_sorted h HW p) as S. unfold kids_sorted in S. rewrite Ek in S. apply SS_app_inv in S. destruct S as (_ & S & _). inversion S as [|? ? _ SF]; subst.
      rewrite Forall_forall in SF. apply SF. apply in_or_app. right. left. reflexivity. }
    assert (Luv : (u < v)%nat) by (apply (sib_lt u v p); auto; lia).
    assert (Nanc : ~ anc h u v).
    { intros Han. apply anc_up_inv in Han. destruct Han as (q & Eq & Hq). rewrite Pv in Eq. injection Eq as <-. destruct Hq as [->|Hq].
      - apply (fm_acyclic p). apply anc_parent. exact Pu.
      - apply (fm_acyclic p). apply (anc_trans h p u p); [apply anc_parent; exact Pu|exact Hq]. }
    destruct Su as [->|Su]; [lia|]. destruct (Nat.lt_ge_cases x v) as [|G]; [lia|exfalso]. apply Nanc.
    destruct (Nat.eq_dec x v) as [<-|Hne]; [exact Su|]. apply (anc_interval u v x Su); lia.
  Qed.
  Lemma below_dom r j : anc h r j -> (base <= r)%nat -> (base <= j < length h)%nat.
  Proof.
    intros Han Hr. pose proof (anc_dom r j Han). split; [|assumption]. destruct (Nat.lt_ge_cases j base) as [L|]; [exfalso|assumption].
    apply anc_old in Han; [|exact L]. apply (anc_bound h0 r j H0) in Han. fold base in Han. lia.
  Qed.
  Lemma preorder_in r : (base <= r < length h)%nat -> StronglySorted lt (preorder_of h r) /\ forall x, In x (preorder_of h r) <-> x = r \/ anc h r x.
  Proof.
    intros Hr. pose proof (fs_wf _ _ _ _ _ _ _ _ FS) as HW. unfold preorder_of.
    destruct (walk_total h r 0 HW fm_acyclic (proj2 Hr)) as (l & -> & _ & _ & W & S).
    assert (In_l : forall x, In x (map snd l) <-> anc h r x).
    { intros x. rewrite in_map_iff. split.
      - intros ((k & x') & <- & Hin). apply W in Hin. destruct Hin as (n & Bn & _). apply (below_anc h r x' n). exact Bn.
      - intros Han. apply anc_below in Han. destruct Han as (n & Bn). exists (0 + Z.of_nat n, x). split; [reflexivity|]. apply W. exists n. auto. }
    split; [|intros x; cbn [In]; rewrite In_l; intuition congruence]. constructor.
    - apply (SS_impl (doc_before h)); [|exact S]. intros a b Hia Hib. apply In_l in Hia, Hib. apply doc_lt; apply (below_dom r); lia || assumption.
    - apply Forall_forall. intros x Hin. apply In_l in Hin. assert (B := below_dom r x Hin (proj1 Hr)). apply anc_lt in Hin; lia.
  Qed.
  Lemma root_above j : (base <= j < length h)%nat -> exists r, In r roots /\ (r = j \/ anc h r j).
  Proof.
    induction j as [j IH] using lt_wf_ind. intros Hj. destruct (n_par (nd h j)) as [p|] eqn:E.
    - assert (Han : anc h p j) by (apply anc_parent; exact E). pose proof (anc_lt p j Han Hj) as Hp. destruct (IH p) as (r & Hr & D); [lia|lia|].
      exists r. split; [exact Hr|]. right. destruct D as [->|D]; [exact Han|apply (anc_trans h r p j D Han)].
    - exists j. split; [|left; reflexivity]. rewrite (fs_roots _ _ _ _ _ _ _ _ FS). apply filter_In. split; [apply in_seq; rewrite hlen in Hj; fold base; lia|].
      unfold is_root. rewrite E. reflexivity.
  Qed.
  Lemma fm_preorder : flat_map (preorder_of h) roots = seq base (length all).
  Proof.
    rewrite flat_map_concat_map. assert (RB : forall r, In r roots -> (base <= r < length h)%nat /\ n_par (nd h r) = None).
    { intros r Hr. rewrite (fs_roots _ _ _ _ _ _ _ _ FS) in Hr. apply filter_In in Hr. destruct Hr as [Hr E]. apply in_seq in Hr. rewrite hlen. fold base in Hr. split; [lia|].
      unfold is_root in E. destruct (n_par (nd h r)); [discriminate|reflexivity]. }
    assert (RS : StronglySorted lt roots).
    { rewrite (fs_roots _ _ _ _ _ _ _ _ FS). clear. generalize (length all). intros n. generalize (length h0). induction n as [|n IH]; intros a; cbn [seq filter]; [constructor|].
      destruct (is_root h a); [|apply IH]. constructor; [apply IH|]. apply Forall_forall. intros x Hx. apply filter_In in Hx. destruct Hx as [Hx _]. apply in_seq in Hx. lia. }
    apply asc_seq.
    - apply SS_lt_concat.
      + rewrite Forall_map. apply Forall_forall. intros r Hr. apply preorder_in. apply RB. exact Hr.
      + rewrite SS_map. apply (SS_impl lt); [|exact RS]. intros r r' Hr Hr' Hlt x y Hx Hy.
        destruct (RB r Hr) as [Br Pr]. destruct (RB r' Hr') as [Br' Pr'].
        apply preorder_in in Hx; [|exact Br]. apply preorder_in in Hy; [|exact Br'].
        assert (Hy' : (r' <= y)%nat) by (destruct Hy as [->|Hy]; [lia|]; assert (B := below_dom r' y Hy (proj1 Br')); apply anc_lt in Hy; lia).
        destruct Hx as [->|Hx]; [lia|]. destruct (Nat.lt_ge_cases x r') as [|G]; [lia|exfalso]. assert (Bx := below_dom r x Hx (proj1 Br)).
        assert (Han : anc h r r') by (destruct (Nat.eq_dec x r') as [<-|]; [exact Hx|apply (anc_interval r r' x Hx); lia]).
        apply anc_up_inv in Han. destruct Han as (q & Eq & _). congruence.
    - intros x. rewrite <- flat_map_concat_map, in_flat_map, <- hlen. split.
      + intros (r & Hr & Hx). destruct (RB r Hr) as [Br _]. apply preorder_in in Hx; [|exact Br]. destruct Hx as [->|Hx]; [exact Br|]. apply (below_dom r x Hx). lia.
      + intros Hx. destruct (root_above x Hx) as (r & Hr & D). exists r. split; [exact Hr|]. apply preorder_in; [apply RB; exact Hr|]. destruct D as [->|D]; auto.
  Qed.
End Final.

Lemma SS_nth {A} (R : A -> A -> Prop) (d : A) l : StronglySorted R l -> forall i j, (i < j < length l)%nat -> R (nth i l d) (nth j l d).
Proof.
  induction 1 as [|x l HS IH HF]; intros i j Hij; [cbn in Hij; lia|]. destruct j as [|j]; [lia|]. cbn [length] in Hij. destruct i as [|i]; cbn [nth].
  - rewrite Forall_forall in HF. apply HF. apply nth_In. lia.
  - apply IH. lia.
Qed.
Theorem from_match_spec h m df gks : hwf h -> acyclic h ->
  Forall (cap_valid (rm_string m)) (map fst (captures m gks)) ->
  (forall x y, In x (map fst (captures m gks)) -> In y (map fst (captures m gks)) -> ~ cap_cross x y) ->
  let all := sort_caps (captures m gks) in let base := length h in
  exists h' roots, from_match h m df gks = (h', Ok roots) /\ extends h h' /\ hwf h' /\ acyclic h' /\ length h' = (base + length all)%nat /\
    (forall j, (j < length all)%nat -> n_f (nd h' (base + j)) =
       FI (rm_string m) (fst (fst (nth j all ((0, 0), KInt 0)))) (snd (fst (nth j all ((0, 0), KInt 0)))) (df (snd (nth j all ((0, 0), KInt 0)))) None) /\
    (forall j, (j < length all)%nat ->
       (forall i, n_par (nd h' (base + j)) = Some (base + i)%nat <-> nearest_container (map fst all) i j) /\
       (n_par (nd h' (base + j)) = None <-> no_container (map fst all) j)) /\
    roots = filter (is_root h') (seq base (length all)) /\
    flat_map (preorder_of h') roots = seq base (length all).
Proof.
  intros H Ha HV HX. cbv zeta. set (all := sort_caps (captures m gks)). destruct (sort_caps_spec (captures m gks)) as (SP & SS & _). fold all in SP, SS.
  assert (PI : forall x, In x (map fst all) -> In x (map fst (captures m gks))) by (intros x; apply Permutation_in, Permutation_map; exact SP).
  assert (Hsort : forall i j, (i < j < length (map fst all))%nat -> cap_order (nth i (map fst all) (0, 0)) (nth j (map fst all) (0, 0))).
  { apply SS_nth. rewrite SS_map. exact SS. }
  assert (Hcross : forall i j, (i < length (map fst all))%nat -> (j < length (map fst all))%nat -> ~ cap_cross (nth i (map fst all) (0, 0)) (nth j (map fst all) (0, 0))).
  { intros i j Hi Hj. apply HX; apply PI; apply nth_In; assumption. }
  assert (Hval : forall i, (i < length (map fst all))%nat -> cap_valid (rm_string m) (nth i (map fst all) (0, 0))).
  { intros i Hi. rewrite Forall_forall in HV. apply HV. apply PI. apply nth_In. exact Hi. }
  destruct (fm_loop_spec h (rm_string m) df all H Hsort Hcross Hval all 0%nat h [] []) as (h' & st & roots & E & FS); [reflexivity|reflexivity| |].
  { constructor; [exact H|lia|apply extends_refl|lia|intros j Hj; lia|reflexivity|split; constructor|lia]. }
  exists h', roots. split; [exact E|]. split; [exact (fs_ext _ _ _ _ _ _ _ _ FS)|]. split; [exact (fs_wf _ _ _ _ _ _ _ _ FS)|].
  split; [eapply (fm_acyclic h h'); eassumption|]. split; [exact (fs_len _ _ _ _ _ _ _ _ FS)|].
  split; [exact (fs_data _ _ _ _ _ _ _ _ FS)|]. split; [|split; [exact (fs_roots _ _ _ _ _ _ _ _ FS)|exact (fm_preorder h h' _ df all st roots H Ha Hsort Hcross Hval FS)]].
  intros j Hj. pose proof (fs_par _ _ _ _ _ _ _ _ FS j Hj) as P. destruct (n_par (nd h' (length h + j))) as [q|].
  - destruct P as (i & -> & N). split.
    + intros i'. split; [intros [= E']; replace i' with i by lia; exact N|intros N']. rewrite (nearest_unique _ i i' j N N'). reflexivity.
    + split; [discriminate|]. intros NC. exfalso. destruct N as (L & I & _). exact (NC i L I).
  - split; [|tauto]. intros i'. split; [discriminate|]. intros (L & I & _). exfalso. exact (P i' L I).
Qed.

(** -- == as an equivalence -- *)
Lemma op_eq_equiv sub : (forall x, sub x x = true) -> (forall x y, sub x y = true -> sub y x = true -> x = y) ->
  forall P : cito -> Prop, (forall a b, P a -> P b -> c_id a = c_id b -> a = b) ->
  (forall a, P a -> op_eq sub a a = true) /\
  (forall a b, P a -> P b -> op_eq sub a b = true -> op_eq sub b a = true) /\
  (forall a b c, P a -> P b -> P c -> op_eq sub a b = true -> op_eq sub b c = true -> op_eq sub a c = true).
Proof.
  intros Hr Ha P HP. pose proof (op_eq_char sub Hr Ha) as C. split; [|split].
  - intros a Pa. apply C; auto.
  - intros a b Pa Pb E. apply C in E; [|apply HP; assumption]. apply C; [apply HP; assumption|]. destruct E; split; congruence.
  - intros a b c Pa Pb Pc E1 E2. apply C in E1; [|apply HP; assumption]. apply C in E2; [|apply HP; assumption]. apply C; [apply HP; assumption|].
    destruct E1, E2; split; congruence.
Qed.
Lemma op_eq_hash sub hash : (forall x, sub x x = true) -> (forall x y, sub x y = true -> sub y x = true -> x = y) ->
  forall a b, (c_id a = c_id b -> a = b) -> op_eq sub a b = true -> ito_hash hash a = ito_hash hash b.
Proof. intros Hr Ha a b Hid E. apply (op_eq_char sub Hr Ha a b Hid) in E. unfold ito_hash. destruct E as [_ ->]. reflexivity. Qed.
Lemma take_limit_none : forall A k (l : list A), k <= 0 -> take_limit k l = [].
Proof. intros A k l H. unfold take_limit. replace (Z.to_nat k) with 0%nat by lia. reflexivity. Qed.
Lemma strip_childless : forall h i, n_kids (nd h i) = [] -> strip_to_children h i = (h, Ok i).
Proof. intros h i E. unfold strip_to_children. rewrite E. reflexivity. Qed.
