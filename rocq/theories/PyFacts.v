(** Lemmas about the Python primitives of Py.v, including the declarative
    characterisations that make the model of str trustworthy. *)
From Verif Require Export Py.
Global Arguments Z.add : simpl never.
Global Arguments Z.sub : simpl never.
Global Arguments Z.mul : simpl never.
Global Arguments Z.of_nat : simpl never.
Global Arguments Z.to_nat : simpl never.

Ltac zl := unfold zlen in *; lia.

Lemma zlen_nil {A} : zlen (@nil A) = 0.
Proof. reflexivity. Qed.
Lemma zlen_cons {A} (x : A) l : zlen (x :: l) = 1 + zlen l.
Proof. unfold zlen; cbn [length]; lia. Qed.
Lemma zlen_app {A} (a b : list A) : zlen (a ++ b) = zlen a + zlen b.
Proof. unfold zlen; rewrite app_length; lia. Qed.
Lemma zlen_nonneg {A} (l : list A) : 0 <= zlen l.
Proof. unfold zlen; lia. Qed.
Lemma zlen_rev {A} (l : list A) : zlen (rev l) = zlen l.
Proof. unfold zlen; rewrite rev_length; lia. Qed.
Lemma zlen_map {A B} (f : A -> B) l : zlen (map f l) = zlen l.
Proof. unfold zlen; rewrite map_length; lia. Qed.
Lemma zlen_0 {A} (l : list A) : zlen l = 0 -> l = [].
Proof. destruct l; [reflexivity|]. unfold zlen; cbn; lia. Qed.

Lemma zsub_len {A} (l : list A) a b :
  0 <= a -> a <= b -> b <= zlen l -> zlen (zsub l a b) = b - a.
Proof.
  intros. unfold zsub, zlen in *. rewrite firstn_length, skipn_length. lia.
Qed.
Lemma zsub_nil {A} (l : list A) a b : b <= a -> zsub l a b = [].
Proof. intros. unfold zsub. replace (Z.to_nat (b - a)) with O by lia. reflexivity. Qed.
Lemma zsub_full {A} (l : list A) : zsub l 0 (zlen l) = l.
Proof.
  unfold zsub, zlen. cbn [skipn Z.to_nat].
  replace (Z.to_nat (Z.of_nat (length l) - 0)) with (length l) by lia.
  apply firstn_all.
Qed.
Lemma skipn_skipn' {A} (l : list A) n m : skipn n (skipn m l) = skipn (m + n) l.
Proof.
  revert l; induction m as [|m IH]; intros l; cbn; [reflexivity|].
  destruct l; [apply skipn_nil|apply IH].
Qed.
Lemma zsub_zsub {A} (l : list A) s e a b :
  0 <= s -> 0 <= a -> b <= e - s ->
  zsub (zsub l s e) a b = zsub l (s + a) (s + b).
Proof.
  intros. unfold zsub. rewrite skipn_firstn_comm, firstn_firstn, skipn_skipn'.
  f_equal; [lia|]. f_equal. lia.
Qed.
Lemma zsub_app_split {A} (l : list A) a b c :
  0 <= a -> a <= b -> b <= c -> zsub l a b ++ zsub l b c = zsub l a c.
Proof.
  intros. unfold zsub.
  replace (skipn (Z.to_nat b) l) with (skipn (Z.to_nat (b - a)) (skipn (Z.to_nat a) l)).
  2:{ rewrite skipn_skipn'. f_equal. lia. }
  generalize (skipn (Z.to_nat a) l) as l'. intros l'.
  replace (Z.to_nat (c - a)) with (Z.to_nat (b - a) + Z.to_nat (c - b))%nat by lia.
  generalize (Z.to_nat (b - a)) as n, (Z.to_nat (c - b)) as m. clear.
  intros n; revert l'; induction n as [|n IH]; intros l' m; cbn; [reflexivity|].
  destruct l'; cbn; [rewrite firstn_nil; reflexivity|]. f_equal. apply IH.
Qed.
Lemma zsub_cons {A} (x : A) l a b : 0 < a -> zsub (x :: l) a b = zsub l (a - 1) (b - 1).
Proof.
  intros. unfold zsub. replace (Z.to_nat a) with (S (Z.to_nat (a - 1))) by lia.
  cbn [skipn]. f_equal. lia.
Qed.
Lemma zsub_cons0 {A} (x : A) l b : 0 < b -> zsub (x :: l) 0 b = x :: zsub l 0 (b - 1).
Proof.
  intros. unfold zsub. cbn [skipn].
  replace (Z.to_nat (b - 0)) with (S (Z.to_nat (b - 1 - 0))) by lia. reflexivity.
Qed.
Lemma zsub_all {A} (l : list A) b : zlen l <= b -> zsub l 0 b = l.
Proof.
  intros. unfold zsub. cbn [skipn]. apply firstn_all2. unfold zlen in *; lia.
Qed.
Lemma zsub_step {A} (l : list A) a b x :
  zget l a = Some x -> a < b -> zsub l a b = x :: zsub l (a + 1) b.
Proof.
  unfold zget. destruct (Z.ltb_spec a 0); [discriminate|].
  intros Hn Hb. unfold zsub.
  replace (Z.to_nat (b - a)) with (S (Z.to_nat (b - (a + 1)))) by lia.
  replace (Z.to_nat (a + 1)) with (S (Z.to_nat a)) by lia.
  generalize (Z.to_nat (b - (a + 1))) as m.
  revert Hn. generalize (Z.to_nat a) as n. clear.
  intros n; revert l; induction n as [|n IH]; intros l Hn m; destruct l; try discriminate.
  - cbn in *. congruence.
  - cbn [skipn]. apply (IH _ Hn m).
Qed.
Lemma zget_some {A} (l : list A) i : 0 <= i < zlen l -> exists x, zget l i = Some x.
Proof.
  intros. unfold zget. destruct (Z.ltb_spec i 0); [lia|].
  destruct (nth_error l (Z.to_nat i)) eqn:E; [eauto|].
  apply nth_error_None in E. unfold zlen in *; lia.
Qed.
Lemma zget_bounds {A} (l : list A) i x : zget l i = Some x -> 0 <= i < zlen l.
Proof.
  unfold zget. destruct (Z.ltb_spec i 0); [discriminate|]. intros Hn.
  assert (Z.to_nat i < length l)%nat by (apply nth_error_Some; congruence).
  unfold zlen; lia.
Qed.
Lemma zget_none {A} (l : list A) i : zget l i = None <-> (i < 0 \/ zlen l <= i).
Proof.
  split.
  - intros Hn. destruct (Z_lt_dec i 0); [lia|]. destruct (Z_le_dec (zlen l) i); [lia|].
    destruct (zget_some l i) as [x Hx]; [lia|congruence].
  - intros. destruct (zget l i) eqn:E; [|reflexivity]. apply zget_bounds in E. lia.
Qed.
Lemma zsub_single {A} (l : list A) a x : zget l a = Some x -> zsub l a (a + 1) = [x].
Proof.
  intros H. rewrite (zsub_step _ _ _ _ H) by lia. rewrite zsub_nil by lia. reflexivity.
Qed.
Lemma zsub_snoc {A} (l : list A) a b x :
  0 <= a -> a <= b -> zget l b = Some x -> zsub l a (b + 1) = zsub l a b ++ [x].
Proof.
  intros. rewrite <- (zsub_app_split l a b (b + 1)) by lia. rewrite (zsub_single _ _ _ H1).
  reflexivity.
Qed.
Lemma zget_zsub {A} (l : list A) s e i :
  0 <= s -> 0 <= i < e - s -> zget (zsub l s e) i = zget l (s + i).
Proof.
  intros Hs Hi. unfold zget, zsub.
  destruct (Z.ltb_spec i 0); [lia|]. destruct (Z.ltb_spec (s + i) 0); [lia|].
  replace (Z.to_nat (s + i)) with (Z.to_nat s + Z.to_nat i)%nat by lia.
  assert (Hlt : (Z.to_nat i < Z.to_nat (e - s))%nat) by lia. revert Hlt.
  generalize (Z.to_nat i) as k, (Z.to_nat (e - s)) as m, (Z.to_nat s) as n. clear.
  intros k m n Hlt. rewrite <- (firstn_skipn n l) at 2.
  destruct (le_lt_dec (length l) n) as [Hle|Hgt].
  - rewrite (skipn_all2 l Hle), firstn_nil. cbn [app].
    rewrite app_nil_r. rewrite firstn_all2 by lia.
    rewrite (proj2 (nth_error_None l (n + k))) by lia. destruct k; reflexivity.
  - rewrite nth_error_app2; rewrite firstn_length_le by lia; [|lia].
    replace (n + k - n)%nat with k by lia.
    generalize (skipn n l) as l'. intros l'. clear Hgt. revert k m Hlt.
    induction l' as [|x l' IH]; intros k m Hlt; [rewrite firstn_nil; reflexivity|].
    destruct m; [lia|]. destruct k; cbn; [reflexivity|]. apply IH. lia.
Qed.
Lemma zget_cons_S {A} (x : A) l i : 0 < i -> zget (x :: l) i = zget l (i - 1).
Proof.
  intros. unfold zget. destruct (Z.ltb_spec i 0); [lia|]. destruct (Z.ltb_spec (i - 1) 0); [lia|].
  replace (Z.to_nat i) with (S (Z.to_nat (i - 1))) by lia. reflexivity.
Qed.
Lemma zget_app1 {A} (a b : list A) i : i < zlen a -> zget (a ++ b) i = zget a i.
Proof.
  intros. unfold zget. destruct (Z.ltb_spec i 0); [reflexivity|].
  apply nth_error_app1. unfold zlen in *; lia.
Qed.
Lemma zget_app2 {A} (a b : list A) i : zlen a <= i -> zget (a ++ b) i = zget b (i - zlen a).
Proof.
  intros. unfold zget. destruct (Z.ltb_spec i 0); [unfold zlen in *; lia|].
  destruct (Z.ltb_spec (i - zlen a) 0); [unfold zlen in *; lia|].
  rewrite nth_error_app2 by (unfold zlen in *; lia). f_equal. unfold zlen in *; lia.
Qed.
Lemma zsub_app_l {A} (a b : list A) i j : 0 <= i -> j <= zlen a -> zsub (a ++ b) i j = zsub a i j.
Proof.
  intros. destruct (Z_le_dec j i); [rewrite !zsub_nil by lia; reflexivity|].
  unfold zsub, zlen in *. rewrite skipn_app, firstn_app.
  rewrite skipn_length.
  replace (Z.to_nat (j - i) - (length a - Z.to_nat i))%nat with O by lia.
  cbn [firstn]. apply app_nil_r.
Qed.
Lemma zsub_app_r {A} (a b : list A) i j : zlen a <= i -> zsub (a ++ b) i j = zsub b (i - zlen a) (j - zlen a).
Proof.
  intros. unfold zsub, zlen in *. rewrite skipn_app.
  rewrite skipn_all2 by lia. cbn [app]. f_equal; [lia|]. f_equal. lia.
Qed.
(** two lists with the same length and the same items are equal *)
Lemma zget_ext {A} (a b : list A) :
  zlen a = zlen b -> (forall i, 0 <= i < zlen a -> zget a i = zget b i) -> a = b.
Proof.
  revert b; induction a as [|x a IH]; intros [|y b] Hl H; try (unfold zlen in Hl; cbn in Hl; lia); [reflexivity|].
  rewrite !zlen_cons in *. pose proof (zlen_nonneg a).
  f_equal.
  - assert (Hxy : zget (x :: a) 0 = zget (y :: b) 0) by (apply H; lia). unfold zget in Hxy; cbv in Hxy; congruence.
  - apply IH; [lia|]. intros i Hi. specialize (H (i + 1)).
    rewrite !zget_cons_S in H by lia. replace (i + 1 - 1) with i in H by lia. apply H. lia.
Qed.

(** -- slices -- *)
Lemma slice_adjust_range n d i : 0 <= n -> 0 <= d <= n -> 0 <= slice_adjust n d i <= n.
Proof.
  intros. unfold slice_adjust. destruct i as [v|]; [|lia].
  destruct (Z.ltb_spec v 0); [destruct (Z.ltb_spec (v + n) 0)|destruct (Z.leb_spec n v)]; lia.
Qed.

(** -- equality, prefixes -- *)
Lemma eqb_str_eq a b : eqb_str a b = true <-> a = b.
Proof.
  revert b; induction a as [|x a IH]; intros [|y b]; cbn; try (split; congruence).
  rewrite andb_true_iff, IH, Z.eqb_eq. split; [intros [-> ->]; reflexivity|intros H; inversion H; auto].
Qed.
Lemma eqb_str_refl a : eqb_str a a = true.
Proof. apply eqb_str_eq; reflexivity. Qed.
Lemma eqb_str_neq a b : eqb_str a b = false <-> a <> b.
Proof.
  rewrite <- eqb_str_eq. destruct (eqb_str a b); split; congruence.
Qed.
Lemma prefixb_spec p l : prefixb p l = true <-> exists r, l = p ++ r.
Proof.
  revert l; induction p as [|x p IH]; intros l; cbn.
  - split; eauto.
  - destruct l as [|y l]; [split; [discriminate|intros [r Hr]; discriminate]|].
    rewrite andb_true_iff, IH, Z.eqb_eq. split.
    + intros [-> [r ->]]. eauto.
    + intros [r Hr]. inversion Hr; subst. eauto.
Qed.
Lemma prefixb_zsub p l : prefixb p l = true <-> zlen p <= zlen l /\ zsub l 0 (zlen p) = p.
Proof.
  rewrite prefixb_spec. split.
  - intros [r ->]. rewrite zlen_app. pose proof (zlen_nonneg r). split; [lia|].
    rewrite zsub_app_l by lia. apply zsub_full.
  - intros [Hl Hs]. exists (zsub l (zlen p) (zlen l)).
    rewrite <- Hs at 1. rewrite zsub_app_split; try lia; [|apply zlen_nonneg].
    symmetry; apply zsub_full.
Qed.

(** sub occurs in l at offset i *)
Definition occ (sub l : pystr) (i : Z) : Prop :=
  0 <= i /\ i + zlen sub <= zlen l /\ zsub l i (i + zlen sub) = sub.

Lemma occ_cons sub x l i : occ sub (x :: l) (1 + i) <-> (0 <= 1 + i /\ (i = -1 -> prefixb sub (x :: l) = true) /\ (0 <= i -> occ sub l i)).
Proof.
  unfold occ. rewrite zlen_cons. split.
  - intros (H1 & H2 & H3). split; [lia|]. split.
    + intros ->. apply prefixb_zsub. rewrite zlen_cons. split; [lia|].
      replace (1 + -1) with 0 in H3 by lia. exact H3.
    + intros Hi. repeat split; try lia. rewrite zsub_cons in H3 by lia.
      rewrite <- H3 at 2. f_equal; lia.
  - intros (H1 & H2 & H3). destruct (Z.eq_dec i (-1)) as [->|Hn].
    + specialize (H2 eq_refl). apply prefixb_zsub in H2. rewrite zlen_cons in H2.
      destruct H2 as [H2 H4]. repeat split; try lia. replace (1 + -1) with 0 by lia. exact H4.
    + destruct H3 as (H3 & H4 & H5); [lia|]. repeat split; try lia.
      rewrite zsub_cons by lia. rewrite <- H5 at 2. f_equal; lia.
Qed.
Lemma occ_0 sub l : occ sub l 0 <-> prefixb sub l = true.
Proof.
  rewrite prefixb_zsub. unfold occ. replace (0 + zlen sub) with (zlen sub) by lia.
  split; [intros (?&?&?)|intros (?&?)]; repeat split; auto; lia.
Qed.

Lemma find_in_Some sub l i :
  find_in sub l = Some i -> occ sub l i /\ forall j, occ sub l j -> i <= j.
Proof.
  revert i; induction l as [|x l IH]; intros i; cbn [find_in].
  - destruct (prefixb sub []) eqn:E; [|discriminate]. intros [= <-].
    split; [apply occ_0; exact E|]. intros j (Hj & _); lia.
  - destruct (prefixb sub (x :: l)) eqn:E.
    + intros [= <-]. split; [apply occ_0; exact E|]. intros j (Hj & _); lia.
    + destruct (find_in sub l) as [k|] eqn:F; [|discriminate]. intros [= <-].
      destruct (IH _ eq_refl) as [H1 H2]. pose proof H1 as (Hk & _ & _).
      split.
      * apply occ_cons. split; [lia|]. split; [lia|auto].
      * intros j Hj. replace j with (1 + (j - 1)) in Hj by lia. apply occ_cons in Hj.
        destruct Hj as (Ha & Hb & Hc).
        destruct (Z.eq_dec (j - 1) (-1)) as [He|He]; [rewrite (Hb He) in E; discriminate|].
        specialize (H2 _ (Hc ltac:(lia))). lia.
Qed.
Lemma find_in_None sub l : find_in sub l = None <-> forall j, ~ occ sub l j.
Proof.
  split.
  - induction l as [|x l IH]; cbn [find_in].
    + destruct (prefixb sub []) eqn:E; [discriminate|]. intros _ j Hj.
      assert (j = 0) by (destruct Hj as (?&?&?); rewrite zlen_nil in *; pose proof (zlen_nonneg sub); lia).
      subst. apply occ_0 in Hj. congruence.
    + destruct (prefixb sub (x :: l)) eqn:E; [discriminate|].
      destruct (find_in sub l) eqn:F; [discriminate|]. intros _ j Hj.
      replace j with (1 + (j - 1)) in Hj by lia. apply occ_cons in Hj.
      destruct Hj as (Ha & Hb & Hc). destruct (Z.eq_dec (j - 1) (-1)) as [He|He].
      * rewrite (Hb He) in E; discriminate.
      * apply (IH eq_refl (j - 1)). apply Hc. lia.
  - intros H. destruct (find_in sub l) as [k|] eqn:F; [|reflexivity].
    apply find_in_Some in F. destruct (H k). apply F.
Qed.
Lemma rfind_in_None sub l : rfind_in sub l = None <-> forall j, ~ occ sub l j.
Proof.
  split.
  - induction l as [|x l IH]; cbn [rfind_in].
    + destruct (prefixb sub []) eqn:E; [discriminate|]. intros _ j Hj.
      assert (j = 0) by (destruct Hj as (?&?&?); rewrite zlen_nil in *; pose proof (zlen_nonneg sub); lia).
      subst. apply occ_0 in Hj. congruence.
    + destruct (rfind_in sub l) eqn:F; [discriminate|].
      destruct (prefixb sub (x :: l)) eqn:E; [discriminate|]. intros _ j Hj.
      replace j with (1 + (j - 1)) in Hj by lia. apply occ_cons in Hj.
      destruct Hj as (Ha & Hb & Hc). destruct (Z.eq_dec (j - 1) (-1)) as [He|He].
      * rewrite (Hb He) in E; discriminate.
      * apply (IH eq_refl (j - 1)). apply Hc. lia.
  - induction l as [|x l IH]; cbn [rfind_in]; intros H.
    + destruct (prefixb sub []) eqn:E; [|reflexivity]. destruct (H 0). apply occ_0; exact E.
    + rewrite IH.
      * destruct (prefixb sub (x :: l)) eqn:E; [|reflexivity]. destruct (H 0). apply occ_0; exact E.
      * intros j Hj. apply (H (1 + j)). apply occ_cons. pose proof Hj as (?&_). repeat split; try lia; auto; apply Hj.
Qed.
Lemma rfind_in_Some sub l i :
  rfind_in sub l = Some i -> occ sub l i /\ forall j, occ sub l j -> j <= i.
Proof.
  revert i; induction l as [|x l IH]; intros i; cbn [rfind_in].
  - destruct (prefixb sub []) eqn:E; [|discriminate]. intros [= <-].
    split; [apply occ_0; exact E|]. intros j (Hj & Hk & _). rewrite zlen_nil in Hk. pose proof (zlen_nonneg sub); lia.
  - destruct (rfind_in sub l) as [k|] eqn:F.
    + intros [= <-]. destruct (IH _ eq_refl) as [H1 H2]. pose proof H1 as (Hk & _ & _).
      split.
      * apply occ_cons. split; [lia|]. split; [lia|auto].
      * intros j Hj. replace j with (1 + (j - 1)) in Hj by lia. apply occ_cons in Hj.
        destruct Hj as (Ha & Hb & Hc).
        destruct (Z.eq_dec (j - 1) (-1)) as [He|He]; [lia|].
        specialize (H2 _ (Hc ltac:(lia))). lia.
    + destruct (prefixb sub (x :: l)) eqn:E; [|discriminate]. intros [= <-].
      split; [apply occ_0; exact E|]. intros j Hj.
      replace j with (1 + (j - 1)) in Hj by lia. apply occ_cons in Hj.
      destruct Hj as (Ha & Hb & Hc). destruct (Z_le_dec j 0); [lia|].
      exfalso. apply (proj1 (rfind_in_None sub l) F (j - 1)). apply Hc. lia.
Qed.

Lemma find_in_range sub l i : find_in sub l = Some i -> 0 <= i /\ i + zlen sub <= zlen l.
Proof. intros H. apply find_in_Some in H. destruct H as ((?&?&?)&_). lia. Qed.
Lemma rfind_in_range sub l i : rfind_in sub l = Some i -> 0 <= i /\ i + zlen sub <= zlen l.
Proof. intros H. apply rfind_in_Some in H. destruct H as ((?&?&?)&_). lia. Qed.
Lemma find_in_short sub l : zlen l < zlen sub -> find_in sub l = None.
Proof. intros. apply find_in_None. intros j (?&?&?). lia. Qed.
Lemma rfind_in_short sub l : zlen l < zlen sub -> rfind_in sub l = None.
Proof. intros. apply rfind_in_None. intros j (?&?&?). lia. Qed.
Lemma find_in_nil l : find_in [] l = Some 0.
Proof. destruct l; reflexivity. Qed.
Lemma rfind_in_nil l : rfind_in [] l = Some (zlen l).
Proof.
  induction l as [|x l IH]; [reflexivity|]. cbn [rfind_in]. rewrite IH, zlen_cons. reflexivity.
Qed.

(** count_in with any sufficient fuel *)
Lemma count_in_fuel sub : sub <> [] -> forall n m l,
  (length l <= n)%nat -> (length l <= m)%nat -> count_in n sub l = count_in m sub l.
Proof.
  intros Hs. induction n as [|n IH]; intros m l Hn Hm.
  - destruct l; cbn in Hn; [|lia]. destruct m; reflexivity.
  - destruct m; [destruct l; cbn in *; [reflexivity|lia]|].
    cbn [count_in]. destruct l as [|x l]; [reflexivity|]. cbn [length] in *.
    destruct (prefixb sub (x :: l)) eqn:E.
    + f_equal. apply IH; rewrite skipn_length; cbn [length]; destruct sub; try congruence; cbn [length]; lia.
    + apply IH; lia.
Qed.
Lemma count_in_short sub : forall n l, sub <> [] -> zlen l < zlen sub -> count_in n sub l = 0.
Proof.
  induction n as [|n IH]; intros l Hs Hl; [reflexivity|]. cbn [count_in].
  destruct l as [|x l]; [reflexivity|].
  destruct (prefixb sub (x :: l)) eqn:E.
  - apply prefixb_zsub in E. lia.
  - apply IH; auto. rewrite zlen_cons in Hl. lia.
Qed.
(** the characterisation of count: leftmost occurrence, then the rest *)
Lemma count_in_find sub : sub <> [] -> forall n l, (length l <= n)%nat ->
  count_in n sub l =
  match find_in sub l with
  | None => 0
  | Some i => let r := zsub l (i + zlen sub) (zlen l) in 1 + count_in (length r) sub r
  end.
Proof.
  intros Hs. induction n as [|n IH]; intros l Hn.
  - destruct l; cbn in Hn; [|lia]. cbn. destruct sub; [congruence|reflexivity].
  - cbn [count_in]. destruct l as [|x l]; [destruct sub; [congruence|reflexivity]|].
    cbn [find_in length] in *. destruct (prefixb sub (x :: l)) eqn:E.
    + f_equal.
      assert (Hr : skipn (length sub) (x :: l) = zsub (x :: l) (0 + zlen sub) (zlen (x :: l))).
      { unfold zsub, zlen. cbn [length]. rewrite firstn_all2; [f_equal; lia|].
        rewrite skipn_length. cbn [length]. lia. }
      rewrite Hr. apply count_in_fuel; auto. rewrite <- Hr, skipn_length. cbn [length].
      destruct sub; [congruence|]. cbn [length]. lia.
    + rewrite (IH l) by lia. destruct (find_in sub l) as [k|] eqn:F; [|reflexivity].
      apply find_in_range in F. pose proof (zlen_nonneg sub).
      cbv zeta. rewrite (zlen_cons x l). rewrite zsub_cons by lia.
      replace (1 + k + zlen sub - 1) with (k + zlen sub) by lia.
      replace (1 + zlen l - 1) with (zlen l) by lia. reflexivity.
Qed.

(** -- the window [i,j) of a search -- *)
Lemma adj_end_range n e : 0 <= n -> 0 <= adj_end n e <= n.
Proof.
  intros. unfold adj_end. destruct e as [v|]; [|lia].
  destruct (Z.ltb_spec n v); [lia|]. destruct (Z.ltb_spec v 0); [destruct (Z.ltb_spec (v + n) 0)|]; lia.
Qed.
Lemma adj_start_range n e : 0 <= n -> 0 <= adj_start n e.
Proof.
  intros. unfold adj_start. destruct e as [v|]; [|lia].
  destruct (Z.ltb_spec v 0); [destruct (Z.ltb_spec (v + n) 0)|]; lia.
Qed.
Lemma adj_start_in n a : 0 <= a -> adj_start n (Some a) = a.
Proof. intros. unfold adj_start. destruct (Z.ltb_spec a 0); lia. Qed.
Lemma adj_end_in n a : 0 <= a <= n -> adj_end n (Some a) = a.
Proof.
  intros. unfold adj_end. destruct (Z.ltb_spec n a); [lia|]. destruct (Z.ltb_spec a 0); lia.
Qed.

(** occurrences in a window are occurrences at the shifted place *)
Lemma occ_window s sub a b i :
  0 <= a -> a <= b -> b <= zlen s ->
  occ sub (zsub s a b) i <-> (0 <= i /\ a + i + zlen sub <= b /\ occ sub s (a + i)).
Proof.
  intros. unfold occ. rewrite zsub_len by lia. split.
  - intros (H2 & H3 & H4). rewrite zsub_zsub in H4 by lia.
    repeat split; try lia. rewrite <- H4 at 2. f_equal; lia.
  - intros (H2 & H3 & H4 & H5 & H6). repeat split; try lia.
    rewrite zsub_zsub by lia. rewrite <- H6 at 2. f_equal; lia.
Qed.

(** str.find, declaratively: the least offset in the window at which sub
    occurs, -1 when there is none. *)
Lemma py_find_char s sub a b :
  let i := adj_start (zlen s) a in let j := adj_end (zlen s) b in
  (py_find s sub a b = -1 /\ forall k, i <= k -> k + zlen sub <= j -> ~ occ sub s k) \/
  (i <= py_find s sub a b /\ py_find s sub a b + zlen sub <= j /\ occ sub s (py_find s sub a b)
   /\ forall k, i <= k -> k + zlen sub <= j -> occ sub s k -> py_find s sub a b <= k).
Proof.
  cbv zeta. unfold py_find.
  pose proof (adj_start_range (zlen s) a (zlen_nonneg s)).
  pose proof (adj_end_range (zlen s) b (zlen_nonneg s)).
  set (i := adj_start _ _) in *. set (j := adj_end _ _) in *.
  pose proof (zlen_nonneg sub).
  destruct (Z.ltb_spec (j - i) (zlen sub)).
  - left. split; [reflexivity|]. intros; lia.
  - destruct (find_in sub (zsub s i j)) as [k|] eqn:F.
    + right. apply find_in_Some in F. destruct F as [F1 F2].
      apply occ_window in F1; try lia. destruct F1 as (F1 & F3 & F4).
      repeat split; try lia; try apply F4. intros k' Hk1 Hk2 Hk3.
      specialize (F2 (k' - i)). rewrite occ_window in F2 by lia.
      replace (i + (k' - i)) with k' in F2 by lia.
      assert (k <= k' - i) by (apply F2; repeat split; try lia; apply Hk3). lia.
    + left. split; [reflexivity|]. intros k Hk1 Hk2 Hk3.
      apply (proj1 (find_in_None _ _) F (k - i)). apply occ_window; try lia.
      replace (i + (k - i)) with k by lia. repeat split; try lia; apply Hk3.
Qed.
Lemma py_rfind_char s sub a b :
  let i := adj_start (zlen s) a in let j := adj_end (zlen s) b in
  (py_rfind s sub a b = -1 /\ forall k, i <= k -> k + zlen sub <= j -> ~ occ sub s k) \/
  (i <= py_rfind s sub a b /\ py_rfind s sub a b + zlen sub <= j /\ occ sub s (py_rfind s sub a b)
   /\ forall k, i <= k -> k + zlen sub <= j -> occ sub s k -> k <= py_rfind s sub a b).
Proof.
  cbv zeta. unfold py_rfind.
  pose proof (adj_start_range (zlen s) a (zlen_nonneg s)).
  pose proof (adj_end_range (zlen s) b (zlen_nonneg s)).
  set (i := adj_start _ _) in *. set (j := adj_end _ _) in *.
  pose proof (zlen_nonneg sub).
  destruct (Z.ltb_spec (j - i) (zlen sub)).
  - left. split; [reflexivity|]. intros; lia.
  - destruct (rfind_in sub (zsub s i j)) as [k|] eqn:F.
    + right. apply rfind_in_Some in F. destruct F as [F1 F2].
      apply occ_window in F1; try lia. destruct F1 as (F1 & F3 & F4).
      repeat split; try lia; try apply F4. intros k' Hk1 Hk2 Hk3.
      specialize (F2 (k' - i)). rewrite occ_window in F2 by lia.
      replace (i + (k' - i)) with k' in F2 by lia.
      assert (k' - i <= k) by (apply F2; repeat split; try lia; apply Hk3). lia.
    + left. split; [reflexivity|]. intros k Hk1 Hk2 Hk3.
      apply (proj1 (rfind_in_None _ _) F (k - i)). apply occ_window; try lia.
      replace (i + (k - i)) with k by lia. repeat split; try lia; apply Hk3.
Qed.

(** searching with in-range absolute indices = searching the window *)
Lemma py_find_abs s sub a b : 0 <= a -> a <= b -> b <= zlen s ->
  py_find s sub (Some a) (Some b) =
  match find_in sub (zsub s a b) with Some k => a + k | None => -1 end.
Proof.
  intros. unfold py_find. rewrite adj_start_in, adj_end_in by lia.
  destruct (Z.ltb_spec (b - a) (zlen sub)); [|reflexivity].
  rewrite find_in_short; [reflexivity|]. rewrite zsub_len by lia. lia.
Qed.
Lemma py_rfind_abs s sub a b : 0 <= a -> a <= b -> b <= zlen s ->
  py_rfind s sub (Some a) (Some b) =
  match rfind_in sub (zsub s a b) with Some k => a + k | None => -1 end.
Proof.
  intros. unfold py_rfind. rewrite adj_start_in, adj_end_in by lia.
  destruct (Z.ltb_spec (b - a) (zlen sub)); [|reflexivity].
  rewrite rfind_in_short; [reflexivity|]. rewrite zsub_len by lia. lia.
Qed.

(** -- drop_while / take_while -- *)
Lemma drop_while_split p s : s = take_while p s ++ drop_while p s.
Proof. induction s as [|c s IH]; cbn; [reflexivity|]. destruct (p c); cbn; [f_equal; exact IH|reflexivity]. Qed.
Lemma take_while_all p s : forallb p (take_while p s) = true.
Proof. induction s as [|c s IH]; cbn; [reflexivity|]. destruct (p c) eqn:E; cbn; [rewrite E; exact IH|reflexivity]. Qed.
Lemma drop_while_hd p s c r : drop_while p s = c :: r -> p c = false.
Proof.
  induction s as [|d s IH]; cbn; [discriminate|]. destruct (p d) eqn:E; [exact IH|].
  intros H; inversion H; subst; exact E.
Qed.
Lemma drop_while_app_all p a b : forallb p a = true -> drop_while p (a ++ b) = drop_while p b.
Proof.
  induction a as [|c a IH]; cbn; [reflexivity|]. destruct (p c); cbn; [exact IH|discriminate].
Qed.
Lemma drop_while_none p s c r : s = c :: r -> p c = false -> drop_while p s = s.
Proof. intros -> H. cbn. rewrite H. reflexivity. Qed.

Lemma forallb_rev {A} (p : A -> bool) l : forallb p (rev l) = forallb p l.
Proof.
  induction l as [|x l IH]; [reflexivity|]. cbn. rewrite forallb_app, IH. cbn.
  destruct (p x), (forallb p l); reflexivity.
Qed.

(** -- zrange -- *)
Lemma zrange_nil a b : b <= a -> zrange a b = [].
Proof. intros. unfold zrange. replace (Z.to_nat (b - a)) with O by lia. reflexivity. Qed.
Lemma zrange_cons a b : a < b -> zrange a b = a :: zrange (a + 1) b.
Proof.
  intros. unfold zrange. replace (Z.to_nat (b - a)) with (S (Z.to_nat (b - (a + 1)))) by lia. reflexivity.
Qed.
Lemma in_zrange a b i : In i (zrange a b) <-> a <= i < b.
Proof.
  unfold zrange. remember (Z.to_nat (b - a)) as n eqn:Hn.
  revert a Hn; induction n as [|n IH]; intros a Hn; cbn [zrange_nat In].
  - split; [tauto|lia].
  - rewrite IH by lia. lia.
Qed.
Lemma zrange_ind (P : Z -> Z -> Prop) :
  (forall a b, b <= a -> P a b) ->
  (forall a b, a < b -> P (a + 1) b -> P a b) -> forall a b, P a b.
Proof.
  intros H0 H1 a b. remember (Z.to_nat (b - a)) as n eqn:Hn.
  revert a Hn; induction n as [|n IH]; intros a Hn.
  - apply H0. lia.
  - apply H1; [lia|]. apply IH. lia.
Qed.
Lemma zrange_up (P : Z -> Prop) e :
  (forall a, e <= a -> P a) -> (forall a, a < e -> P (a + 1) -> P a) -> forall a, P a.
Proof.
  intros H0 H1 a. apply (zrange_ind (fun a b => b = e -> P a)) with (b := e); auto.
  - intros x b Hb ->. auto.
  - intros x b Hb IH ->. auto.
Qed.
