(** str_split(None, m) and str_rsplit(None, m) of an Ito that begins anywhere. *)
From Verif Require Export ItoStrFacts5 SpecPy SpecWs PyUniq.
From Coq Require Import Lia.
Open Scope Z_scope.
Import ListNotations.

Lemma skipn_suffix {A} (s : list A) k a b : 0 <= a -> a <= b -> b <= zlen s ->
  skipn k (zsub s a b) = zsub s (Z.min b (a + Z.of_nat k)) b.
Proof.
  intros Ha Hb Hs. rewrite skipn_zsub. rewrite zsub_len by lia. destruct (Z.le_gt_cases (Z.of_nat k) (b - a)).
  - rewrite zsub_zsub by lia. f_equal; lia.
  - replace (Z.min b (a + Z.of_nat k)) with b by lia. rewrite (zsub_nil s b b) by lia.
    unfold zsub at 1. replace (Z.to_nat (b - a - Z.of_nat k)) with O by lia. apply firstn_O.
Qed.

Lemma all_of_drop p s : all_of p s -> drop_while p s = [].
Proof. intros A. apply drop_while_nil_all. apply forallb_forall. exact A. Qed.
Lemma drop_nil_all p s : drop_while p s = [] -> all_of p s.
Proof. intros E. pose proof (drop_while_split p s) as D. rewrite E, app_nil_r in D. rewrite D. intros c Hc. pose proof (take_while_all p s) as T. rewrite forallb_forall in T. exact (T c Hc). Qed.

Section W.
Context (isspace : Z -> bool) (self : fito) (H : fwf self).
Let k0 := Z.to_nat (f_start self).

Lemma skip_loop : forall n i a m now, f_start self <= a <= f_stop self -> i + f_start self = a + Z.of_nat now ->
  (Z.to_nat (f_stop self - a) < n)%nat ->
  exists ps m', wsplit_loop n isspace self i m = Ok (ps, m') /\ f_start self <= last_stop a ps <= f_stop self /\
    Forall (fun p => within p self) ps /\
    words_skip isspace k0 now m (zsub (f_str self) a (f_stop self))
      (map ito_str ps ++ (if m' =? 0 then match drop_while isspace (zsub (f_str self) (last_stop a ps) (f_stop self)) with [] => [] | d => [d] end else [])).
Proof.
  pose proof H as [H1 H2].
  assert (Lim : forall now t, words_skip isspace k0 now 0 t (match drop_while isspace t with [] => [] | d => [d] end)).
  { intros now t. destruct (drop_while isspace t) as [|c r] eqn:E.
    - apply ws_none; [apply drop_nil_all; exact E|auto].
    - pose proof (drop_while_split isspace t) as D. rewrite E in D. rewrite D. apply ws_rest; [|discriminate|].
      + intros x Hx. pose proof (take_while_all isspace t) as T. rewrite forallb_forall in T. exact (T x Hx).
      + intros x y Q. pose proof (drop_while_hd isspace t x y) as Z0. apply Z0. rewrite E. exact Q. }
  induction n as [|n IH]; intros i a m now Ha Hi Hn; [lia|]. cbn [wsplit_loop]. unfold nearest_non_ws. rewrite Hi.
  set (b := Z.min (f_stop self) (a + Z.of_nat now)).
  assert (Eb : zrange (a + Z.of_nat now) (f_stop self) = zrange b (f_stop self)).
  { unfold b. destruct (Z.le_gt_cases (a + Z.of_nat now) (f_stop self)); [f_equal; lia|]. rewrite !zrange_nil by lia. reflexivity. }
  rewrite Eb, (nn_skip isspace self H b) by (unfold b; lia).
  pose proof (skipn_suffix (f_str self) now a (f_stop self) ltac:(lia) ltac:(lia) H2) as Sk. fold b in Sk.
  destruct (drop_while isspace (zsub (f_str self) b (f_stop self))) as [|c r] eqn:Ed.
  - cbn [bind]. exists [], m. unfold last_stop; cbn [rev map app]. split; [reflexivity|]. split; [lia|]. split; [constructor|].
    destruct (Z.eqb_spec m 0) as [->|Em]; [apply Lim|]. apply ws_end; [exact Em|]. rewrite Sk. apply drop_nil_all. exact Ed.
  - cbn [bind]. assert (Hb : 0 <= b <= f_stop self) by (unfold b; lia).
    pose proof (drop_while_suffix isspace (f_str self) b (f_stop self) ltac:(lia) ltac:(lia) H2) as Hsuf.
    pose proof (drop_while_len isspace (zsub (f_str self) b (f_stop self))) as Hdl.
    pose proof (drop_while_split isspace (zsub (f_str self) b (f_stop self))) as Hsp.
    rewrite Ed in Hsuf, Hdl, Hsp. rewrite zsub_len in Hdl by lia. set (d := c :: r) in *.
    pose proof (take_while_len (fun c => negb (isspace c)) d) as Htl.
    assert (Hd1 : 1 <= zlen (take_while (fun c => negb (isspace c)) d)).
    { apply take_while_nonempty; [subst d; discriminate|]. intros c' r' E'. unfold d in E'. inversion E'; subst. eapply drop_while_hd; exact Ed. }
    pose proof (take_while_prefix (fun c => negb (isspace c)) d) as Htp.
    pose proof (drop_while_split (fun c => negb (isspace c)) d) as Hws.
    pose proof (take_while_all (fun c => negb (isspace c)) d) as Hwa.
    pose proof (fun x y => drop_while_hd (fun c => negb (isspace c)) d x y) as Hwd.
    set (w := take_while (fun c => negb (isspace c)) d) in *. set (s' := drop_while (fun c => negb (isspace c)) d) in *.
    set (q := f_stop self - zlen d) in *.
    destruct (Z.eqb_spec m 0) as [->|Em].
    + exists [], 0. unfold last_stop; cbn [rev map app]. cbn [Z.eqb]. split; [reflexivity|]. split; [lia|]. split; [constructor|]. apply Lim.
    + assert (Hq : a <= q) by (unfold q, b in *; lia).
      destruct (clone_f_seg self q (q + zlen w) None H) as (Ec&Hw&Hin&Htt); [lia|unfold q; lia|].
      rewrite Ec. cbn [f_stop].
      destruct (IH (q + zlen w) (q + zlen w) (m - 1) k0) as (ps & m' & E & Hls & Hfor & Ht); [unfold q in *; lia|unfold k0; lia|unfold q in *; lia|].
      rewrite E. cbn [bind fst snd]. eexists (_ :: ps), m'. split; [reflexivity|]. rewrite last_stop_cons. cbn [f_stop].
      split; [exact Hls|]. split; [constructor; [rewrite <- Ec; exact Hin|exact Hfor]|]. cbn [map app].
      assert (Es' : s' = zsub (f_str self) (q + zlen w) (f_stop self)).
      { assert (Lw : zlen w + zlen s' = zlen d) by (rewrite <- zlen_app, <- Hws; reflexivity). pose proof (zlen_nonneg s').
        transitivity (zsub d (zlen w) (zlen d)).
        - transitivity (zsub (w ++ s') (zlen w) (zlen w + zlen s')); [|rewrite <- Hws, Lw; reflexivity]. rewrite zsub_app_r by lia. replace (zlen w - zlen w) with 0 by lia. replace (zlen w + zlen s' - zlen w) with (zlen s') by lia. symmetry. apply zsub_full.
        - transitivity (zsub (zsub (f_str self) q (f_stop self)) (zlen w) (zlen d)); [rewrite <- Hsuf; reflexivity|]. rewrite zsub_zsub by (unfold q; lia). f_equal; unfold q; lia. }
      assert (Ew : ito_str (FI (f_str self) q (q + zlen w) (odflt None (f_desc self)) (f_vf self)) = w).
      { rewrite <- Ec. rewrite (ito_str_zsub _ Hw), Ec. cbn [f_str f_start f_stop]. etransitivity; [|symmetry; exact Htp].
        transitivity (zsub (zsub (f_str self) q (f_stop self)) 0 (zlen w)); [|rewrite <- Hsuf; reflexivity].
        rewrite zsub_zsub by (unfold q; lia). f_equal; lia. }
      rewrite Ew. eapply ws_more with (s := s'); [exact Em|exact (eq_trans Sk (eq_trans Hsp (f_equal (app _) Hws)))| | | | |].
      * intros x Hx. pose proof (take_while_all isspace (zsub (f_str self) b (f_stop self))) as T. rewrite forallb_forall in T. exact (T x Hx).
      * intros Q. rewrite Q, zlen_nil in Hd1. lia.
      * intros x Hx. rewrite forallb_forall in Hwa. specialize (Hwa x Hx). cbv beta in Hwa. apply Bool.negb_true_iff in Hwa. exact Hwa.
      * intros x y Q. specialize (Hwd x y Q). cbv beta in Hwd. apply Bool.negb_false_iff in Hwd. exact Hwd.
      * rewrite Es'. exact Ht.
Qed.

Lemma wsplit_skip m fuel : (Z.to_nat (ito_len self) < fuel)%nat ->
  exists rs, str_wsplit fuel isspace self m = Ok rs /\ words_skip isspace k0 0 m (ito_str self) (map ito_str rs) /\ Forall (fun p => within p self) rs.
Proof.
  intros Hf. pose proof H as [H1 H2]. unfold str_wsplit.
  destruct (f_str self) as [|c0 s0] eqn:Es.
  - exists []. split; [reflexivity|]. split; [|constructor].
    assert (Hz : zlen (ito_str self) = 0) by (rewrite (ito_str_len self H); unfold ito_len; rewrite zlen_nil in H2; lia).
    apply zlen_0 in Hz. rewrite Hz. cbn [map]. destruct (Z.eq_dec m 0) as [->|Em]; [apply ws_none; [intros c []|reflexivity]|apply ws_end; [exact Em|intros c []]].
  - rewrite <- Es in *. clear Es.
    destruct (skip_loop fuel 0 (f_start self) m 0 ltac:(lia) ltac:(lia)) as (ps & m' & E & Hls & Hfor & Ht); [unfold ito_len in Hf; lia|].
    rewrite E. cbn [bind]. rewrite <- (ito_str_zsub self H) in Ht.
    change (match rev ps with [] => f_start self | s :: _ => f_stop s end) with (last_stop (f_start self) ps).
    destruct (m' =? 0); [|exists ps; rewrite app_nil_r in Ht; auto].
    set (a := last_stop (f_start self) ps) in *.
    destruct (clone_f_seg self a (f_stop self) None H) as (Ec&Hw&Hin&Htt); [lia|lia|].
    rewrite clone_f_dstop by exact H.
    destruct (str_lstrip_eff isspace (clone_f self (Some a) (Some (f_stop self)) None) None Hw) as [(Hin2 & Hw2 & Ht2) _].
    set (tl := deref _ _) in *. cbn [eff_set] in Ht2.
    rewrite (ito_str_zsub _ Hw), Ec in Ht2. cbn [f_str f_start f_stop] in Ht2.
    pose proof (ito_str_len tl Hw2) as Htl. rewrite Ht2 in Htl.
    exists (if 0 <? ito_len tl then ps ++ [tl] else ps). split; [reflexivity|].
    destruct (drop_while isspace (zsub (f_str self) a (f_stop self))) as [|c r] eqn:Ed.
    + rewrite zlen_nil in Htl. destruct (Z.ltb_spec 0 (ito_len tl)); [lia|]. rewrite app_nil_r in Ht. auto.
    + rewrite zlen_cons in Htl. pose proof (zlen_nonneg r).
      destruct (Z.ltb_spec 0 (ito_len tl)); [|lia]. rewrite map_app. cbn [map]. rewrite Ht2. split; [exact Ht|].
      apply Forall_app. split; [exact Hfor|]. constructor; [|constructor]. eapply within_trans; eauto.
Qed.
End W.

(** the relation leaves no choice, and for an Ito that begins at 0 it is SpecPy.words *)
Lemma words_skip_unique p later now m s l l' : words_skip p later now m s l -> words_skip p later now m s l' -> l = l'.
Proof.
  assert (Bad : forall a c r (t : pystr), all_of p (a ++ (c :: r)) -> p c = false -> False).
  { intros a c r _ A Q. pose proof (A c (in_or_app a (c :: r) c (or_intror (or_introl eq_refl)))). congruence. }
  intros C. revert l'. induction C as [now m t A M|now a s A S0 B|now m t M A|now m t a w s l M E A W N B C IH]; intros l' C';
    inversion C' as [now' m' t' A' M' E1 E2 E3 E4|now' a' s' A' S0' B' E1 E2 E3 E4|now' m' t' M' A' E1 E2 E3 E4|now' m' t' a' w' s' r' M' E' A' W' N' B' C'' E1 E2 E3 E4]; subst; try congruence; try reflexivity.
  - destruct s' as [|c s']; [congruence|]. exfalso. exact (Bad a' c s' [] A (B' c s' eq_refl)).
  - destruct s as [|c s]; [congruence|]. exfalso. exact (Bad a c s [] A' (B c s eq_refl)).
  - destruct (run_unique p a s a' s' A B A' B') as (_ & ->); [symmetry; assumption|reflexivity].
  - exfalso. rewrite E' in A. destruct w' as [|c w']; [congruence|]. exact (Bad a' c (w' ++ s') [] A (N' c (or_introl eq_refl))).
  - exfalso. rewrite E in A'. destruct w as [|c w]; [congruence|]. exact (Bad a c (w ++ s) [] A' (N c (or_introl eq_refl))).
  - rewrite E in E'. destruct (run_unique p a _ a' _ A (out_app p w s W N) A' (out_app p w' s' W' N') E') as (_ & Q).
    destruct (word_unique p w s w' s' N B N' B' Q) as (-> & ->). rewrite (IH _ C''). reflexivity.
Qed.
Lemma words_skip_0 p m s l : words_skip p 0 0 m s l <-> words p m s l.
Proof.
  split.
  - assert (G : forall later now, later = O -> now = O -> words_skip p later now m s l -> words p m s l).
    { intros later now El En C. induction C as [now m t A M|now a s A S0 B|now m t M A|now m t a w s l M E A W N B C IH]; subst.
      - apply words_end. exact A.
      - apply words_rest; assumption.
      - apply words_end. exact A.
      - cbn [skipn] in E. subst t. apply words_more; auto. }
    exact (G O O eq_refl eq_refl).
  - intros C. induction C as [m s A|a s A S0 B|m a w s l M A W N B C IH].
    + destruct (Z.eq_dec m 0) as [->|M]; [apply ws_none; auto|apply ws_end; auto].
    + apply ws_rest; assumption.
    + eapply ws_more with (s := s); [exact M|reflexivity| | | | |]; assumption.
Qed.
Lemma all_of_skipn p n s : all_of p s -> all_of p (skipn n s).
Proof. intros A c I. apply A. rewrite <- (firstn_skipn n s). apply in_or_app. right. exact I. Qed.
(** one word with white space around it is found wherever the Ito begins *)
Lemma words_skip_one p later m a w b : all_of p a -> w <> [] -> none_of p w -> all_of p b -> m <> 0 -> words_skip p later 0 m (a ++ w ++ b) [w].
Proof.
  intros A W N B M. apply ws_more with (a := a) (s := b); [exact M|reflexivity|exact A|exact W|exact N| |].
  - intros c r ->. apply B. left. reflexivity.
  - destruct (Z.eq_dec (m - 1) 0) as [E|E]; [apply ws_none; assumption|apply ws_end; [exact E|apply all_of_skipn; exact B]].
Qed.

(** -- backwards, for Itos that do not begin at 0 -- *)
Section R.
Context (isspace : Z -> bool) (self : fito) (H : fwf self) (Hs : 0 < f_start self).
Let s := f_str self.
Definition stands (k : Z) : Prop := exists c, zget s k = Some c /\ isspace c = false.

Lemma back_word : forall k nw, f_start self - 1 <= k -> k < nw -> nw < zlen s -> stands (k + 1) ->
  exists r, nn_loop isspace self (-1) (zrange_down k (f_start self - 1)) (Some nw) (k + 1) = Ok (Some r) /\ f_start self <= f_start r <= nw /\ stands (f_start r).
Proof.
  pose proof H as [H1 H2]. intros k. pattern k. apply (zdown_ind _ (f_start self - 1)); clear k.
  - intros k Hk nw Hl Hkn Hn St. rewrite zrange_down_nil by lia. cbn [nn_loop]. change (-1 =? 1) with false. cbv beta iota zeta.
    eexists. split; [reflexivity|]. rewrite clone_f_in by (cbn [odflt]; auto; unfold s in *; lia). cbn [odflt f_start]. replace (k + 1 + -1 + 1) with (k + 1) by lia. split; [lia|exact St].
  - intros k Hk IH nw Hl Hkn Hn St. rewrite zrange_down_cons by lia. cbn [nn_loop]. unfold char_at. destruct (zget_some s k) as [c Hc]; [lia|]. fold s. rewrite Hc.
    destruct (isspace c) eqn:Ec.
    + change (-1 =? 1) with false. cbv beta iota zeta. eexists. split; [reflexivity|]. rewrite clone_f_in by (cbn [odflt]; auto; unfold s in *; lia). cbn [odflt f_start]. split; [lia|exact St].
    + assert (Sk : stands (k - 1 + 1)) by (exists c; replace (k - 1 + 1) with k by lia; auto).
      pose proof (IH nw ltac:(lia) ltac:(lia) ltac:(lia) Sk) as Q. replace (k - 1 + 1) with k in Q by lia. exact Q.
Qed.
Lemma back_some : forall k last, k < zlen s -> (exists j, f_start self <= j <= k /\ stands j) ->
  exists r, nn_loop isspace self (-1) (zrange_down k (f_start self - 1)) None last = Ok (Some r) /\ f_start self <= f_start r <= k /\ stands (f_start r).
Proof.
  pose proof H as [H1 H2]. intros k. pattern k. apply (zdown_ind _ (f_start self - 1)); clear k.
  - intros k Hk last _ (j & Hj & _). lia.
  - intros k Hk IH last Hn (j & Hj & St). rewrite zrange_down_cons by lia. cbn [nn_loop]. unfold char_at. destruct (zget_some s k) as [c Hc]; [lia|]. fold s. rewrite Hc.
    destruct (isspace c) eqn:Ec.
    + assert (j <> k) by (intros ->; destruct St as (d & Ed & Sd); congruence).
      destruct (IH k ltac:(lia)) as (r & E & R & S'); [exists j; split; [lia|exact St]|]. exists r. split; [exact E|]. split; [lia|exact S'].
    + assert (Sk : stands (k - 1 + 1)) by (exists c; replace (k - 1 + 1) with k by lia; auto).
      pose proof (back_word (k - 1) k ltac:(lia) ltac:(lia) ltac:(lia) Sk) as Q. replace (k - 1 + 1) with k in Q by lia. exact Q.
Qed.
Lemma back_beyond : forall k last ks, zlen s <= k -> nn_loop isspace self (-1) (k :: ks) None last = Err IndexError.
Proof.
  intros k last ks Hk. cbn [nn_loop]. unfold char_at. fold s. assert (E : zget s k = None).
  { unfold zget. pose proof (zlen_nonneg s). destruct (Z.ltb_spec k 0); [reflexivity|]. apply nth_error_None. unfold zlen in Hk. lia. }
  rewrite E. reflexivity.
Qed.
Lemma back_loop : forall n i m rv, m < 0 -> f_start self <= i + f_start self ->
  (exists j, f_start self <= j <= i + f_start self /\ stands j) ->
  rwsplit_loop n isspace self i m rv = Err IndexError \/ rwsplit_loop n isspace self i m rv = Err OutOfFuel.
Proof.
  induction n as [|n IH]; intros i m rv Hm Hi W; [right; reflexivity|]. cbn [rwsplit_loop]. unfold nearest_non_ws.
  destruct (Z_lt_le_dec (i + f_start self) (zlen s)) as [L|L].
  - destruct (back_some (i + f_start self) (i + f_start self) L W) as (r & E & R & St). rewrite E. cbn [bind]. destruct (Z.eqb_spec m 0); [lia|].
    apply IH; [lia|lia|]. exists (f_start r). split; [lia|exact St].
  - left. rewrite zrange_down_cons by lia. rewrite back_beyond by exact L. reflexivity.
Qed.
Lemma rsplit_never m fuel : m < 0 -> ~ all_of isspace (ito_str self) ->
  str_rwsplit fuel isspace self m = Err IndexError \/ str_rwsplit fuel isspace self m = Err OutOfFuel.
Proof.
  intros Hm Ha. pose proof H as [H1 H2]. unfold str_rwsplit. fold s. destruct s as [|c0 s0] eqn:Es; [exfalso; unfold s in Es; rewrite Es, zlen_nil in H2; lia|].
  assert (W : exists j, f_start self <= j <= f_stop self - 1 /\ stands j).
  { destruct (existsb (fun c => negb (isspace c)) (ito_str self)) eqn:X.
    - apply existsb_exists in X. destruct X as (c & Ic & Sc). apply Bool.negb_true_iff in Sc. rewrite (ito_str_zsub self H) in Ic.
      apply In_nth_error in Ic. destruct Ic as (k & Ek). pose proof (nth_error_Some (zsub (f_str self) (f_start self) (f_stop self)) k) as NS. rewrite Ek in NS.
      assert (Lk : (k < length (zsub (f_str self) (f_start self) (f_stop self)))%nat) by (apply NS; discriminate).
      assert (Lz : zlen (zsub (f_str self) (f_start self) (f_stop self)) = f_stop self - f_start self) by (rewrite zsub_len; lia). unfold zlen in Lz.
      exists (f_start self + Z.of_nat k). split; [lia|]. exists c. split; [|exact Sc].
      unfold zget. destruct (Z.ltb_spec (f_start self + Z.of_nat k) 0); [lia|]. unfold zsub in Ek.
      assert (G : forall (l : pystr) n i, nth_error (firstn n l) i = Some c -> nth_error l i = Some c).
      { clear. induction l as [|x l IH]; intros [|n] [|i] E; cbn in E |- *; try discriminate; auto. exact (IH _ _ E). }
      apply G in Ek. assert (G2 : forall (l : pystr) n i, nth_error (skipn n l) i = nth_error l (n + i)).
      { clear. induction l as [|x l IH]; intros [|n] i; cbn; auto. destruct i; reflexivity. }
      rewrite G2 in Ek. rewrite <- Ek. fold s. f_equal. lia.
    - exfalso. apply Ha. intros c Ic. destruct (isspace c) eqn:Q; [reflexivity|]. exfalso. assert (T : existsb (fun c => negb (isspace c)) (ito_str self) = true) by (apply existsb_exists; exists c; split; [exact Ic|rewrite Q; reflexivity]). congruence. }
  destruct W as (j & Hj & St). unfold ito_len.
  destruct (back_loop fuel (f_stop self - f_start self - 1) m [] Hm) as [E|E].
  - lia.
  - exists j. split; [lia|exact St].
  - left. rewrite E. reflexivity.
  - right. rewrite E. reflexivity.
Qed.
End R.

(** backwards, without a word or with m = 0: right wherever the Ito begins *)
Lemma back_none isspace self : fwf self -> forall k last, k < zlen (f_str self) -> (forall j c, f_start self <= j <= k -> zget (f_str self) j = Some c -> isspace c = true) ->
  nn_loop isspace self (-1) (zrange_down k (f_start self - 1)) None last = Ok None.
Proof.
  intros H. pose proof H as [H1 H2]. intros k. pattern k. apply (zdown_ind _ (f_start self - 1)); clear k.
  - intros k Hk last _ _. rewrite zrange_down_nil by lia. reflexivity.
  - intros k Hk IH last Hn A. rewrite zrange_down_cons by lia. cbn [nn_loop]. unfold char_at. destruct (zget_some (f_str self) k) as [c Hc]; [lia|]. rewrite Hc.
    rewrite (A k c ltac:(lia) Hc). apply IH; [lia|]. intros j d Hj. apply A. lia.
Qed.
Lemma zget_in self j c : fwf self -> f_start self <= j < f_stop self -> zget (f_str self) j = Some c -> In c (ito_str self).
Proof.
  intros H Hj E. pose proof H as [H1 H2]. rewrite (ito_str_zsub self H).
  rewrite <- (zsub_app_split (f_str self) (f_start self) j (f_stop self)) by lia. apply in_or_app. right. rewrite (zsub_step _ _ _ _ E) by lia. left. reflexivity.
Qed.
Lemma back_first isspace self : fwf self -> exists r, nearest_non_ws isspace self (ito_len self - 1) true = Ok r /\ (all_of isspace (ito_str self) -> r = None).
Proof.
  intros H. pose proof H as [H1 H2]. unfold nearest_non_ws, ito_len. replace (f_stop self - f_start self - 1 + f_start self) with (f_stop self - 1) by lia.
  destruct (existsb (fun c => negb (isspace c)) (ito_str self)) eqn:X.
  - assert (NA : ~ all_of isspace (ito_str self)).
    { intros A. apply existsb_exists in X. destruct X as (c & Ic & Q). rewrite (A c Ic) in Q. discriminate. }
    assert (W : forall k last, f_start self - 1 <= k -> k < f_stop self -> exists r, nn_loop isspace self (-1) (zrange_down k (f_start self - 1)) None last = Ok r).
    { assert (Wd : forall k nw, f_start self - 1 <= k -> k < f_stop self -> exists r, nn_loop isspace self (-1) (zrange_down k (f_start self - 1)) (Some nw) (k + 1) = Ok r).
      { intros k. pattern k. apply (zdown_ind _ (f_start self - 1)); clear k.
        - intros k Hk nw _ _. rewrite zrange_down_nil by lia. eexists. reflexivity.
        - intros k Hk IH nw Hl Hn. rewrite zrange_down_cons by lia. cbn [nn_loop]. unfold char_at. destruct (zget_some (f_str self) k) as [c Hc]; [lia|]. rewrite Hc.
          destruct (isspace c); [eexists; reflexivity|]. pose proof (IH nw ltac:(lia) ltac:(lia)) as Q. replace (k - 1 + 1) with k in Q by lia. exact Q. }
      intros k. pattern k. apply (zdown_ind _ (f_start self - 1)); clear k.
      - intros k Hk last _ _. rewrite zrange_down_nil by lia. eexists. reflexivity.
      - intros k Hk IH last Hl Hn. rewrite zrange_down_cons by lia. cbn [nn_loop]. unfold char_at. destruct (zget_some (f_str self) k) as [c Hc]; [lia|]. rewrite Hc.
        destruct (isspace c); [apply IH; lia|]. pose proof (Wd (k - 1) k ltac:(lia) ltac:(lia)) as Q. replace (k - 1 + 1) with k in Q by lia. exact Q. }
    destruct (W (f_stop self - 1) (f_stop self - 1) ltac:(lia) ltac:(lia)) as (r & E). exists r. split; [exact E|]. intros A. contradiction.
  - exists None. split; [|reflexivity]. apply back_none; [exact H|lia|]. intros j c Hj Q. destruct (isspace c) eqn:Ec; [reflexivity|]. exfalso.
    assert (T : existsb (fun c => negb (isspace c)) (ito_str self) = true) by (apply existsb_exists; exists c; split; [exact (zget_in self j c H ltac:(lia) Q)|rewrite Ec; reflexivity]). congruence.
Qed.
Lemma rsplit_zero isspace self fuel : fwf self -> (0 < fuel)%nat ->
  exists rs, str_rwsplit fuel isspace self 0 = Ok rs /\ rwords isspace 0 (ito_str self) (map ito_str rs) /\ Forall (fun p => within p self) rs.
Proof.
  intros H Hf. pose proof H as [H1 H2]. unfold str_rwsplit. destruct (f_str self) as [|c0 s0] eqn:Es.
  - exists []. split; [reflexivity|]. split; [|constructor].
    assert (Hz : zlen (ito_str self) = 0) by (rewrite (ito_str_len self H); unfold ito_len; rewrite zlen_nil in H2; lia).
    apply zlen_0 in Hz. rewrite Hz. apply rwords_end. intros c [].
  - rewrite <- Es in *. clear Es. destruct fuel as [|fuel]; [lia|]. cbn [rwsplit_loop]. destruct (back_first isspace self H) as (r & E & _). rewrite E. cbn [bind].
    assert (Ql : (match r with Some x => if 0 =? 0 then Ok ([], 0) else rwsplit_loop fuel isspace self (f_start x - 1) (0 - 1) [x] | None => Ok ([], 0) end) = Ok (@nil fito, 0)) by (destruct r; reflexivity).
    rewrite Ql. cbn [bind Z.eqb]. rewrite clone_f_dstart by exact H.
    destruct (clone_f_seg self (f_start self) (f_stop self) None H) as (Ec&Hw&Hin&Htt); [lia|lia|].
    destruct (str_rstrip_eff isspace (clone_f self (Some (f_start self)) (Some (f_stop self)) None) None Hw) as [(Hin2 & Hw2 & Ht2) _].
    set (hd := deref _ _) in *. cbn [eff_set] in Ht2. rewrite (ito_str_zsub _ Hw), Ec in Ht2. cbn [f_str f_start f_stop] in Ht2.
    rewrite <- (ito_str_zsub self H) in Ht2. pose proof (ito_str_len hd Hw2) as Hl. rewrite Ht2, zlen_rev in Hl.
    exists (if 0 <? ito_len hd then [hd] else []). split; [reflexivity|].
    pose proof (drop_while_split isspace (rev (ito_str self))) as D. pose proof (take_while_all isspace (rev (ito_str self))) as TA. rewrite forallb_forall in TA.
    destruct (drop_while isspace (rev (ito_str self))) as [|c r0] eqn:Ed.
    + rewrite zlen_nil in Hl. destruct (Z.ltb_spec 0 (ito_len hd)); [lia|]. split; [|constructor]. apply rwords_end.
      intros c Ic. apply TA. rewrite app_nil_r in D. rewrite <- D. rewrite <- in_rev. exact Ic.
    + rewrite zlen_cons in Hl. pose proof (zlen_nonneg r0). destruct (Z.ltb_spec 0 (ito_len hd)); [|lia]. cbn [map]. rewrite Ht2. split.
      * apply (f_equal (@rev Z)) in D. rewrite rev_involutive, rev_app_distr in D. rewrite D. apply rwords_rest.
        -- intros x Ix. apply TA. apply in_rev. exact Ix.
        -- intros Q. apply (f_equal zlen) in Q. rewrite zlen_rev, zlen_cons, zlen_nil in Q. lia.
        -- intros x y Q. apply (f_equal (@rev Z)) in Q. rewrite rev_involutive, rev_app_distr in Q. cbn [rev app] in Q. injection Q as Q1 _. subst x. eapply drop_while_hd. exact Ed.
      * constructor; [|constructor]. eapply within_trans; eauto.
Qed.
Lemma rsplit_blank isspace self m fuel : fwf self -> (0 < fuel)%nat -> all_of isspace (ito_str self) -> str_rwsplit fuel isspace self m = Ok [].
Proof.
  intros H Hf A. destruct (Z.eq_dec m 0) as [->|M].
  - destruct (rsplit_zero isspace self fuel H Hf) as (rs & E & R & _). rewrite E. inversion R as [m' s' A' E1 E2 E3|a' s' A' S0' B' E1 E2 E3|m' a' w' s' l' M' A' W' N' B' R' E1 E2 E3].
    + destruct rs; [reflexivity|discriminate].
    + exfalso. assert (Q : exists c r, s' = r ++ [c]) by (exists (last s' 0), (removelast s'); apply app_removelast_last; exact S0'). destruct Q as (c & r & Q).
      pose proof (B' c r Q) as Z1. rewrite (A c) in Z1; [discriminate|]. rewrite <- E2, Q. apply in_or_app. left. apply in_or_app. right. left. reflexivity.
    + congruence.
  - unfold str_rwsplit. destruct (f_str self); [reflexivity|]. destruct fuel as [|fuel]; [lia|]. cbn [rwsplit_loop]. destruct (back_first isspace self H) as (r & E & N). rewrite E, (N A). cbn [bind].
    destruct (Z.eqb_spec m 0); [congruence|reflexivity].
Qed.
