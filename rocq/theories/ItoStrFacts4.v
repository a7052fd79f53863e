(** Proofs: regex splitting, splitlines, to_line_col, from_substrings. *)
From Verif Require Export ItoStrFacts3.

(** -- split_iter -- *)
Lemma match_seq_le a b ms : match_seq a b ms -> a <= b.
Proof. revert a; induction ms as [|m ms IH]; cbn; intros a H; [exact H|]. destruct H as (?&?&H). apply IH in H. lia. Qed.

Lemma split_iter_loop_spec self keep desc m : fwf self -> m <= 0 ->
  forall ms i, f_start self <= i -> match_seq i (f_stop self) ms ->
  let r := split_iter_loop self ms m 0 keep desc i in
  i <= snd r <= f_stop self /\
  spans_of (fst r) ++ [(snd r, f_stop self)] =
    (if keep then up_to_and_with i (f_stop self) ms else between i (f_stop self) ms) /\
  Forall (fun p => within p self /\ f_desc p = desc) (fst r).
Proof.
  intros H Hm. induction ms as [|x ms IH]; intros i Hi Hs; cbv zeta.
  - cbn [split_iter_loop fst snd]. cbn in Hs. split; [lia|]. split; [destruct keep; reflexivity|constructor].
  - destruct Hs as (Hx1 & Hx2 & Hs). pose proof (match_seq_le _ _ _ Hs) as Hle.
    cbn [split_iter_loop].
    assert (Hb : negb (m =? 0) && (0 <=? m) = false) by (destruct (Z.eqb_spec m 0), (Z.leb_spec 0 m); cbn; auto; lia).
    rewrite Hb. cbn [fst snd].
    destruct (IH (snd x)) as (Hr & Ht & Hf); [lia|exact Hs|].
    destruct (split_iter_loop self ms m 0 keep desc (snd x)) as [ps i']. cbn [fst snd] in *.
    destruct (clone_f_seg self i (if keep then snd x else fst x) (Some desc) H) as (Ec&Hw&Hin&_); [destruct keep; lia|destruct keep; lia|].
    rewrite Ec. split; [lia|]. split.
    + cbn [spans_of map app f_start f_stop]. fold (spans_of ps). rewrite Ht. destruct keep; reflexivity.
    + constructor; [|exact Hf]. rewrite <- Ec. split; [exact Hin|rewrite Ec; reflexivity].
Qed.

Lemma split_iter_spec self ms m keep desc : fwf self -> m <= 0 ->
  match_seq (f_start self) (f_stop self) ms ->
  spans_of (split_iter self ms m keep desc) =
    (if keep then up_to_and_with (f_start self) (f_stop self) ms else between (f_start self) (f_stop self) ms) /\
  Forall (fun p => within p self /\ f_desc p = desc) (split_iter self ms m keep desc).
Proof.
  intros H Hm Hs. unfold split_iter.
  destruct (split_iter_loop_spec self keep desc m H Hm ms (f_start self)) as (Hr & Ht & Hf); [lia|exact Hs|].
  set (r := split_iter_loop _ _ _ _ _ _ _) in *. rewrite <- Ht. clear Ht.
  destruct (clone_f_seg self (snd r) (f_stop self) (Some desc) H) as (Ec&Hw&Hin&_); [lia|lia|].
  destruct (Z.ltb_spec (snd r) (f_stop self)).
  - rewrite clone_f_dstop by exact H. rewrite Ec. unfold spans_of. rewrite map_app. split; [reflexivity|].
    apply Forall_app. split; [exact Hf|]. constructor; [|constructor]. rewrite <- Ec. split; [exact Hin|rewrite Ec; reflexivity].
  - destruct (Z.eqb_spec (snd r) (f_stop self)) as [E|E]; [|lia]. rewrite E in *. rewrite Ec.
    unfold spans_of. rewrite map_app. split; [reflexivity|].
    apply Forall_app. split; [exact Hf|]. constructor; [|constructor]. rewrite <- Ec. split; [exact Hin|rewrite Ec; reflexivity].
Qed.
Lemma keep_tiles s : forall ms l a b, match_seq a b ms -> Forall (fun p => f_str p = s) l ->
  spans_of l = up_to_and_with a b ms -> tiles s a b l.
Proof.
  intros ms; induction ms as [|m ms IH]; intros l a b Hs Hf E; cbn [up_to_and_with] in E.
  - destruct l as [|x [|y l]]; try discriminate. cbn in E. injection E as E1 E2. cbn in Hs |- *.
    inversion Hf; subst. repeat split; auto; lia.
  - destruct l as [|x l]; [discriminate|]. cbn [spans_of map] in E. injection E as E1 E2 E3.
    destruct Hs as (H1 & H2 & H3). inversion Hf; subst. cbn [tiles].
    repeat split; auto; try lia. apply IH; [rewrite E2; exact H3|assumption|rewrite E2; exact E3].
Qed.
Lemma tiles_text s : forall l a b, 0 <= a -> b <= zlen s -> tiles s a b l -> concat (map ito_str l) = zsub s a b /\ a <= b.
Proof.
  induction l as [|x l IH]; intros a b Ha Hb Ht; cbn in Ht.
  - subst. rewrite zsub_nil by lia. split; [reflexivity|lia].
  - destruct Ht as (Hs & Hst & Hle & Ht). destruct (IH (f_stop x) b) as [E Hle2]; [lia|exact Hb|exact Ht|].
    split; [|lia]. cbn [map concat]. rewrite E. rewrite ito_str_zsub by (unfold fwf; rewrite Hs; lia).
    rewrite Hs, Hst. apply zsub_app_split; lia.
Qed.
(** max_split > 0 (and a match): the loop stops before the first split *)
Lemma split_iter_positive self ms m keep desc : fwf self -> 0 < m -> f_start self < f_stop self \/ f_start self = f_stop self ->
  split_iter self ms m keep desc = [clone_f self (Some (f_start self)) (Some (f_stop self)) (Some desc)]
  \/ ms = [].
Proof.
  intros H Hm _. destruct ms as [|x ms]; [right; reflexivity|left].
  unfold split_iter. cbn [split_iter_loop].
  assert (Hb : negb (m =? 0) && (0 <=? m) = true) by (destruct (Z.eqb_spec m 0), (Z.leb_spec 0 m); cbn; auto; lia).
  rewrite Hb. cbn [fst snd app]. destruct H as [H1 H2].
  destruct (Z.ltb_spec (f_start self) (f_stop self)); [reflexivity|].
  destruct (Z.eqb_spec (f_start self) (f_stop self)) as [E|E]; [|lia]. rewrite E. reflexivity.
Qed.

(** -- splitlines -- *)
Lemma take_line_spec t : let '(b, e, r) := take_line t in
  t = b ++ e ++ r /\ (e = [] -> r = []) /\ forallb (fun c => negb (is_linebreak c)) b = true.
Proof.
  induction t as [|c t IH]; cbn [take_line]; [auto|].
  destruct (is_linebreak c) eqn:E.
  - destruct t as [|d t']; [cbn; repeat split; congruence|].
    destruct ((c =? 13) && (d =? 10)); cbn; repeat split; congruence.
  - destruct (take_line t) as [[b e] r]. destruct IH as (-> & H2 & H3).
    cbn [app]. repeat split; auto. cbn [forallb]. rewrite E. exact H3.
Qed.
Lemma lb_fuel s stop : forall n m pos, (Z.to_nat (stop - pos) <= n)%nat -> (Z.to_nat (stop - pos) <= m)%nat ->
  linebreak_matches n s pos stop = linebreak_matches m s pos stop.
Proof.
  induction n as [|n IH]; intros m pos Hn Hm.
  - destruct m; [reflexivity|]. cbn [linebreak_matches]. destruct (Z.leb_spec stop pos); [reflexivity|lia].
  - destruct m; [cbn [linebreak_matches]; destruct (Z.leb_spec stop pos); [reflexivity|lia]|].
    cbn [linebreak_matches]. destruct (Z.leb_spec stop pos); [reflexivity|].
    destruct (zget s pos) as [c|]; [|reflexivity].
    destruct ((c =? 13) && (pos + 1 <? stop) && match zget s (pos + 1) with Some d => d =? 10 | None => false end).
    + f_equal. apply IH; lia.
    + destruct (is_linebreak c); [f_equal|]; apply IH; lia.
Qed.
Lemma lb_take_line s stop n' : stop <= zlen s -> forall n pos, 0 <= pos <= stop ->
  (Z.to_nat (stop - pos) <= n)%nat -> (Z.to_nat (stop - pos) <= n')%nat ->
  linebreak_matches n s pos stop =
  (let '(b, e, r) := take_line (zsub s pos stop) in
   match e with
   | [] => []
   | _ => (pos + zlen b, pos + zlen b + zlen e) :: linebreak_matches n' s (pos + zlen b + zlen e) stop
   end).
Proof.
  intros Hs. induction n as [|n IH]; intros pos Hp Hn Hn'.
  - rewrite zsub_nil by lia. reflexivity.
  - cbn [linebreak_matches]. destruct (Z.leb_spec stop pos).
    + rewrite zsub_nil by lia. reflexivity.
    + destruct (zget_some s pos) as [c Hc]; [lia|]. rewrite Hc. rewrite (zsub_step _ _ _ _ Hc) by lia.
      cbn [take_line]. destruct (Z.eqb_spec c 13) as [->|Hc13]; cbn [andb].
      * change (is_linebreak 13) with true. cbv iota.
        destruct (Z.ltb_spec (pos + 1) stop); cbn [andb].
        -- destruct (zget_some s (pos + 1)) as [d Hd]; [lia|]. rewrite Hd. rewrite (zsub_step _ _ _ _ Hd) by lia.
           destruct (Z.eqb_spec d 10) as [->|Hd10].
           ++ rewrite !zlen_cons, !zlen_nil.
              replace (pos + 0) with pos by lia. replace (pos + (1 + (1 + 0))) with (pos + 2) by lia.
              f_equal. apply lb_fuel; lia.
           ++ rewrite !zlen_cons, !zlen_nil. replace (pos + 0) with pos by lia. replace (pos + (1 + 0)) with (pos + 1) by lia.
              f_equal. apply lb_fuel; lia.
        -- rewrite zsub_nil by lia. rewrite !zlen_cons, !zlen_nil. replace (pos + 0) with pos by lia. replace (pos + (1 + 0)) with (pos + 1) by lia.
           f_equal. apply lb_fuel; lia.
      * destruct (is_linebreak c) eqn:El.
        -- destruct (zsub s (pos + 1) stop); rewrite !zlen_cons, !zlen_nil; replace (pos + 0) with pos by lia; replace (pos + (1 + 0)) with (pos + 1) by lia;
           f_equal; apply lb_fuel; lia.
        -- rewrite (IH (pos + 1)) by lia. destruct (take_line (zsub s (pos + 1) stop)) as [[b e] r].
           destruct e as [|e0 e1]; [reflexivity|]. rewrite (zlen_cons c b).
           replace (pos + (1 + zlen b)) with (pos + 1 + zlen b) by lia. reflexivity.
Qed.

Lemma splitlines_loop self keep desc : fwf self -> forall n' n i, f_start self <= i <= f_stop self ->
  (Z.to_nat (f_stop self - i) <= n)%nat -> (Z.to_nat (f_stop self - i) <= n')%nat ->
  let r := split_iter_loop self (linebreak_matches n (f_str self) i (f_stop self)) 0 0 keep desc i in
  i <= snd r <= f_stop self /\
  map ito_str (fst r) ++ (if snd r <? f_stop self then [zsub (f_str self) (snd r) (f_stop self)] else [])
    = py_splitlines_fuel n' keep (zsub (f_str self) i (f_stop self)).
Proof.
  intros H. pose proof H as [H1 H2]. induction n' as [|n' IH]; intros n i Hi Hn Hn'; cbv zeta.
  - assert (i = f_stop self) by lia. subst i. rewrite (lb_take_line _ _ n) by lia. rewrite zsub_nil by lia.
    cbn. rewrite Z.ltb_irrefl. split; [lia|reflexivity].
  - rewrite (lb_take_line _ _ n) by lia. cbn [py_splitlines_fuel].
    pose proof (take_line_spec (zsub (f_str self) i (f_stop self))) as Hts.
    destruct (take_line (zsub (f_str self) i (f_stop self))) as [[b e] r] eqn:Etl.
    destruct Hts as (Ht & He & Hb).
    assert (Hlen : zlen b + (zlen e + zlen r) = f_stop self - i).
    { apply (f_equal zlen) in Ht. rewrite !zlen_app, zsub_len in Ht by lia. lia. }
    pose proof (zlen_nonneg b). pose proof (zlen_nonneg r).
    destruct e as [|e0 e'].
    + cbn [split_iter_loop fst snd map app]. rewrite (He eq_refl) in *. change (@zlen Z []) with 0 in Hlen.
      cbn [app] in Ht. rewrite app_nil_r in Ht. split; [lia|].
      destruct (Z.ltb_spec i (f_stop self)).
      * rewrite Ht. destruct b as [|b0 b']; [change (@zlen Z []) with 0 in Hlen; lia|]. rewrite app_nil_r.
        destruct n'; cbn [py_splitlines_fuel]; destruct keep; reflexivity.
      * rewrite Ht. assert (Hb0 : zlen b = 0) by lia. apply zlen_0 in Hb0. rewrite Hb0. reflexivity.
    + set (e := e0 :: e') in *. assert (He1 : 1 <= zlen e) by (unfold e; rewrite zlen_cons; pose proof (zlen_nonneg e'); lia).
      cbn [split_iter_loop Z.eqb negb andb fst snd].
      destruct (IH n (i + zlen b + zlen e)) as (Hr & Htx); [lia|lia|lia|].
      set (rr := split_iter_loop _ _ _ _ _ _ _) in *.
      split; [lia|].
      destruct (clone_f_seg self i (if keep then i + zlen b + zlen e else i + zlen b) (Some desc) H) as (Ec&Hw&_&_); [destruct keep; lia|destruct keep; lia|].
      cbn [map app]. rewrite Htx.
      assert (Hrr : zsub (f_str self) (i + zlen b + zlen e) (f_stop self) = r).
      { assert (E : zsub (zsub (f_str self) i (f_stop self)) (zlen b + zlen e) (zlen b + (zlen e + zlen r)) = r).
        { rewrite Ht. rewrite zsub_app_r by lia. rewrite zsub_app_r by lia.
          replace (zlen b + zlen e - zlen b - zlen e) with 0 by lia. replace (zlen b + (zlen e + zlen r) - zlen b - zlen e) with (zlen r) by lia.
          apply zsub_full. }
        rewrite zsub_zsub in E by lia. transitivity (zsub (f_str self) (i + (zlen b + zlen e)) (i + (zlen b + (zlen e + zlen r)))); [f_equal; lia|exact E]. }
      rewrite Hrr.
      assert (Hne : exists c0 t0, zsub (f_str self) i (f_stop self) = c0 :: t0).
      { rewrite Ht. unfold e. destruct b; cbn [app]; eauto. }
      destruct Hne as (c0 & t0 & Hne). rewrite Hne. f_equal.
      rewrite (ito_str_zsub _ Hw), Ec. cbn [f_str f_start f_stop].
      assert (Hsub : forall k, 0 <= k <= f_stop self - i -> zsub (f_str self) i (i + k) = zsub (b ++ e ++ r) 0 k).
      { intros k Hk. rewrite <- Ht. rewrite zsub_zsub by lia. f_equal; lia. }
      destruct keep.
      * replace (i + zlen b + zlen e) with (i + (zlen b + zlen e)) by lia. rewrite Hsub by lia.
        rewrite app_assoc. rewrite zsub_app_l by (rewrite ?zlen_app; lia). rewrite <- zlen_app. apply zsub_full.
      * rewrite Hsub by lia. rewrite zsub_app_l by lia. apply zsub_full.
Qed.

Lemma str_splitlines_eq self keep desc : fwf self ->
  map ito_str (str_splitlines self keep desc) = py_splitlines (ito_str self) keep.
Proof.
  intros H. pose proof H as [H1 H2]. unfold str_splitlines, split_iter.
  destruct (splitlines_loop self keep desc H (length (ito_str self)) (Z.to_nat (f_stop self - f_start self)) (f_start self)) as (Hr & Ht).
  - lia.
  - lia.
  - pose proof (ito_str_len self H) as Hl. unfold zlen, ito_len in Hl. lia.
  - set (r := split_iter_loop _ _ _ _ _ _ _) in *. rewrite <- (ito_str_zsub self H) in Ht.
    change (py_splitlines_fuel (length (ito_str self)) keep (ito_str self)) with (py_splitlines (ito_str self) keep) in Ht.
    rewrite <- Ht. clear Ht.
    destruct (clone_f_seg self (snd r) (f_stop self) (Some desc) H) as (Ec&Hw&_&_); [lia|lia|].
    destruct (Z.ltb_spec (snd r) (f_stop self)).
    + rewrite rev_app_distr. cbn [rev app]. rewrite clone_f_dstop by exact H.
      unfold ito_len. rewrite Ec. cbn [f_start f_stop]. destruct (Z.eqb_spec (f_stop self - snd r) 0); [lia|].
      rewrite map_app. cbn [map]. f_equal. f_equal. rewrite <- Ec. rewrite (ito_str_zsub _ Hw), Ec. reflexivity.
    + destruct (Z.eqb_spec (snd r) (f_stop self)) as [E|E]; [|lia]. rewrite rev_app_distr. cbn [rev app].
      rewrite E in Ec. rewrite E. unfold ito_len. rewrite Ec. cbn [f_start f_stop].
      destruct (Z.eqb_spec (f_stop self - f_stop self) 0); [|lia]. rewrite rev_involutive, app_nil_r. reflexivity.
Qed.

(** -- to_line_col -- *)
Lemma overlap_occ sub l i j : no_self_overlap sub -> occ sub l i -> occ sub l j -> i < j -> i + zlen sub <= j.
Proof.
  intros Hno (Hi1 & Hi2 & Hi3) (Hj1 & Hj2 & Hj3) Hij.
  destruct (Z_le_dec (i + zlen sub) j); [lia|]. exfalso.
  apply (Hno (j - i)); [lia|].
  transitivity (zsub l j (i + zlen sub)).
  - rewrite <- Hi3 at 1. rewrite zsub_zsub by lia. f_equal; lia.
  - rewrite <- Hj3 at 2. rewrite zsub_zsub by lia. f_equal; lia.
Qed.

Fixpoint occ_positions (sub l : pystr) : Z :=
  match l with
  | [] => 0
  | _ :: l' => (if prefixb sub l then 1 else 0) + occ_positions sub l'
  end.

Lemma occs_before_count sub s n : sub <> [] -> 0 <= n <= zlen s ->
  zlen (occs_before sub s n) = occ_positions sub (zsub s 0 n).
Proof.
  intros Hne Hn. unfold occs_before.
  assert (G : forall a, 0 <= a -> a <= n -> zlen (filter (fun k => prefixb sub (zsub s k n)) (zrange a n)) = occ_positions sub (zsub s a n)).
  { intros a. pattern a. apply (zrange_up _ n); clear a.
    - intros a Ha _ _. rewrite zrange_nil, zsub_nil by lia. reflexivity.
    - intros a Ha IH H0 Hle. rewrite zrange_cons by lia. destruct (zget_some s a) as [c Hc]; [lia|].
      cbn [filter]. rewrite (zsub_step s a n c Hc) by lia. cbn [occ_positions].
      rewrite <- IH by lia. destruct (prefixb sub (c :: zsub s (a + 1) n)); [rewrite zlen_cons|]; lia. }
  apply G; lia.
Qed.

Lemma occ_positions_app sub a b : (forall i, 0 <= i < zlen a -> ~ occ sub (a ++ b) i) ->
  occ_positions sub (a ++ b) = occ_positions sub b.
Proof.
  induction a as [|x a IH]; intros H; [reflexivity|]. cbn [app occ_positions].
  destruct (prefixb sub (x :: a ++ b)) eqn:E.
  - exfalso. apply (H 0); [rewrite zlen_cons; pose proof (zlen_nonneg a); lia|]. apply occ_0. exact E.
  - rewrite IH; [lia|]. intros i Hi Ho. apply (H (1 + i)); [rewrite zlen_cons; lia|].
    cbn [app]. apply occ_cons. repeat split; try lia; auto; apply Ho.
Qed.
Lemma occ_suffix sub a b i : 0 <= i -> occ sub (a ++ b) (zlen a + i) <-> occ sub b i.
Proof.
  intros Hi. unfold occ. rewrite zlen_app. rewrite zsub_app_r by lia.
  replace (zlen a + i - zlen a) with i by lia. replace (zlen a + i + zlen sub - zlen a) with (i + zlen sub) by lia.
  pose proof (zlen_nonneg a). split; intros (?&?&?); repeat split; auto; lia.
Qed.
Lemma count_positions sub : sub <> [] -> no_self_overlap sub -> forall n l, (length l <= n)%nat ->
  count_in n sub l = occ_positions sub l.
Proof.
  intros Hne Hno. induction n as [|n IH]; intros l Hl.
  - destruct l; [reflexivity|cbn in Hl; lia].
  - destruct l as [|x l]; [reflexivity|]. cbn [count_in occ_positions]. cbn [length] in Hl.
    destruct (prefixb sub (x :: l)) eqn:E; [|rewrite (IH l) by lia; lia].
    rewrite IH by (rewrite skipn_length; cbn [length]; destruct sub; [congruence|]; cbn [length]; lia).
    f_equal. pose proof E as Eo. apply prefixb_spec in E. destruct E as [r Er].
    rewrite Er. rewrite skipn_app, skipn_all, Nat.sub_diag. cbn [skipn app].
    destruct sub as [|c sub']; [congruence|]. cbn [app] in Er. injection Er as -> Er. rewrite Er.
    symmetry. apply occ_positions_app. intros i Hi Ho.
    assert (Ho' : occ (c :: sub') (c :: sub' ++ r) (1 + i)) by (apply occ_cons; repeat split; try lia; auto; apply Ho).
    assert (H0' : occ (c :: sub') (c :: sub' ++ r) 0) by (apply occ_0; rewrite <- Er; exact Eo).
    pose proof (overlap_occ _ _ _ _ Hno H0' Ho' ltac:(lia)) as Hlt. rewrite zlen_cons in Hlt. lia.
Qed.

(** occurrences in s[0:n] split at the last one *)
Lemma occ_positions_last sub l k : sub <> [] -> no_self_overlap sub -> occ sub l k -> (forall j, occ sub l j -> j <= k) ->
  occ_positions sub l = occ_positions sub (zsub l 0 k) + 1.
Proof.
  intros Hne Hno Ho Hmax. pose proof (nonempty_zlen sub Hne) as Hsl.
  remember (length l) as n eqn:Hn. revert l k Hn Ho Hmax. induction n as [|n IH]; intros l k Hn Ho Hmax.
  - destruct l; [|discriminate]. destruct Ho as (?&?&?). rewrite zlen_nil in *. lia.
  - destruct l as [|x l]; [discriminate|]. injection Hn as Hn. cbn [occ_positions].
    destruct (Z.eq_dec k 0) as [->|Hk].
    + rewrite zsub_nil by lia. cbn [occ_positions]. rewrite (proj1 (occ_0 sub (x :: l)) Ho).
      assert (Hz : forall l', (forall j, ~ occ sub l' j) -> occ_positions sub l' = 0).
      { clear - Hne. induction l' as [|y l' IH]; intros H; [reflexivity|]. cbn [occ_positions].
        destruct (prefixb sub (y :: l')) eqn:E; [exfalso; apply (H 0); apply occ_0; exact E|].
        rewrite IH; [reflexivity|]. intros j Hj. apply (H (1 + j)). apply occ_cons. pose proof Hj as (?&_). repeat split; try lia; auto; apply Hj. }
      rewrite Hz; [lia|]. intros j Hj. pose proof Hj as (?&_).
      assert (occ sub (x :: l) (1 + j)) by (apply occ_cons; repeat split; try lia; auto; apply Hj).
      specialize (Hmax _ H0). lia.
    + pose proof Ho as (Hk0 & Hk1 & _).
      assert (Hok : occ sub l (k - 1)).
      { replace k with (1 + (k - 1)) in Ho by lia. apply occ_cons in Ho. destruct Ho as (_ & _ & Ho). apply Ho. lia. }
      rewrite (IH l (k - 1)); auto.
      2:{ intros j Hj. pose proof Hj as (?&_). assert (occ sub (x :: l) (1 + j)) by (apply occ_cons; repeat split; try lia; auto; apply Hj).
          specialize (Hmax _ H0). lia. }
      rewrite zsub_cons0 by lia. cbn [occ_positions].
      (* prefix at x in l  <->  prefix in the truncated list: the occurrence at 0 ends before k *)
      assert (Hp : prefixb sub (x :: l) = prefixb sub (x :: zsub l 0 (k - 1))).
      { rewrite <- (zsub_cons0 x l k) by lia.
        destruct (prefixb sub (x :: l)) eqn:E.
        - symmetry. apply prefixb_zsub. apply occ_0 in E. pose proof (overlap_occ _ _ _ _ Hno E Ho ltac:(lia)).
          rewrite zsub_len by lia. split; [lia|]. rewrite zsub_zsub by lia.
          destruct E as (_ & _ & E). rewrite <- E at 2. f_equal; lia.
        - symmetry. destruct (prefixb sub (zsub (x :: l) 0 k)) eqn:E2; [|reflexivity].
          apply prefixb_zsub in E2. rewrite zsub_len in E2 by lia. destruct E2 as [E2 E3]. rewrite zsub_zsub in E3 by lia.
          rewrite (proj2 (prefixb_zsub sub (x :: l))) in E; [discriminate|]. split; [lia|].
          rewrite <- E3 at 2. f_equal; lia. }
      rewrite Hp. lia.
Qed.

Lemma to_line_col_eq i eol : fwf i -> eol <> [] -> no_self_overlap eol ->
  fst (to_line_col i eol) = 1 + zlen (occs_before eol (f_str i) (f_start i)) /\
  (forall k, occ eol (f_str i) k -> k + zlen eol <= f_start i ->
     (forall j, occ eol (f_str i) j -> j + zlen eol <= f_start i -> j <= k) ->
     snd (to_line_col i eol) = 1 + (f_start i - (k + zlen eol))) /\
  ((forall k, occ eol (f_str i) k -> ~ k + zlen eol <= f_start i) -> snd (to_line_col i eol) = 1 + f_start i).
Proof.
  intros H Hne Hno. pose proof H as [H1 H2]. unfold to_line_col.
  rewrite occs_before_count by (auto; lia).
  rewrite py_rfind_abs by lia.
  pose proof (nonempty_zlen eol Hne) as Hel.
  destruct (rfind_in eol (zsub (f_str i) 0 (f_start i))) as [k|] eqn:F.
  - pose proof (rfind_in_Some _ _ _ F) as [Fo Fm]. pose proof Fo as (Hk0 & Hk1 & _). rewrite zsub_len in Hk1 by lia.
    destruct (Z.eqb_spec (0 + k) (-1)); [lia|]. cbn [fst snd]. split; [|split].
    + rewrite (occ_positions_last eol _ k Hne Hno Fo Fm).
      rewrite zsub_zsub by lia. replace (0 + 0) with 0 by lia.
      unfold py_count. rewrite adj_start_in, adj_end_in by lia.
      destruct (Z.ltb_spec (0 + k - 0) (zlen eol)).
      * assert (Hsh : forall l, zlen l < zlen eol -> occ_positions eol l = 0).
        { clear. induction l as [|x l IH]; intros Hl; [reflexivity|]. cbn [occ_positions].
          destruct (prefixb eol (x :: l)) eqn:E; [apply prefixb_len in E; lia|]. rewrite zlen_cons in Hl. rewrite IH by lia. reflexivity. }
        rewrite Hsh; [lia|]. rewrite zsub_len by lia. lia.
      * destruct eol as [|c eol'] eqn:Ee; [congruence|]. rewrite <- Ee in *. cbv zeta. rewrite count_positions by (auto; lia).
        replace (0 + k) with k by lia. lia.
    + intros k' Ho' Hle Hmx.
      assert (k' <= k).
      { apply Fm. apply occ_window; try lia. replace (0 + k') with k' by lia. destruct Ho' as (?&?&?). repeat split; auto; lia. }
      assert (k <= k').
      { apply Hmx; [|lia]. apply occ_window in Fo; try lia. destruct Fo as (_&_&Fo). replace (0 + k) with k in Fo by lia. exact Fo. }
      lia.
    + intros Hnone. exfalso. apply (Hnone k); [|lia]. apply occ_window in Fo; try lia. destruct Fo as (_&_&Fo). replace (0 + k) with k in Fo by lia. exact Fo.
  - cbn [Z.eqb fst snd]. cbn. pose proof (proj1 (rfind_in_None _ _) F) as Fn. split; [|split].
    + assert (Hz : forall l', (forall j, ~ occ eol l' j) -> occ_positions eol l' = 0).
      { clear. induction l' as [|y l' IH]; intros H; [reflexivity|]. cbn [occ_positions].
        destruct (prefixb eol (y :: l')) eqn:E; [exfalso; apply (H 0); apply occ_0; exact E|].
        rewrite IH; [reflexivity|]. intros j Hj. apply (H (1 + j)). apply occ_cons. pose proof Hj as (?&_). repeat split; try lia; auto; apply Hj. }
      rewrite Hz by exact Fn. reflexivity.
    + intros k Ho Hle _. exfalso. apply (Fn k). apply occ_window; try lia. replace (0 + k) with k by lia. destruct Ho as (?&?&?). repeat split; auto; lia.
    + intros _. lia.
Qed.

(** -- from_substrings -- *)
Lemma from_substrings_spec s j desc : forall subs i, 0 <= i -> i <= j -> j <= zlen s ->
  let r := from_substrings s i j subs desc in
  (snd r = None /\ leftmost_chain s i j subs (fst r)) \/
  (snd r = Some ValueError /\ exists sub rest done, subs = done ++ sub :: rest /\ leftmost_chain s i j done (fst r) /\
      let i' := match rev (fst r) with [] => i | x :: _ => f_stop x end in
      forall k, i' <= k -> k + zlen sub <= j -> ~ occ sub s k).
Proof.
  induction subs as [|sub subs IH]; intros i Hi Hij Hj; cbn [from_substrings]; cbv zeta.
  - left. split; [reflexivity|exact I].
  - unfold py_index_of. pose proof (py_find_char s sub (Some i) (Some j)) as Hc. cbv zeta in Hc.
    rewrite adj_start_in, adj_end_in in Hc by lia.
    set (f := py_find s sub (Some i) (Some j)) in *. pose proof (zlen_nonneg sub).
    destruct (Z.eqb_spec f (-1)) as [E|E].
    + right. cbn [fst snd]. split; [reflexivity|]. exists sub, subs, []. split; [reflexivity|]. split; [exact I|]. cbn [rev].
      destruct Hc as [(_ & Hc)|(Hc & _)]; [exact Hc|lia].
    + destruct Hc as [(Hc & _)|(Hc1 & Hc2 & Hc3 & Hc4)]; [congruence|].
      assert (Ex : ito_of_str s (Some f) (Some (f + zlen sub)) desc = FI s f (f + zlen sub) desc None).
      { unfold ito_of_str. rewrite from_indices_id by lia. reflexivity. }
      rewrite Ex. cbn [fst snd]. specialize (IH (f + zlen sub) ltac:(lia) ltac:(lia) Hj). cbv zeta in IH.
      assert (Hhead : forall subs' l, leftmost_chain s (f + zlen sub) j subs' l ->
         leftmost_chain s i j (sub :: subs') (FI s f (f + zlen sub) desc None :: l)).
      { intros subs' l Hl. cbn [leftmost_chain f_str f_start f_stop]. repeat split; auto; try lia.
        rewrite ito_str_zsub by (unfold fwf; cbn [f_str f_start f_stop]; lia). cbn [f_str f_start f_stop]. apply Hc3. }
      destruct IH as [(IH1 & IH2)|(IH1 & sub' & rest & done & IH2 & IH3 & IH4)].
      * left. split; [exact IH1|]. apply Hhead. exact IH2.
      * right. split; [exact IH1|]. exists sub', rest, (sub :: done). split; [cbn; congruence|]. split; [apply Hhead; exact IH3|].
        cbn [rev]. destruct (rev (fst (from_substrings s (f + zlen sub) j subs desc))); cbn [app]; exact IH4.
Qed.
