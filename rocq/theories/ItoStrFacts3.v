(** Proofs: whitespace splitting, splitlines, regex splitting, to_line_col,
    from_substrings. *)
From Verif Require Export ItoStrFacts2.

(** -- whitespace split, forward -- *)
Section WS.
Context (isspace : Z -> bool) (self : fito) (Hwf : fwf self).
Let s := f_str self.
Let e := f_stop self.
Let nonsp := fun c => negb (isspace c).

Lemma nn_word : forall k nw, f_start self <= nw -> nw < k -> k <= e ->
  nn_loop isspace self 1 (zrange k e) (Some nw) (k - 1) =
  Ok (Some (clone_f self (Some nw) (Some (k + zlen (take_while nonsp (zsub s k e)))) None)).
Proof.
  pose proof Hwf as [H1 H2]. intros k. pattern k. apply (zrange_up _ e); clear k.
  - intros k Hk nw Hn Hkn Hke. rewrite zrange_nil, zsub_nil by lia. cbn [nn_loop take_while].
    rewrite zlen_nil. change (1 =? 1) with true. cbv beta iota zeta. do 3 f_equal. f_equal. lia.
  - intros k Hk IH nw Hn Hkn Hke. rewrite zrange_cons by lia. cbn [nn_loop].
    unfold char_at. destruct (zget_some s k) as [c Hc]; [unfold e, s in *; lia|]. fold s. rewrite Hc.
    rewrite (zsub_step _ _ _ _ Hc) by lia. cbn [take_while]. unfold nonsp at 1.
    destruct (isspace c); cbn [negb].
    + rewrite zlen_nil. change (1 =? 1) with true. cbv beta iota zeta. do 3 f_equal. f_equal. lia.
    + rewrite zlen_cons. pose proof (IH nw ltac:(lia) ltac:(lia) ltac:(lia)) as Hn'. replace (k + 1 - 1) with k in Hn' by lia. rewrite Hn'. do 4 f_equal. lia.
Qed.
Lemma nn_skip : forall k last, f_start self <= k -> k <= e -> 
  nn_loop isspace self 1 (zrange k e) None last =
  match drop_while isspace (zsub s k e) with
  | [] => Ok None
  | d => Ok (Some (clone_f self (Some (e - zlen d)) (Some (e - zlen d + zlen (take_while nonsp d))) None))
  end.
Proof.
  pose proof Hwf as [H1 H2]. intros k. pattern k. apply (zrange_up _ e); clear k.
  - intros k Hk last Hs Hke. rewrite zrange_nil, zsub_nil by lia. reflexivity.
  - intros k Hk IH last Hs Hke. rewrite zrange_cons by lia. cbn [nn_loop].
    unfold char_at. destruct (zget_some s k) as [c Hc]; [unfold e, s in *; lia|]. fold s. rewrite Hc.
    rewrite (zsub_step _ _ _ _ Hc) by lia. cbn [drop_while].
    destruct (isspace c) eqn:Ec.
    + apply IH; lia.
    + pose proof (nn_word (k + 1) k ltac:(lia) ltac:(lia) ltac:(lia)) as Hn'. replace (k + 1 - 1) with k in Hn' by lia. rewrite Hn'. do 2 f_equal.
      rewrite zlen_cons. rewrite zsub_len by (unfold s, e in *; lia).
      cbn [take_while]. unfold nonsp at 2. rewrite Ec. cbn [negb]. rewrite zlen_cons.
      f_equal; f_equal; lia.
Qed.
End WS.

Lemma take_while_len p s : zlen (take_while p s) <= zlen s.
Proof. induction s as [|c s IH]; cbn; [lia|]. destruct (p c); rewrite ?zlen_cons, ?zlen_nil; pose proof (zlen_nonneg s); lia. Qed.
Lemma drop_while_len p s : zlen (drop_while p s) <= zlen s.
Proof.
  induction s as [|c s IH]; cbn; [lia|]. destruct (p c); rewrite ?zlen_cons; lia.
Qed.
Lemma drop_while_suffix p s a b : 0 <= a -> a <= b -> b <= zlen s ->
  drop_while p (zsub s a b) = zsub s (b - zlen (drop_while p (zsub s a b))) b.
Proof.
  intros Ha Hab Hb. pose proof (drop_while_split p (zsub s a b)) as Hd.
  pose proof (zsub_len s a b Ha Hab Hb) as Hl.
  set (t := take_while p (zsub s a b)) in *. set (d := drop_while p (zsub s a b)) in *.
  assert (Hlt : zlen t + zlen d = b - a) by (rewrite <- Hl, Hd, zlen_app; reflexivity).
  pose proof (zlen_nonneg t). pose proof (zlen_nonneg d).
  assert (E : zsub (zsub s a b) (b - a - zlen d) (b - a) = d).
  { rewrite Hd. rewrite zsub_app_r by lia. replace (b - a - zlen d - zlen t) with 0 by lia.
    replace (b - a - zlen t) with (zlen d) by lia. apply zsub_full. }
  rewrite <- E at 1. rewrite zsub_zsub by lia. f_equal; lia.
Qed.
Lemma take_while_prefix p s : take_while p s = zsub s 0 (zlen (take_while p s)).
Proof.
  pose proof (drop_while_split p s) as Hd. rewrite Hd at 2. rewrite zsub_app_l by lia. symmetry; apply zsub_full.
Qed.
Lemma drop_while_nil_all p s : forallb p s = true -> drop_while p s = [].
Proof. induction s as [|c s IH]; cbn; [reflexivity|]. destruct (p c); cbn; [exact IH|discriminate]. Qed.
Lemma skipn_zsub {A} (s : list A) n : skipn n s = zsub s (Z.of_nat n) (zlen s).
Proof.
  unfold zsub, zlen. rewrite firstn_all2; [f_equal; lia|]. rewrite skipn_length. lia.
Qed.
Lemma take_while_nonempty isspace d : d <> [] -> (forall c r, d = c :: r -> isspace c = false) ->
  1 <= zlen (take_while (fun c => negb (isspace c)) d).
Proof.
  destruct d as [|c r]; [congruence|]. intros _ H. cbn. rewrite (H c r eq_refl). cbn [negb]. rewrite zlen_cons.
  pose proof (zlen_nonneg (take_while (fun c => negb (isspace c)) r)). lia.
Qed.

(** unfolding of the reference split, for a nonempty remainder *)
Lemma wsplit_unfold n isspace t m :
  py_wsplit_fuel (S n) isspace t m =
  match drop_while isspace t with
  | [] => []
  | d => if m =? 0 then [d]
         else take_while (fun c => negb (isspace c)) d
              :: py_wsplit_fuel n isspace (skipn (length (take_while (fun c => negb (isspace c)) d)) d) (m - 1)
  end.
Proof. cbn [py_wsplit_fuel]. destruct (drop_while isspace t); reflexivity. Qed.

Definition last_stop (i : Z) (ps : list fito) : Z := match rev ps with [] => i | p :: _ => f_stop p end.
Lemma last_stop_cons i p ps : last_stop i (p :: ps) = last_stop (f_stop p) ps.
Proof. unfold last_stop. cbn [rev]. destruct (rev ps); reflexivity. Qed.

Lemma wsplit_loop_spec isspace self : fwf self -> f_start self = 0 ->
  forall n n' i m, 0 <= i <= f_stop self ->
  (Z.to_nat (f_stop self - i) < n)%nat -> (Z.to_nat (f_stop self - i) < n')%nat ->
  exists ps m', wsplit_loop n isspace self i m = Ok (ps, m') /\
    0 <= last_stop i ps <= f_stop self /\ Forall (fun p => within p self) ps /\
    map ito_str ps ++ (if m' =? 0 then
         match drop_while isspace (zsub (f_str self) (last_stop i ps) (f_stop self)) with [] => [] | d => [d] end
       else []) = py_wsplit_fuel n' isspace (zsub (f_str self) i (f_stop self)) m.
Proof.
  intros H H0. pose proof H as [H1 H2].
  induction n as [|n IH]; intros n' i m Hi Hn Hn'; [lia|]. destruct n' as [|n']; [lia|].
  rewrite wsplit_unfold. cbn [wsplit_loop]. unfold nearest_non_ws. rewrite H0, Z.add_0_r.
  rewrite nn_skip by (auto; lia).
  destruct (drop_while isspace (zsub (f_str self) i (f_stop self))) as [|c r] eqn:Ed.
  - cbn [bind]. exists [], m. unfold last_stop; cbn [rev map app]. rewrite Ed.
    split; [reflexivity|]. split; [lia|]. split; [constructor|]. destruct (m =? 0); reflexivity.
  - cbn [bind]. pose proof (drop_while_suffix isspace (f_str self) i (f_stop self) ltac:(lia) ltac:(lia) H2) as Hsuf.
    pose proof (drop_while_len isspace (zsub (f_str self) i (f_stop self))) as Hdl.
    rewrite Ed in Hsuf, Hdl. rewrite zsub_len in Hdl by lia.
    set (d := c :: r) in *.
    pose proof (take_while_len (fun c => negb (isspace c)) d) as Htl.
    assert (Hd1 : 1 <= zlen (take_while (fun c => negb (isspace c)) d)).
    { apply take_while_nonempty; [subst d; discriminate|]. intros c' r' E'. unfold d in E'. inversion E'; subst.
      eapply drop_while_hd; exact Ed. }
    pose proof (take_while_prefix (fun c => negb (isspace c)) d) as Htp.
    set (w := take_while (fun c => negb (isspace c)) d) in *.
    set (a := f_stop self - zlen d) in *.
    destruct (Z.eqb_spec m 0) as [->|Em].
    + exists [], 0. unfold last_stop; cbn [rev map app]. rewrite Ed. cbn [Z.eqb].
      split; [reflexivity|]. split; [lia|]. split; [constructor|]. reflexivity.
    + destruct (clone_f_seg self a (a + zlen w) None H) as (Ec&Hw&Hin&Htt); [unfold a; lia|unfold a; lia|].
      rewrite Ec. cbn [f_stop].
      destruct (IH n' (a + zlen w) (m - 1)) as (ps & m' & E & Hls & Hfor & Ht); [unfold a; lia|unfold a; lia|unfold a; lia|].
      rewrite E. cbn [bind fst snd].
      eexists (_ :: ps), m'. split; [reflexivity|]. rewrite last_stop_cons. cbn [f_stop].
      split; [lia|]. split; [constructor; [rewrite <- Ec; exact Hin|exact Hfor]|].
      cbn [map app]. f_equal.
      * rewrite <- Ec. rewrite (ito_str_zsub _ Hw), Ec. cbn [f_str f_start f_stop].
        etransitivity; [|symmetry; exact Htp].
        transitivity (zsub (zsub (f_str self) a (f_stop self)) 0 (zlen w)); [|rewrite <- Hsuf; reflexivity].
        rewrite zsub_zsub by (unfold a; lia). f_equal; lia.
      * rewrite Ht. f_equal. rewrite skipn_zsub. fold (zlen w). change (Z.of_nat (length w)) with (zlen w).
        transitivity (zsub (zsub (f_str self) a (f_stop self)) (zlen w) (zlen d)); [|rewrite <- Hsuf; reflexivity].
        rewrite zsub_zsub by (unfold a; lia). f_equal; unfold a; lia.
Qed.

Lemma py_wsplit_nil_str isspace m : py_wsplit isspace [] m = [].
Proof. reflexivity. Qed.

Lemma str_wsplit_eq isspace self m fuel : fwf self -> f_start self = 0 ->
  (Z.to_nat (ito_len self) < fuel)%nat ->
  exists rs, str_wsplit fuel isspace self m = Ok rs /\
    map ito_str rs = py_wsplit isspace (ito_str self) m /\ Forall (fun p => within p self) rs.
Proof.
  intros H H0 Hf. pose proof H as [H1 H2]. unfold str_wsplit.
  destruct (f_str self) as [|c0 s0] eqn:Es.
  - exists []. split; [reflexivity|]. split; [|constructor].
    assert (Hz : zlen (ito_str self) = 0) by (rewrite (ito_str_len self H); unfold ito_len; rewrite zlen_nil in H2; lia).
    apply zlen_0 in Hz. rewrite Hz. reflexivity.
  - rewrite <- Es in *. clear Es.
    destruct (wsplit_loop_spec isspace self H H0 fuel (S (length (ito_str self))) 0 m) as (ps & m' & E & Hls & Hfor & Ht).
    + lia.
    + unfold ito_len in Hf. lia.
    + pose proof (ito_str_len self H) as Hl. unfold zlen, ito_len in Hl. lia.
    + rewrite E. cbn [bind]. 
      assert (Hstr : ito_str self = zsub (f_str self) 0 (f_stop self)) by (rewrite (ito_str_zsub self H), H0; reflexivity).
      rewrite <- Hstr in Ht.
      change (py_wsplit_fuel (S (length (ito_str self))) isspace (ito_str self) m) with (py_wsplit isspace (ito_str self) m) in Ht.
      rewrite <- Ht. clear Ht E.
      assert (Hls' : match rev ps with [] => f_start self | s :: _ => f_stop s end = last_stop 0 ps)
        by (unfold last_stop; rewrite H0; reflexivity).
      rewrite Hls'. destruct (m' =? 0).
      2:{ exists ps. rewrite app_nil_r. auto. }
      set (a := last_stop 0 ps) in *.
      destruct (clone_f_seg self a (f_stop self) None H) as (Ec&Hw&Hin&Htt); [lia|lia|].
      rewrite clone_f_dstop by exact H.
      destruct (str_lstrip_eff isspace (clone_f self (Some a) (Some (f_stop self)) None) None Hw) as [(Hin2 & Hw2 & Ht2) _].
      set (tl := deref _ _) in *. cbn [eff_set] in Ht2.
      rewrite (ito_str_zsub _ Hw), Ec in Ht2. cbn [f_str f_start f_stop] in Ht2.
      pose proof (ito_str_len tl Hw2) as Htl. rewrite Ht2 in Htl.
      exists (if 0 <? ito_len tl then ps ++ [tl] else ps). split; [reflexivity|].
      destruct (drop_while isspace (zsub (f_str self) a (f_stop self))) as [|c r] eqn:Ed.
      * rewrite zlen_nil in Htl. destruct (Z.ltb_spec 0 (ito_len tl)); [lia|]. rewrite app_nil_r. auto.
      * rewrite zlen_cons in Htl. pose proof (zlen_nonneg r).
        destruct (Z.ltb_spec 0 (ito_len tl)); [|lia]. rewrite map_app. cbn [map]. rewrite Ht2. split; [reflexivity|].
        apply Forall_app. split; [exact Hfor|]. constructor; [|constructor]. eapply within_trans; eauto.
Qed.

(** -- whitespace split, backward (start = 0) -- *)
Lemma zrange_down_nil a b : a <= b -> zrange_down a b = [].
Proof. intros. unfold zrange_down. rewrite zrange_nil by lia. reflexivity. Qed.
Lemma zrange_nat_shift n : forall a d, zrange_nat (a + d) n = map (fun k => k + d) (zrange_nat a n).
Proof.
  induction n as [|n IH]; intros a d; [reflexivity|]. cbn [zrange_nat map]. f_equal.
  rewrite <- IH. f_equal. lia.
Qed.
Lemma zrange_down_cons a b : b < a -> zrange_down a b = a :: zrange_down (a - 1) b.
Proof.
  intros. unfold zrange_down. rewrite zrange_cons by lia. cbn [map]. f_equal; [lia|].
  replace (a - 1 + 1) with a by lia. unfold zrange.
  replace (Z.to_nat (a + 1 - (b + 1 + 1))) with (Z.to_nat (a - (b + 1))) by lia.
  rewrite (zrange_nat_shift _ (b + 1) 1). rewrite map_map. apply map_ext. intros; lia.
Qed.
Lemma zdown_ind (P : Z -> Prop) b : (forall a, a <= b -> P a) -> (forall a, b < a -> P (a - 1) -> P a) -> forall a, P a.
Proof.
  intros H0 H1 a. remember (Z.to_nat (a - b)) as n eqn:Hn. revert a Hn. induction n as [|n IH]; intros a Hn.
  - apply H0. lia.
  - apply H1; [lia|]. apply IH. lia.
Qed.

Section WSR.
Context (isspace : Z -> bool) (self : fito) (Hwf : fwf self) (H0 : f_start self = 0).
Let s := f_str self.
Let e := f_stop self.
Let nonsp := fun c => negb (isspace c).

Lemma rnn_word : forall k nw, -1 <= k -> k < nw -> nw < e ->
  nn_loop isspace self (-1) (zrange_down k (-1)) (Some nw) (k + 1) =
  Ok (Some (clone_f self (Some (k + 1 - zlen (take_while nonsp (rev (zsub s 0 (k + 1)))))) (Some (nw + 1)) None)).
Proof.
  pose proof Hwf as [H1 H2]. intros k. pattern k. apply (zdown_ind _ (-1)); clear k.
  - intros k Hk nw Hm Hkn Hke. rewrite zrange_down_nil, zsub_nil by lia. cbn [nn_loop take_while rev].
    rewrite zlen_nil. change (-1 =? 1) with false. cbv beta iota zeta. do 3 f_equal. f_equal. lia.
  - intros k Hk IH nw Hm Hkn Hke. rewrite zrange_down_cons by lia. cbn [nn_loop].
    unfold char_at. destruct (zget_some s k) as [c Hc]; [unfold e, s in *; lia|]. fold s. rewrite Hc.
    rewrite (zsub_snoc s 0 k c ltac:(lia) ltac:(lia) Hc). rewrite rev_app_distr. cbn [rev app take_while]. unfold nonsp at 1.
    destruct (isspace c); cbn [negb].
    + rewrite zlen_nil. change (-1 =? 1) with false. cbv beta iota zeta. do 3 f_equal. f_equal. lia.
    + rewrite zlen_cons. pose proof (IH nw ltac:(lia) ltac:(lia) ltac:(lia)) as Hn'. replace (k - 1 + 1) with k in Hn' by lia. rewrite Hn'. do 4 f_equal. lia.
Qed.
Lemma rnn_skip : forall k last, -1 <= k -> k < e ->
  nn_loop isspace self (-1) (zrange_down k (-1)) None last =
  match drop_while isspace (rev (zsub s 0 (k + 1))) with
  | [] => Ok None
  | d => Ok (Some (clone_f self (Some (zlen d - zlen (take_while nonsp d))) (Some (zlen d)) None))
  end.
Proof.
  pose proof Hwf as [H1 H2]. intros k. pattern k. apply (zdown_ind _ (-1)); clear k.
  - intros k Hk last Hm Hke. rewrite zrange_down_nil, zsub_nil by lia. reflexivity.
  - intros k Hk IH last Hm Hke. rewrite zrange_down_cons by lia. cbn [nn_loop].
    unfold char_at. destruct (zget_some s k) as [c Hc]; [unfold e, s in *; lia|]. fold s. rewrite Hc.
    rewrite (zsub_snoc s 0 k c ltac:(lia) ltac:(lia) Hc). rewrite rev_app_distr. cbn [rev app drop_while].
    destruct (isspace c) eqn:Ec.
    + rewrite IH by lia. replace (k - 1 + 1) with k by lia. reflexivity.
    + pose proof (rnn_word (k - 1) k ltac:(lia) ltac:(lia) ltac:(lia)) as Hn'. replace (k - 1 + 1) with k in Hn' by lia. rewrite Hn'. do 2 f_equal.
      rewrite !zlen_cons, zlen_rev. rewrite zsub_len by (unfold s, e in *; lia).
      cbn [take_while]. unfold nonsp at 2. rewrite Ec. cbn [negb]. rewrite zlen_cons.
      f_equal; f_equal; lia.
Qed.
End WSR.

Definition first_start (i : Z) (ps : list fito) : Z := match ps with [] => i | p :: _ => f_start p end.

(** the remaining reversed text d is the reverse of a prefix *)
Lemma drop_while_rev_prefix p s b : 0 <= b <= zlen s ->
  let d := drop_while p (rev (zsub s 0 b)) in d = rev (zsub s 0 (zlen d)) /\ zlen d <= b.
Proof.
  intros Hb. cbv zeta. pose proof (drop_while_split p (rev (zsub s 0 b))) as Hd.
  set (t := take_while p _) in *. set (d := drop_while p _) in *.
  apply (f_equal (@rev Z)) in Hd. rewrite rev_involutive, rev_app_distr in Hd.
  assert (Hl : zlen d + zlen t = b).
  { apply (f_equal zlen) in Hd. rewrite zlen_app, !zlen_rev, zsub_len in Hd by lia. lia. }
  pose proof (zlen_nonneg t). split; [|lia].
  assert (E : zsub s 0 (zlen d) = rev d).
  { pose proof (zsub_zsub s 0 b 0 (zlen d) ltac:(lia) ltac:(lia) ltac:(lia)) as Hz. rewrite !Z.add_0_l in Hz.
    rewrite <- Hz, Hd. rewrite zsub_app_l by (rewrite ?zlen_rev; lia). rewrite <- (zlen_rev d). apply zsub_full. }
  rewrite E, rev_involutive. reflexivity.
Qed.

Lemma rwsplit_loop_spec isspace self : fwf self -> f_start self = 0 ->
  forall n n' i m rv, -1 <= i < f_stop self ->
  (Z.to_nat (i + 1) < n)%nat -> (Z.to_nat (i + 1) < n')%nat ->
  exists ps m', rwsplit_loop n isspace self i m rv = Ok (ps ++ rv, m') /\
    0 <= first_start (i + 1) ps <= i + 1 /\ Forall (fun p => within p self) ps /\
    (if m' =? 0 then
         match drop_while isspace (rev (zsub (f_str self) 0 (first_start (i + 1) ps))) with [] => [] | d => [rev d] end
       else []) ++ map ito_str ps = rev (map (@rev Z) (py_wsplit_fuel n' isspace (rev (zsub (f_str self) 0 (i + 1))) m)).
Proof.
  intros H H0. pose proof H as [H1 H2].
  induction n as [|n IH]; intros n' i m rv Hi Hn Hn'; [lia|]. destruct n' as [|n']; [lia|].
  rewrite wsplit_unfold. cbn [rwsplit_loop]. unfold nearest_non_ws. rewrite H0, Z.add_0_r.
  replace (0 - 1) with (-1) by lia. rewrite rnn_skip by (auto; lia).
  destruct (drop_while_rev_prefix isspace (f_str self) (i + 1) ltac:(lia)) as [Hpre Hdl].
  destruct (drop_while isspace (rev (zsub (f_str self) 0 (i + 1)))) as [|c r] eqn:Ed.
  - cbn [bind]. exists [], m. unfold first_start; cbn [map app rev]. rewrite Ed.
    split; [reflexivity|]. split; [lia|]. split; [constructor|]. destruct (m =? 0); reflexivity.
  - cbn [bind]. set (d := c :: r) in *.
    pose proof (take_while_len (fun c => negb (isspace c)) d) as Htl.
    assert (Hd1 : 1 <= zlen (take_while (fun c => negb (isspace c)) d)).
    { apply take_while_nonempty; [subst d; discriminate|]. intros c' r' E'. unfold d in E'. inversion E'; subst.
      eapply drop_while_hd; exact Ed. }
    pose proof (take_while_prefix (fun c => negb (isspace c)) d) as Htp.
    set (w := take_while (fun c => negb (isspace c)) d) in *.
    set (a := zlen d - zlen w) in *.
    assert (Hrd : rev d = zsub (f_str self) 0 (zlen d)) by (rewrite Hpre at 1; apply rev_involutive).
    destruct (Z.eqb_spec m 0) as [->|Em].
    + exists [], 0. unfold first_start; cbn [map app rev]. rewrite Ed. cbn [Z.eqb].
      split; [reflexivity|]. split; [lia|]. split; [constructor|]. reflexivity.
    + destruct (clone_f_seg self a (zlen d) None H) as (Ec&Hw&Hin&Htt); [unfold a; lia|unfold a; lia|].
      rewrite Ec. cbn [f_start].
      set (p := FI (f_str self) a (zlen d) (odflt None (f_desc self)) (f_vf self)) in *.
      destruct (IH n' (a - 1) (m - 1) (p :: rv)) as (ps & m' & E & Hls & Hfor & Ht); [unfold a; lia|unfold a; lia|unfold a; lia|].
      exists (ps ++ [p]), m'. rewrite E, <- app_assoc. split; [reflexivity|].
      assert (Hfs : first_start (i + 1) (ps ++ [p]) = first_start (a - 1 + 1) ps).
      { destruct ps; cbn [app first_start]; [unfold p; cbn [f_start]; lia|reflexivity]. }
      rewrite Hfs. split; [lia|].
      split; [apply Forall_app; split; [exact Hfor|constructor; [rewrite <- Ec; exact Hin|constructor]]|].
      rewrite map_app, app_assoc.
      match type of Ht with _ = ?R => transitivity (R ++ [ito_str p]); [f_equal; exact Ht|] end.
      match goal with |- _ = rev (map _ (_ :: ?X)) => change (rev (map (@rev Z) (w :: X))) with (rev (map (@rev Z) X) ++ [rev w]) end.
      cbn [map].
      replace (a - 1 + 1) with a by lia. f_equal.
      * f_equal. f_equal. f_equal. rewrite skipn_zsub. change (Z.of_nat (length w)) with (zlen w).
        (* the rest of d after w is the reverse of the shorter prefix *)
        rewrite <- (rev_involutive (zsub d (zlen w) (zlen d))). f_equal.
        assert (Hdd : d = w ++ zsub d (zlen w) (zlen d)).
        { rewrite Htp at 1. rewrite zsub_app_split by lia. symmetry; apply zsub_full. }
        assert (Hrl : zlen (rev (zsub d (zlen w) (zlen d))) = a) by (rewrite zlen_rev, zsub_len; lia).
        assert (Hrev : rev d = rev (zsub d (zlen w) (zlen d)) ++ rev w) by (rewrite Hdd at 1; apply rev_app_distr).
        assert (Hsub : zsub (f_str self) 0 a = zsub (rev d) 0 a).
        { rewrite Hrd. rewrite zsub_zsub by (unfold a; lia). f_equal; lia. }
        rewrite Hsub, Hrev. rewrite zsub_app_l by lia. rewrite <- Hrl. apply zsub_full.
      * f_equal. rewrite <- Ec. rewrite (ito_str_zsub _ Hw), Ec. unfold p; cbn [f_str f_start f_stop].
        assert (Hdd : d = w ++ zsub d (zlen w) (zlen d)).
        { rewrite Htp at 1. rewrite zsub_app_split by lia. symmetry; apply zsub_full. }
        assert (Hrl : zlen (rev (zsub d (zlen w) (zlen d))) = a) by (rewrite zlen_rev, zsub_len; lia).
        assert (Hrev : rev d = rev (zsub d (zlen w) (zlen d)) ++ rev w) by (rewrite Hdd at 1; apply rev_app_distr).
        assert (Hsub : zsub (f_str self) a (zlen d) = zsub (rev d) a (zlen d)).
        { rewrite Hrd. rewrite zsub_zsub by (unfold a; lia). f_equal; lia. }
        rewrite Hsub, Hrev. rewrite zsub_app_r by lia. rewrite Hrl. replace (a - a) with 0 by lia.
        replace (zlen d - a) with (zlen (rev w)) by (rewrite zlen_rev; unfold a; lia). apply zsub_full.
Qed.

Lemma str_rwsplit_eq isspace self m fuel : fwf self -> f_start self = 0 ->
  (Z.to_nat (ito_len self) < fuel)%nat ->
  exists rs, str_rwsplit fuel isspace self m = Ok rs /\
    map ito_str rs = py_rwsplit isspace (ito_str self) m /\ Forall (fun p => within p self) rs.
Proof.
  intros H H0 Hf. pose proof H as [H1 H2]. unfold str_rwsplit.
  destruct (f_str self) as [|c0 s0] eqn:Es.
  - exists []. split; [reflexivity|]. split; [|constructor].
    assert (Hz : zlen (ito_str self) = 0) by (rewrite (ito_str_len self H); unfold ito_len; rewrite zlen_nil in H2; lia).
    apply zlen_0 in Hz. rewrite Hz. reflexivity.
  - rewrite <- Es in *. clear Es.
    destruct (rwsplit_loop_spec isspace self H H0 fuel (S (length (rev (ito_str self)))) (ito_len self - 1) m []) as (ps & m' & E & Hls & Hfor & Ht).
    + unfold ito_len. lia.
    + lia.
    + rewrite rev_length. pose proof (ito_str_len self H) as Hl. unfold zlen, ito_len in *. lia.
    + rewrite E. cbn [bind]. rewrite app_nil_r. replace (ito_len self - 1 + 1) with (f_stop self) in * by (unfold ito_len; lia).
      assert (Hstr : ito_str self = zsub (f_str self) 0 (f_stop self)) by (rewrite (ito_str_zsub self H), H0; reflexivity).
      rewrite <- Hstr in Ht.
      change (rev (map (@rev Z) (py_wsplit_fuel (S (length (rev (ito_str self)))) isspace (rev (ito_str self)) m))) with (py_rwsplit isspace (ito_str self) m) in Ht.
      rewrite <- Ht. clear Ht E.
      assert (Hls' : match ps with [] => f_stop self | s :: _ => f_start s end = first_start (f_stop self) ps) by reflexivity.
      rewrite Hls'. destruct (m' =? 0).
      2:{ exists ps. auto. }
      set (a := first_start (f_stop self) ps) in *.
      destruct (clone_f_seg self (f_start self) a None H) as (Ec&Hw&Hin&Htt); [lia|lia|].
      rewrite clone_f_dstart by exact H.
      destruct (str_rstrip_eff isspace (clone_f self (Some (f_start self)) (Some a) None) None Hw) as [(Hin2 & Hw2 & Ht2) _].
      set (tl := deref _ _) in *. cbn [eff_set] in Ht2.
      rewrite (ito_str_zsub _ Hw), Ec in Ht2. cbn [f_str f_start f_stop] in Ht2. rewrite H0 in Ht2.
      pose proof (ito_str_len tl Hw2) as Htl. rewrite Ht2 in Htl. rewrite zlen_rev in Htl.
      exists (if 0 <? ito_len tl then tl :: ps else ps). split; [reflexivity|].
      destruct (drop_while isspace (rev (zsub (f_str self) 0 a))) as [|c r] eqn:Ed.
      * rewrite zlen_nil in Htl. destruct (Z.ltb_spec 0 (ito_len tl)); [lia|]. auto.
      * rewrite zlen_cons in Htl. pose proof (zlen_nonneg r).
        destruct (Z.ltb_spec 0 (ito_len tl)); [|lia]. cbn [map app]. rewrite Ht2. split; [reflexivity|].
        constructor; [|exact Hfor]. eapply within_trans; eauto.
Qed.
