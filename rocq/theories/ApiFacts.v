(** Proofs about Api.v. *)
From Verif Require Import SpecApi PyFacts ItoStrFacts FormatFacts FormatFacts2 CombinFacts.

(** ** repr *)
Lemma slice_whole {A} (l : list A) : py_slice l (Some 0) None = l.
Proof. rewrite slice_from by (pose proof (zlen_nonneg l); lia). apply zsub_full. Qed.
Lemma slice_pre {A} (u v : list A) k : 0 <= k <= zlen u -> py_slice (u ++ v) None (Some k) = zsub u 0 k.
Proof. intros H. pose proof (zlen_nonneg v). rewrite slice_to by (rewrite zlen_app; lia). apply zsub_app_l; lia. Qed.
Lemma slice_post {A} (u v : list A) k : 0 <= k <= zlen u -> py_slice (u ++ v) (Some k) None = zsub u k (zlen u) ++ v.
Proof. intros H. pose proof (zlen_nonneg v). rewrite slice_from by (rewrite zlen_app; lia). rewrite <- (zsub_app_split _ k (zlen u)) by (rewrite ?zlen_app; lia). f_equal; [apply zsub_app_l; lia|]. rewrite zsub_app_r by lia. rewrite zlen_app. replace (zlen u - zlen u) with 0 by lia. replace (zlen u + zlen v - zlen u) with (zlen v) by lia. apply zsub_full. Qed.
Lemma repr_text E cls i a b : fmt_env_ok E -> fwf i -> fe_int E (f_start i) [] = Ok a -> fe_int E (f_stop i) [] = Ok b ->
  ito_repr E cls i = Ok (cls ++ lit "(span=(" ++ a ++ lit ", " ++ b ++ lit "), desc=" ++ fe_repr E (odflt (f_desc i) []) ++ lit ", substr=" ++ fe_repr E (zsub (f_str i) (f_start i) (f_stop i)) ++ lit ")").
Proof.
  intros OK W Ha Hb.
  assert (D : fe_digit E 44 = false) by (apply OK; vm_compute; auto 40).
  assert (D2 : fe_digit E 114 = false) by (apply OK; vm_compute; auto 40).
  assert (M1 : fmt_match E (lit "%span, desc=") = Some (FInt DSpan [], lit ", desc=")) by reflexivity.
  assert (M2 : fmt_match E (lit "%desc!r, substr=") = Some (FStr DDesc (Some ([], 114, [])) None, lit ", substr=")) by (cbn; rewrite D2; cbn; rewrite D; reflexivity).
  assert (M3 : fmt_match E (lit "%substr!r") = Some (FStr DSubstr (Some ([], 114, [])) None, [])) by (cbn; rewrite D2; reflexivity).
  assert (M : fmt_matches E repr_spec [5; 17; 33] = [(5, 10, FInt DSpan []); (17, 24, FStr DDesc (Some ([], 114, [])) None); (33, 42, FStr DSubstr (Some ([], 114, [])) None)]).
  { cbn [fmt_matches]. change (py_slice repr_spec (Some 5) (Some 17)) with (lit "%span, desc="). change (py_slice repr_spec (Some 17) (Some 33)) with (lit "%desc!r, substr="). change (py_slice repr_spec (Some 33) None) with (lit "%substr!r"). rewrite M1, M2, M3. reflexivity. }
  assert (F : ito_format E i repr_spec = fmt_replace E i (fmt_matches E repr_spec [5; 17; 33]) repr_spec) by reflexivity.
  unfold ito_repr. rewrite F, M. clear F M M1 M2 M3. cbn [fmt_replace fmt_item fmt_text bind fmt_width fmt_conv]. rewrite Ha, Hb. cbn [bind]. change (114 =? 97) with false. cbv iota. rewrite !slice_whole, (ito_str_zsub i W).
  set (d := fe_repr E (odflt (f_desc i) [])). set (x := fe_repr E (zsub (f_str i) (f_start i) (f_stop i))).
  change (py_slice repr_spec None (Some 33)) with (lit "span=%span, desc=%desc!r, substr="). change (py_slice repr_spec (Some 42) None) with (@nil Z).
  rewrite (slice_pre (lit "span=%span, desc=%desc!r, substr=")) by (vm_compute; split; discriminate). rewrite (slice_post (lit "span=%span, desc=%desc!r, substr=")) by (vm_compute; split; discriminate).
  change (zsub (lit "span=%span, desc=%desc!r, substr=") 0 17) with (lit "span=%span, desc="). change (zsub (lit "span=%span, desc=%desc!r, substr=") 24 (zlen (lit "span=%span, desc=%desc!r, substr="))) with (lit ", substr=").
  rewrite slice_pre by (vm_compute; split; discriminate). rewrite slice_post by (vm_compute; split; discriminate).
  change (zsub (lit "span=%span, desc=") 0 5) with (lit "span="). change (zsub (lit "span=%span, desc=") 10 (zlen (lit "span=%span, desc="))) with (lit ", desc=").
  rewrite app_nil_r. f_equal. f_equal. rewrite <- !app_assoc. reflexivity.
Qed.

(** ** from_spans *)
Lemma spans_str src spans desc : Forall2 (fun s x => fwf x /\ f_str x = src /\ f_desc x = desc /\ ito_str x = py_slice src (fst s) (snd s)) spans (from_spans_str src spans desc).
Proof. unfold from_spans_str. induction spans as [|s r IH]; [constructor|]. cbn [map]. constructor; [|exact IH]. exact (conj (ito_of_str_wf _ _ _ _) (conj eq_refl (conj eq_refl (ito_of_str_text _ _ _ _)))). Qed.
Lemma spans_ito src spans desc : fwf src -> exists l, from_spans_ito src spans desc = (l, None) /\
  Forall2 (fun s x => fwf x /\ within x src /\ f_desc x = desc /\ ito_str x = py_slice (ito_str src) (fst s) (snd s)) spans l.
Proof.
  intros W. induction spans as [|s r (l & E & F)]; [exists []; split; [reflexivity|constructor]|]. destruct (ito_of_ito_facts src (fst s) (snd s) desc W) as (x & Ex & Wx & Wi & Tx & Dx).
  exists (x :: l). cbn [from_spans_ito]. rewrite Ex, E. split; [reflexivity|]. constructor; [|exact F]. auto.
Qed.
(** ** values *)
Definition in_step (o : vobjs) (fs : list (option nat)) : Prop :=
  length o = length fs /\ forall i, (i < length o)%nat -> vo_func (vo o i) = func_of fs i /\ vo_attr (vo o i) = match func_of fs i with Some f => Some (f, i) | None => None end.
Lemma put_length {A} i (x : A) l : (i < length l)%nat -> length (put i x l) = length l.
Proof. intros H. unfold put. rewrite !app_length, firstn_length, skipn_length. cbn [length]. lia. Qed.
Lemma put_nth {A} i (x : A) l j d : (i < length l)%nat -> nth j (put i x l) d = if Nat.eqb j i then x else nth j l d.
Proof.
  revert i j. induction l as [|y l IH]; intros i j H; [cbn in H; lia|]. destruct i as [|i], j as [|j]; try reflexivity. cbn in H. change (nth j (put i x l) d = if Nat.eqb j i then x else nth j l d). apply IH. lia.
Qed.
Lemma nth_snoc {A} (l : list A) x j d : nth j (l ++ [x]) d = if Nat.eqb j (length l) then x else nth j l d.
Proof.
  destruct (Nat.eqb_spec j (length l)) as [->|N].
  - rewrite app_nth2 by lia. rewrite Nat.sub_diag. reflexivity.
  - destruct (Nat.lt_ge_cases j (length l)); [apply app_nth1; assumption|]. rewrite app_nth2 by lia. rewrite (nth_overflow l) by lia. apply nth_overflow. cbn. lia.
Qed.
Lemma step_new o fs f : in_step o fs -> in_step (o ++ [VO f (match f with Some g => Some (g, length o) | None => None end)]) (fs ++ [f]).
Proof.
  intros (L & H). split; [rewrite !app_length, L; reflexivity|]. intros i Hi. rewrite app_length in Hi. cbn [length] in Hi. unfold vo, func_of in *. rewrite !nth_snoc, <- L. destruct (Nat.eqb_spec i (length o)) as [->|N]; [auto|]. apply H. lia.
Qed.
Lemma step_put o fs i f : in_step o fs -> (i < length o)%nat -> in_step (put i (VO f (match f with Some g => Some (g, i) | None => None end)) o) (put i f fs).
Proof.
  intros (L & H) Hi. split; [rewrite !put_length by lia; exact L|]. intros j Hj. rewrite put_length in Hj by lia. unfold vo, func_of in *. rewrite !put_nth by lia. destruct (Nat.eqb_spec j i) as [->|N]; [auto|]. apply H. exact Hj.
Qed.
Lemma set_step o fs i f : in_step o fs -> (i < length o)%nat -> set_value_func o i f = (put i (VO f (match f with Some g => Some (g, i) | None => None end)) o, Ok tt).
Proof.
  intros (L & H) Hi. destruct (H i Hi) as [E1 E2]. unfold set_value_func. fold (@put vobj i). destruct f as [g|]; [reflexivity|]. rewrite E1, E2. destruct (func_of fs i); reflexivity.
Qed.
Lemma put_last {A} (l : list A) x y : put (length l) y (l ++ [x]) = l ++ [y].
Proof. unfold put. rewrite firstn_app, firstn_all, Nat.sub_diag, skipn_all2 by (rewrite app_length; cbn; lia). cbn. rewrite !app_nil_r. reflexivity. Qed.
Lemma run_step l : forall o fs, in_step o fs -> existing (length o) l -> exists o', vrun o l = (o', Ok tt) /\ in_step o' (funcs fs l).
Proof.
  induction l as [|x l IH]; intros o fs I X; [exists o; auto|]. destruct x as [|i f|i|i]; cbn [vrun vstep funcs existing] in *.
  - apply (IH (o ++ [VO None None]) (fs ++ [None])); [exact (step_new o fs None I)|]. rewrite app_length, Nat.add_comm. exact X.
  - destruct X as [Hi X]. rewrite (set_step o fs i f I Hi). apply IH; [exact (step_put o fs i f I Hi)|]. rewrite put_length by lia. exact X.
  - destruct X as [Hi X]. assert (E : clone_value o i = (o ++ [VO (func_of fs i) (match func_of fs i with Some g => Some (g, length o) | None => None end)], Ok tt)).
    { unfold clone_value. rewrite (proj1 (proj2 I i Hi)). destruct (func_of fs i) as [f|]; [|reflexivity]. pose proof (step_new o fs None I) as I'. rewrite (set_step _ _ (length o) (Some f) I') by (rewrite app_length; cbn; lia). rewrite put_last. reflexivity. }
    rewrite E. apply IH; [exact (step_new o fs _ I)|]. rewrite app_length, Nat.add_comm. exact X.
  - destruct X as [Hi X]. apply (IH (o ++ [VO None None]) (fs ++ [None])); [exact (step_new o fs None I)|]. rewrite app_length, Nat.add_comm. exact X.
Qed.
Lemma value_history l : existing 0 l -> exists o, vrun [] l = (o, Ok tt) /\ length o = length (funcs [] l) /\
  forall i, (i < length o)%nat -> value o i = value_with (func_of (funcs [] l) i) i /\ vo_func (vo o i) = func_of (funcs [] l) i.
Proof.
  intros X. destruct (run_step l [] []) as (o & E & L & H); [split; [reflexivity|]; intros i Hi; inversion Hi|exact X|]. exists o. split; [exact E|]. split; [exact L|]. intros i Hi. destruct (H i Hi) as [E1 E2]. split; [|exact E1]. unfold value, value_with. rewrite E2. destruct (func_of (funcs [] l) i); reflexivity.
Qed.

(** ** splitting and joining *)
Lemma tiles_le s l : forall a b, tiles s a b l -> a <= b.
Proof. induction l as [|x l IH]; intros a b H; cbn [tiles] in H; [lia|]. destruct H as (_ & _ & L & H). specialize (IH _ _ H). lia. Qed.
Lemma tiles_ends s l : forall a b, tiles s a b l -> l <> [] -> (exists x, In x l /\ f_start x = a) /\ (exists x, In x l /\ f_stop x = b) /\ Forall (fun x => f_str x = s /\ a <= f_start x <= f_stop x /\ f_stop x <= b) l.
Proof.
  induction l as [|x l IH]; intros a b H N; [congruence|]. cbn [tiles] in H. destruct H as (Es & Ea & L & H). pose proof (tiles_le _ _ _ _ H) as Lb. split; [exists x; split; [left; reflexivity|exact Ea]|]. destruct l as [|y l].
  - cbn [tiles] in H. split; [exists x; split; [left; reflexivity|exact H]|]. constructor; [|constructor]. split; [exact Es|]. lia.
  - destruct (IH _ _ H ltac:(discriminate)) as (_ & (z & Hz & Ez) & F). split; [exists z; split; [right; exact Hz|exact Ez]|]. constructor; [split; [exact Es|]; lia|]. eapply Forall_impl; [|exact F]. cbn beta. intros w (E & B1 & B2). split; [exact E|]. lia.
Qed.
Lemma join_tiles s a b l desc : 0 <= a -> b <= zlen s -> l <> [] -> tiles s a b l -> ito_join l desc = Ok (FI s a b desc None).
Proof.
  intros Ha Hb N H. destruct (tiles_ends s l a b H N) as ((x & Hx & Ex) & (y & Hy & Ey) & F).
  assert (Fw : Forall fwf l). { eapply Forall_impl; [|exact F]. cbn beta. intros w (E & B1 & B2). unfold fwf. rewrite E. lia. }
  rewrite Forall_forall in F. destruct (join_spec l desc Fw N) as [(s' & Fs & j & Ej & Es & Ed & Ev & Wj & (Q & (p & Hp & Ep) & (q & Hq & Eq)))|((u & v & Hu & Hv & Ne) & _)].
  - rewrite Ej. rewrite Forall_forall in Fs, Q. assert (s' = s) by (rewrite <- (Fs x Hx); apply (F x Hx)). subst s'. destruct (Q x Hx) as [Q1 _]. destruct (Q y Hy) as [_ Q2]. destruct (F p Hp) as (_ & B1 & _). destruct (F q Hq) as (_ & _ & B2).
    destruct j as [js ja jb jd jv]; cbn [f_str f_start f_stop f_desc f_vf] in *. f_equal. f_equal; try assumption; lia.
  - exfalso. apply Ne. rewrite (proj1 (F u Hu)), (proj1 (F v Hv)). reflexivity.
Qed.
