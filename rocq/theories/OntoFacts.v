(** Proofs about ontologies (C59, C66). *)
From Verif Require Export SpecOnto UtilFacts2 ArborFacts4.

(** -- escape / descape -- *)
Definition onto_esc1 (x : Z) : pystr := if mem_char x onto_special then [92; x] else [x].
Lemma onto_escape_flat v : onto_escape v = flat_map onto_esc1 v.
Proof.
  unfold onto_escape. change (filter (fun c => negb (c =? 92)) onto_special) with [93; 46].
  cbn [fold_left]. change (py_replace_char 92 [92; 92] v) with (flat_map (fun x => if x =? 92 then [92; 92] else [x]) v).
  rewrite !replace_flat_map. apply flat_map_ext'. intros x.
  destruct (Z.eqb_spec x 92) as [->|H1]; [reflexivity|].
  destruct (Z.eqb_spec x 93) as [->|H3]; [reflexivity|].
  destruct (Z.eqb_spec x 46) as [->|H5]; [reflexivity|].
  unfold onto_esc1, onto_special. cbn [lit mem_char existsb].
  unfold py_replace_char. cbn [flat_map app].
  repeat (match goal with |- context [?a =? ?b] => destruct (Z.eqb_spec a b); [cbn in *; lia|] end; cbn [flat_map app]).
  reflexivity.
Qed.
Lemma onto_mem_92 : mem_char 92 onto_special = true.
Proof. reflexivity. Qed.

Lemma onto_descape_loop_escape v : forall rest acc,
  onto_descape_loop (flat_map onto_esc1 v ++ rest) acc false = onto_descape_loop rest (acc ++ v) false.
Proof.
  induction v as [|x v IH]; intros rest acc; cbn [flat_map app]; [rewrite app_nil_r; reflexivity|].
  unfold onto_esc1 at 1. destruct (mem_char x onto_special) eqn:E; cbn [app onto_descape_loop].
  - cbn [orb Z.eqb Pos.eqb negb]. rewrite IH, <- app_assoc. reflexivity.
  - destruct (Z.eqb_spec x 92) as [->|]; [rewrite onto_mem_92 in E; discriminate|]. cbn [orb negb].
    rewrite IH, <- app_assoc. reflexivity.
Qed.
Theorem onto_descape_escape v : onto_descape (onto_escape v) = Ok v.
Proof.
  unfold onto_descape. rewrite onto_escape_flat, <- (app_nil_r (flat_map onto_esc1 v)), onto_descape_loop_escape. reflexivity.
Qed.

(** scanning an escaped text sees nothing *)
Lemma onto_scan_escaped chars v : (forall c, In c chars -> In c onto_special) -> forall k rest,
  scan chars 92 k (flat_map onto_esc1 v ++ rest) false = scan chars 92 (k + zlen (flat_map onto_esc1 v)) rest false.
Proof.
  intros Hc. induction v as [|x v IH]; intros k rest; cbn [flat_map app].
  - f_equal. rewrite zlen_nil. lia.
  - unfold onto_esc1 at 1 3. destruct (mem_char x onto_special) eqn:E; cbn [app scan].
    + cbn [Z.eqb Pos.eqb]. rewrite IH. f_equal. rewrite !zlen_cons. lia.
    + destruct (Z.eqb_spec x 92) as [->|]; [rewrite onto_mem_92 in E; discriminate|].
      assert (Em : mem_char x chars = false).
      { destruct (mem_char x chars) eqn:E2; [|reflexivity]. apply mem_char_in in E2. apply Hc in E2.
        apply mem_char_in in E2. congruence. }
      rewrite Em. rewrite IH.
      replace (k + zlen (x :: flat_map onto_esc1 v)) with (k + 1 + zlen (flat_map onto_esc1 v)) by (rewrite zlen_cons; lia).
      destruct (scan chars 92 _ rest false); reflexivity.
Qed.

Theorem onto_escape_clean v : 
  (forall k, ~ unescaped_at 92 onto_special (onto_escape v) 0 k) /\ literal_after 92 (onto_escape v).
Proof.
  pose proof (scan_window onto_special 92 (onto_escape v) 0 (zlen (onto_escape v))) as H.
  pose proof (zlen_nonneg (onto_escape v)).
  destruct H as [H1 [_ H2]]; [lia|lia|].
  rewrite zsub_full in *.
  assert (E : scan onto_special 92 0 (onto_escape v) false = ([], false)).
  { rewrite onto_escape_flat. rewrite <- (app_nil_r (flat_map onto_esc1 v)). rewrite onto_scan_escaped by auto. reflexivity. }
  rewrite E in *. cbn [fst snd] in *. split.
  - intros k Hu. apply (in_nil (a := k)). apply H2. split; [|exact Hu].
    destruct Hu as (c & Hg & _). apply zget_bounds in Hg. lia.
  - unfold literal_after. apply even_odd_false. symmetry. exact H1.
Qed.

Lemma onto_scan_join vs : vs <> [] ->
  let t := py_join [46] (map onto_escape vs) in
  snd (scan [46] 92 0 t false) = false /\ cut t 0 (fst (scan [46] 92 0 t false)) = map onto_escape vs /\
  Forall (fun k => 0 <= k) (fst (scan [46] 92 0 t false)).
Proof.
  cbv zeta. assert (Hc : forall c, In c [46] -> In c onto_special).
  { intros c [<-|[]]. cbn. tauto. }
  induction vs as [|v vs IH]; [congruence|]. intros _. destruct vs as [|v2 vs].
  - cbn [map py_join]. rewrite onto_escape_flat. rewrite <- (app_nil_r (flat_map onto_esc1 v)) at 1 3 5.
    rewrite onto_scan_escaped by exact Hc. cbn [scan fst snd cut]. split; [reflexivity|].
    split; [rewrite zsub_full; reflexivity|constructor].
  - specialize (IH ltac:(discriminate)). set (t := py_join [46] (map onto_escape (v2 :: vs))) in *.
    assert (ET : py_join [46] (map onto_escape (v :: v2 :: vs)) = (onto_escape v ++ [46]) ++ t).
    { rewrite <- app_assoc. reflexivity. }
    rewrite ET. destruct IH as (I1 & I2 & I3).
    assert (ES : scan [46] 92 0 ((onto_escape v ++ [46]) ++ t) false =
       (zlen (onto_escape v) :: map (fun k => k + zlen (onto_escape v ++ [46])) (fst (scan [46] 92 0 t false)), false)).
    { rewrite <- app_assoc. rewrite onto_escape_flat at 1. rewrite onto_scan_escaped by exact Hc.
      rewrite <- onto_escape_flat. rewrite Z.add_0_l. cbn [app scan Z.eqb Pos.eqb mem_char existsb orb].
      replace (zlen (onto_escape v) + 1) with (0 + zlen (onto_escape v ++ [46])).
      2:{ rewrite zlen_app. change (zlen [46]) with 1. lia. }
      rewrite scan_shift, I1. reflexivity. }
    rewrite ES. cbn [fst snd]. split; [reflexivity|]. pose proof (zlen_nonneg (onto_escape v)). split.
    + cbn [cut]. cbn [map]. f_equal.
      * rewrite <- app_assoc, zsub_app_l by lia. apply zsub_full.
      * replace (zlen (onto_escape v) + 1) with (zlen (onto_escape v ++ [46]) + 0).
        2:{ rewrite zlen_app. change (zlen [46]) with 1. lia. }
        rewrite cut_shift by (try lia; exact I3). exact I2.
    + constructor; [lia|]. apply Forall_map. eapply Forall_impl; [|exact I3]. cbn beta. intros k Hk.
      pose proof (zlen_nonneg (onto_escape v ++ [46])). lia.
Qed.

Theorem onto_escape_list_round vs : vs <> [] ->
  exists ps, split_unescaped (UStr (py_join [46] (map onto_escape vs))) [46] [92] None None = (ps, None) /\
             map (fun p => onto_descape (u_text p)) ps = map Ok vs.
Proof.
  intros Hv. destruct (onto_scan_join vs Hv) as (E1 & E2 & E3). set (t := py_join [46] (map onto_escape vs)) in *.
  pose proof (split_unescaped_pieces (UStr t) 46 92 None None I) as (P1 & _ & _).
  pose proof (find_unescaped_scan (UStr t) [46] 92 None None I ltac:(discriminate)) as EF.
  cbv zeta in *. cbn [u_text] in *.
  assert (EI : from_indices (zlen t) None None = (0, zlen t)).
  { unfold from_indices. pose proof (zlen_nonneg t). f_equal; lia. }
  rewrite EI in EF. cbn [fst snd] in EF. rewrite zsub_full in EF.
  pose proof (find_unescaped_spec (UStr t) [46] 92 None None I ltac:(discriminate)) as (_ & _ & HL).
  cbn [u_text] in HL. rewrite EF in HL. cbn [snd] in HL. rewrite E1 in HL.
  destruct (P1 (proj1 HL eq_refl)) as [Q1 Q2].
  rewrite EF in Q2. cbn [fst] in Q2. rewrite E2 in Q2.
  destruct (split_unescaped (UStr t) [46] [92] None None) as [ps er]. cbn [fst snd] in *. subst er.
  exists ps. split; [reflexivity|].
  rewrite <- (map_map u_text onto_descape), Q2, map_map. apply map_ext. intros v. apply onto_descape_escape.
Qed.

Lemma onto_descape_loop_acc v : forall rv esc, onto_descape_loop v rv esc = match onto_descape_loop v [] esc with Ok w => Ok (rv ++ w) | Err e => Err e end.
Proof.
  induction v as [|c v IH]; intros rv esc; cbn [onto_descape_loop].
  - destruct esc; [reflexivity|]. rewrite app_nil_r. reflexivity.
  - destruct (esc || negb (c =? 92)); [|apply IH].
    rewrite (IH (rv ++ [c])), (IH ([] ++ [c])). destruct (onto_descape_loop v [] false); [|reflexivity]. cbn [app]. rewrite <- app_assoc. reflexivity.
Qed.
Lemma onto_descape_err v : forall rv esc e, onto_descape_loop v rv esc = Err e -> e = ValueError.
Proof. induction v as [|c v IH]; intros rv esc e; cbn [onto_descape_loop]; [destruct esc; [intros [= <-]; reflexivity|discriminate]|]. destruct (_ || _); apply IH. Qed.
Lemma onto_descape_cons c v : onto_descape (c :: v) =
  if c =? 92 then match v with [] => Err ValueError | d :: v' => match onto_descape v' with Ok w => Ok (d :: w) | Err e => Err e end end
  else match onto_descape v with Ok w => Ok (c :: w) | Err e => Err e end.
Proof.
  unfold onto_descape. cbn [onto_descape_loop orb]. destruct (c =? 92); cbn [negb].
  - destruct v as [|d v]; [reflexivity|]. cbn [onto_descape_loop orb]. rewrite onto_descape_loop_acc. reflexivity.
  - rewrite onto_descape_loop_acc. reflexivity.
Qed.
Theorem onto_descape_exact v : (forall w, onto_descape v = Ok w <-> unescapes 92 v w) /\
  (onto_descape v = Err ValueError <-> forall w, ~ unescapes 92 v w).
Proof.
  assert (A : forall n v, (length v <= n)%nat -> forall w, onto_descape v = Ok w <-> unescapes 92 v w).
  { clear v. induction n as [|n IH]; intros v L w.
    - destruct v; [|cbn in L; lia]. cbn. split; [intros [= <-]; constructor|intros H; inversion H; reflexivity].
    - destruct v as [|c v]; [apply (IH [] ltac:(cbn; lia))|]. cbn in L. rewrite onto_descape_cons. destruct (Z.eqb_spec c 92) as [->|Hc].
      + destruct v as [|d v]; [split; [discriminate|intros H; inversion H; congruence]|].
        cbn in L. assert (Lv : (length v <= n)%nat) by lia. specialize (IH v Lv).
        destruct (onto_descape v) as [w'|e] eqn:E.
        * split; [intros [= <-]; constructor; apply IH; reflexivity|]. intros H. inversion H as [|? ? ? Hn _|? ? w0 H0]; subst; [congruence|].
          apply IH in H0. congruence.
        * split; [discriminate|]. intros H. inversion H as [|? ? ? Hn _|? ? w0 H0]; subst; [congruence|]. apply IH in H0. discriminate.
      + assert (Lv : (length v <= n)%nat) by lia. specialize (IH v Lv). destruct (onto_descape v) as [w'|e] eqn:E.
        * split; [intros [= <-]; constructor; [exact Hc|apply IH; reflexivity]|]. intros H. inversion H as [|? ? w0 Hn H0|? ? w0 H0]; subst; [|congruence].
          apply IH in H0. congruence.
        * split; [discriminate|]. intros H. inversion H as [|? ? w0 Hn H0|? ? w0 H0]; subst; [|congruence]. apply IH in H0. discriminate. }
  split; [apply (A (length v) v (le_n _))|]. split.
  - intros E w H. apply (A (length v) v (le_n _)) in H. congruence.
  - intros H. destruct (onto_descape v) as [w|e] eqn:E; [destruct (H w); apply (A (length v) v (le_n _)); exact E|].
    f_equal. exact (onto_descape_err v [] false e E).
Qed.
