(** Proofs: the heap model of add_hierarchical refines the one on trees. *)
From Verif Require Export HierHeap.
From Coq Require Import Arith.

Lemma slice_run_seq : forall n m st, (n <= m)%nat -> slice_run m (Z.of_nat st) (Z.of_nat (st + n)) 1 = seq st n.
Proof.
  induction n as [|n IH]; intros m st Hm.
  - destruct m; cbn [slice_run seq]; [reflexivity|]. change (1 <? 0) with false. cbv iota. destruct (Z.ltb_spec (Z.of_nat st) (Z.of_nat (st + 0))); [lia|reflexivity].
  - destruct m; [lia|]. cbn [slice_run seq]. change (1 <? 0) with false. cbv iota. destruct (Z.ltb_spec (Z.of_nat st) (Z.of_nat (st + S n))); [|lia].
    rewrite Nat2Z.id. f_equal. rewrite <- (IH m (S st)) by lia. f_equal; lia.
Qed.
Lemma slice_positions_range n i j : (i <= j <= n)%nat -> slice_positions n (Some (Z.of_nat i)) (Some (Z.of_nat j)) None = Ok (seq i (j - i)).
Proof.
  intros Hij. unfold slice_positions. cbn [odflt]. change (1 =? 0) with false. cbv iota. unfold slice_bounds. change (1 <? 0) with false. cbv iota zeta.
  destruct (Z.ltb_spec (Z.of_nat i) 0); [lia|]. destruct (Z.ltb_spec (Z.of_nat j) 0); [lia|].
  assert (Ei : (if Z.of_nat n <=? Z.of_nat i then Z.of_nat n else Z.of_nat i) = Z.of_nat i) by (destruct (Z.leb_spec (Z.of_nat n) (Z.of_nat i)); lia).
  assert (Ej : (if Z.of_nat n <=? Z.of_nat j then Z.of_nat n else Z.of_nat j) = Z.of_nat (i + (j - i))) by (destruct (Z.leb_spec (Z.of_nat n) (Z.of_nat j)); lia).
  rewrite Ei, Ej. f_equal. apply slice_run_seq. lia.
Qed.
Lemma drop_range {A} (l : list A) : forall k i j, (k <= i <= j)%nat -> drop_positions k (seq i (j - i)) l = firstn (i - k) l ++ skipn (j - k) l.
Proof.
  induction l as [|x l IH]; intros k i j Hk; cbn [drop_positions]; [rewrite firstn_nil, skipn_nil; reflexivity|].
  destruct (existsb (Nat.eqb k) (seq i (j - i))) eqn:E.
  - apply existsb_nat in E. apply in_seq in E. assert (k = i) by lia. subst k. rewrite Nat.sub_diag. cbn [firstn app].
    assert (G : drop_positions (S i) (seq i (j - i)) l = drop_positions (S i) (seq (S i) (j - S i)) l).
    { replace (j - i)%nat with (S (j - S i)) by lia. cbn [seq]. generalize (seq (S i) (j - S i)) as pos. clear. 
      assert (G : forall l k pos, (i < k)%nat -> drop_positions k (i :: pos) l = @drop_positions A k pos l).
      { clear. induction l as [|x l IH]; intros k pos Hk; cbn [drop_positions]; [reflexivity|]. cbn [existsb]. destruct (Nat.eqb_spec k i); [lia|]. cbn [orb]. rewrite !IH by lia. reflexivity. }
      intros pos. apply G. lia. }
    rewrite G, IH by lia. rewrite Nat.sub_diag. cbn [firstn app]. replace (j - i)%nat with (S (j - S i)) by lia. reflexivity.
  - apply existsb_nat_false in E. rewrite in_seq in E. destruct (Nat.eq_dec k i) as [->|Hne].
    + assert (j = i) by lia. subst j. rewrite !Nat.sub_diag. cbn [seq firstn skipn app]. f_equal. clear. 
      assert (G : forall (l : list A) k, drop_positions k [] l = l) by (induction l0 as [|y l0 IH0]; intros k; cbn; [reflexivity|f_equal; apply IH0]). apply G.
    + rewrite IH by lia. replace (i - k)%nat with (S (i - S k)) by lia. replace (j - k)%nat with (S (j - S k)) by lia. reflexivity.
Qed.
Lemma skipn_nth {A} (l : list A) d : forall i, (i < length l)%nat -> skipn i l = nth i l d :: skipn (S i) l.
Proof. induction l as [|x l IH]; intros [|i] Hi; cbn [length] in Hi; try lia; [reflexivity|]. cbn [skipn nth]. apply IH. lia. Qed.
Lemma map_nth_seq {A} (l : list A) d : forall n i, (i + n <= length l)%nat -> map (fun k => nth k l d) (seq i n) = firstn n (skipn i l).
Proof.
  induction n as [|n IH]; intros i Hi; [reflexivity|]. cbn [seq map]. rewrite IH by lia.
  rewrite (skipn_nth l d i) by lia. reflexivity.
Qed.

Definition do_wrap (h : heap) (p c : nat) (i j : nat) : out unit :=
  let ks := n_kids (nd h p) in
  obind (if (i =? j)%nat then (h, Ok tt)
         else obind (kids_del_slice h p (Some (Z.of_nat i)) (Some (Z.of_nat j)) None) (fun h1 _ => kids_add h1 c (firstn (j - i) (skipn i ks))))
    (fun h1 _ => let h2 := set_kids h1 p (insert_at i c (n_kids (nd h1 p))) in
       if set_parent_ok h2 c p then (set_par h2 c (Some p), Ok tt) else (h2, Err ValueError)).

Lemma set_kids_par_ok h p c ks : set_parent_ok (set_kids h p ks) c p = set_parent_ok h c p.
Proof. unfold set_parent_ok, h_string, h_start, h_stop. rewrite !f_set_kids. reflexivity. Qed.
Lemma do_wrap_spec h p c i j : hwf h -> (p < length h)%nat -> (c < length h)%nat -> c <> p -> n_par (nd h c) = None -> n_kids (nd h c) = [] ->
  fits h c p -> (i <= j <= length (n_kids (nd h p)))%nat -> Forall (fun x => fits h x c) (firstn (j - i) (skipn i (n_kids (nd h p)))) ->
  exists h', do_wrap h p c i j = (h', Ok tt) /\ wrapped h h' p c (firstn i (n_kids (nd h p))) (firstn (j - i) (skipn i (n_kids (nd h p)))) (skipn j (n_kids (nd h p))).
Proof.
  intros H Hp Hc Hpc Nc Kc Fc Hij Hm. set (ks := n_kids (nd h p)) in *. set (m := firstn (j - i) (skipn i ks)) in *.
  unfold do_wrap. cbv zeta. fold ks. fold m.
  (* the heap after lines 1611-1613 *)
  assert (G : exists h1, @eq (out unit) (if (i =? j)%nat then (h, Ok tt) else obind (kids_del_slice h p (Some (Z.of_nat i)) (Some (Z.of_nat j)) None) (fun h1 _ => kids_add h1 c m)) (h1, Ok tt) /\
     length h1 = length h /\ (forall x, n_f (nd h1 x) = n_f (nd h x)) /\
     (forall x, n_kids (nd h1 x) = if (x =? c)%nat then m else if (x =? p)%nat then firstn i ks ++ skipn j ks else n_kids (nd h x)) /\
     (forall x, n_par (nd h1 x) = if memb x m then Some c else n_par (nd h x))).
  { destruct (Nat.eqb_spec i j) as [<-|Hne].
    - exists h. split; [reflexivity|]. split; [reflexivity|]. split; [reflexivity|]. unfold m. rewrite Nat.sub_diag. cbn [firstn memb existsb]. split; [|reflexivity].
      intros x. destruct (Nat.eqb_spec x c) as [->|]; [exact Kc|]. destruct (Nat.eqb_spec x p) as [->|]; [|reflexivity]. rewrite firstn_skipn. reflexivity.
    - unfold kids_del_slice. fold ks. rewrite slice_positions_range by exact Hij. unfold obind at 1. cbn [fst snd].
      destruct (kids_del_at_spec h p (seq i (j - i)) H Hp) as (H1 & L1 & D1 & K1 & P1 & _).
      { apply Forall_forall. intros k Hk. apply in_seq in Hk. fold ks. lia. }
      fold ks in K1. unfold removed_at in P1. fold ks in P1. rewrite map_nth_seq in P1 by lia. fold m in P1. rewrite drop_range in K1 by lia. rewrite !Nat.sub_0_r in K1.
      set (h1 := kids_del_at h p (seq i (j - i))) in *.
      assert (Hmk : forall x, In x m -> In x ks).
      { intros x Hx. unfold ks. fold ks. rewrite (split3 ks i j Hij). apply in_or_app. right. apply in_or_app. left. exact Hx. }
      destruct (kids_add_seq c m h1 [] H1) as (H2 & L2 & D2 & [(F & E & K2 & P2)|(F & _)]).
      + lia.
      + rewrite L1. apply Forall_forall. intros x Hx. apply Hmk in Hx. apply (hwf_kid h H) in Hx. tauto.
      + apply Forall_forall. intros x Hx. split.
        * rewrite P1. apply memb_In in Hx. unfold memb in Hx. rewrite Hx. reflexivity.
        * intros ->. apply Hmk in Hx. apply (hwf_kid h H) in Hx. destruct Hx as (Hx & _). congruence.
      + rewrite K1. destruct (Nat.eqb_spec c p); [contradiction|exact Kc].
      + cbn [app]. apply (data_sorted h); [intros; apply D1|]. pose proof (hwf_sorted h H p) as Hs. fold ks in Hs. rewrite (split3 ks i j Hij) in Hs. apply SS_app_inv in Hs. destruct Hs as (_ & Hs & _). apply SS_app_inv in Hs. apply Hs.
      + set (r := kids_add h1 c m) in *. exists (fst r). split; [rewrite (surjective_pairing r), E; reflexivity|]. split; [lia|]. split; [intros; rewrite D2; apply D1|]. split.
        * intros x. rewrite K2, K1. cbn [app]. reflexivity.
        * intros x. rewrite P2, P1. fold (memb x m). destruct (memb x m); reflexivity.
      + exfalso. apply F. eapply Forall_impl; [|exact Hm]. intros a Hfa. apply (data_fits h); [apply D1|apply D1|exact Hfa]. }
  destruct G as (h1 & -> & L1 & D1 & K1 & P1). unfold obind. cbn [fst snd].
  assert (Kp : n_kids (nd h1 p) = firstn i ks ++ skipn j ks).
  { rewrite K1, Nat.eqb_refl. destruct (Nat.eqb_spec p c); [congruence|reflexivity]. }
  rewrite Kp. rewrite set_kids_par_ok.
  assert (Eo : set_parent_ok h1 c p = true).
  { apply set_parent_ok_iff. split; [apply (data_fits h); [apply D1|apply D1|exact Fc]|exact Hpc]. }
  rewrite Eo. eexists. split; [reflexivity|]. split; [|split; [|split]].
  - rewrite set_par_length, set_kids_length. exact L1.
  - intros x. rewrite f_set_par, f_set_kids. apply D1.
  - intros x. rewrite kids_set_par, kids_set_kids by lia. destruct (Nat.eqb_spec x p) as [->|].
    + apply insert_at_split. symmetry. apply firstn_length_le. lia.
    + rewrite K1. destruct (Nat.eqb_spec x c); [reflexivity|]. destruct (Nat.eqb_spec x p); [contradiction|reflexivity].
  - intros x. rewrite par_set_par by (rewrite set_kids_length; lia). rewrite par_set_kids, P1. reflexivity.
Qed.
