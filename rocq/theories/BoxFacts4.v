From Verif Require Export JsonFacts2 BoxFacts3.
From Coq Require Import Lia.
Opaque instances.

(** * Permutations *)
Lemma picks_spec {A} (l : list A) x r : In (x, r) (picks l) <-> exists a b, l = a ++ x :: b /\ r = a ++ b.
Proof.
  revert x r. induction l as [|y l IH]; intros x r; cbn [picks In].
  - split; [intros []|]. intros (a & b & E & _). destruct a; discriminate.
  - split.
    + intros [[= <- <-]|I]; [exists [], l; auto|]. apply in_map_iff in I. destruct I as ([x' r'] & [= <- <-] & I).
      apply IH in I. destruct I as (a & b & -> & ->). exists (y :: a), b. auto.
    + intros (a & b & E & ->). destruct a as [|z a]; injection E as -> E.
      * left. subst. reflexivity.
      * right. apply in_map_iff. exists (x, a ++ b). split; [reflexivity|]. apply IH. exists a, b. auto.
Qed.
Lemma perms_spec {A} n (l : list A) p : NoDup l -> In p (perms n l) <-> NoDup p /\ incl p l /\ length p = n.
Proof.
  revert l p. induction n as [|n IH]; intros l p N; cbn [perms].
  - split.
    + intros [<-|[]]. split; [constructor|]. split; [intros ? []|reflexivity].
    + intros (_ & _ & L). destruct p; [now left|discriminate].
  - rewrite in_flat_map. split.
    + intros ([x r] & I & J). cbn [fst snd] in J. apply picks_spec in I. destruct I as (a & b & -> & ->).
      apply in_map_iff in J. destruct J as (q & <- & J). pose proof (NoDup_remove _ _ _ N) as [N1 N2].
      apply (IH _ _ N1) in J. destruct J as (Nq & Q & Lq). split; [constructor; [intros X; exact (N2 (Q x X))|exact Nq]|].
      split; [|cbn; rewrite Lq; reflexivity]. intros y [<-|Y]; [apply in_or_app; right; now left|].
      apply Q in Y. apply in_app_or in Y. apply in_or_app. cbn. tauto.
    + intros (Np & Q & L). destruct p as [|x q]; [discriminate|]. injection L as L. inversion Np as [|? ? Nx Nq]; subst.
      destruct (in_split x l (Q x (or_introl eq_refl))) as (a & b & ->). exists (x, a ++ b). split; [apply picks_spec; exists a, b; auto|].
      cbn [fst snd]. apply in_map. pose proof (NoDup_remove _ _ _ N) as [N1 N2]. apply (IH _ _ N1). split; [exact Nq|]. split; [|reflexivity].
      intros y Y. pose proof (Q y (or_intror Y)) as Z. apply in_app_or in Z. apply in_or_app. destruct Z as [Z|[->|Z]]; [tauto|contradiction|tauto].
Qed.

(** * The seating *)
Lemma corner_score_2 j b : (j < 4)%nat -> corner_score j b <= 2 /\ (corner_score j b = 2 <-> suits b j).
Proof.
  intros B.
  assert (forall d d', nth_error needs j = Some (d, d') -> corner_score j b <= 2 /\ (corner_score j b = 2 <-> arm b d <> None /\ arm b d' <> None)) as H.
  { intros d d' E. assert (nth j corner_dirs (DN, DN) = (d, d')) as E' by (four_cases j B; injection E as <- <-; reflexivity).
    unfold corner_score. rewrite E'. cbn [filter]. rewrite <- !ds_get_arm.
    destruct (ds_get (b_ds b) d), (ds_get (b_ds b) d'); cbn; split; try lia; split; intros X; try lia; try (split; discriminate); destruct X as [X Y]; congruence. }
  assert (exists d d', nth_error needs j = Some (d, d')) as (d & d' & E) by (four_cases j B; eexists; eexists; reflexivity).
  destruct (H d d' E) as [L Q]. split; [exact L|]. rewrite Q. split.
  - intros [X Y]. exists d, d'. auto.
  - intros (e & e' & E' & X & Y). rewrite E in E'. injection E' as <- <-. auto.
Qed.
Lemma perm_score_from bs p n : length bs = length p -> Forall (fun j => (j < 4)%nat) p ->
  let s := fold_left (fun n cj => n + (let s := corner_score (snd cj) (fst cj) in if 2 <=? s then 2 else s)) (combine bs p) n in
  s <= n + 2 * Z.of_nat (length bs) /\ (s = n + 2 * Z.of_nat (length bs) <-> Forall2 suits bs p).
Proof.
  cbv zeta. revert p n. induction bs as [|b bs IH]; intros [|j p] n L F; try discriminate.
  - cbn. split; [lia|]. split; [constructor|lia].
  - injection L as L. inversion F as [|? ? Fj Fp]; subst. cbn [combine fold_left fst snd length].
    destruct (corner_score_2 j b Fj) as [S2 Q]. destruct (IH p (n + (if 2 <=? corner_score j b then 2 else corner_score j b)) L Fp) as [A E].
    assert ((if 2 <=? corner_score j b then 2 else corner_score j b) = corner_score j b) as X by (destruct (Z.leb_spec 2 (corner_score j b)); lia).
    rewrite X in *. split; [lia|]. split.
    + intros H. assert (corner_score j b = 2) as Y by lia. constructor; [apply Q; exact Y|]. apply E. lia.
    + intros H. inversion H as [|? ? ? ? Hj Hp]; subst. apply Q in Hj. apply E in Hp. lia.
Qed.
Lemma best_perm_spec bs possible ps best : (forall q s, best = Some (q, s) -> s <> possible) ->
  match best_perm bs possible ps best with
  | Some (p, s) => s = possible /\ In p ps /\ perm_score bs p = possible \/ s <> possible /\ forall p, In p ps -> perm_score bs p <> possible
  | None => ps = []
  end.
Proof.
  revert best. induction ps as [|p ps IH]; intros best H; cbn [best_perm].
  - destruct best as [[q s]|]; [|reflexivity]. right. split; [exact (H q s eq_refl)|intros ? []].
  - destruct (Z.eqb_spec (perm_score bs p) possible) as [E|E].
    + left. split; [exact E|]. split; [now left|exact E].
    + set (best' := match best with None => _ | Some _ => _ end).
      assert (forall q s, best' = Some (q, s) -> s <> possible) as H'.
      { unfold best'. intros q s. destruct best as [[q0 s0]|].
        - destruct (s0 <? perm_score bs p); intros [= <- <-]; [exact E|exact (H q0 s0 eq_refl)].
        - intros [= <- <-]. exact E. }
      assert (best' <> None) as NN by (unfold best'; destruct best as [[q0 s0]|]; [destruct (s0 <? _)|]; discriminate).
      specialize (IH best' H'). destruct (best_perm bs possible ps best') as [[q s]|] eqn:F.
      * destruct IH as [(A & B & C)|(A & B)]; [left; split; [exact A|]; split; [now right|exact C]|right].
        split; [exact A|]. intros x [<-|I]; [exact E|exact (B x I)].
      * exfalso. subst ps. cbn in F. congruence.
Qed.
Lemma seats_bound bs p : Forall2 suits bs p -> Forall (fun j => (j < 4)%nat) p.
Proof.
  induction 1 as [|b j bs p S _ IH]; constructor; [|exact IH]. destruct S as (d & d' & E & _).
  apply (proj1 (nth_error_Some needs j)). congruence.
Qed.
Lemma four_places : NoDup [0; 1; 2; 3]%nat.
Proof. repeat constructor; cbn; lia. Qed.
Lemma place_in j : In j [0; 1; 2; 3]%nat <-> (j < 4)%nat.
Proof. cbn. lia. Qed.
Lemma seat_spec bs : (1 <= length bs)%nat ->
  match best_perm bs (Z.of_nat (length bs) * 2) (perms (length bs) [0; 1; 2; 3]%nat) None with
  | Some (p, s) => s = Z.of_nat (length bs) * 2 /\ seating bs p \/ s <> Z.of_nat (length bs) * 2 /\ forall p, ~ seating bs p
  | None => forall p, ~ seating bs p
  end.
Proof.
  intros LB. assert (forall p, In p (perms (length bs) [0; 1; 2; 3]%nat) -> perm_score bs p = Z.of_nat (length bs) * 2 -> seating bs p) as A.
  { intros p I E. apply (perms_spec _ _ _ four_places) in I. destruct I as (N & Q & L). split; [exact N|].
    assert (Forall (fun j => (j < 4)%nat) p) as F by (apply Forall_forall; intros j J; apply place_in, Q, J).
    apply (proj2 (perm_score_from bs p 0 (eq_sym L) F)). unfold perm_score in E. cbv zeta. rewrite E. lia. }
  assert (forall p, seating bs p -> In p (perms (length bs) [0; 1; 2; 3]%nat) /\ perm_score bs p = Z.of_nat (length bs) * 2) as B.
  { intros p [N F]. pose proof (seats_bound _ _ F) as G. pose proof (Forall2_len _ _ _ F) as L. split.
    - apply (perms_spec _ _ _ four_places). split; [exact N|]. split; [|congruence].
      intros j J. apply place_in. exact (proj1 (Forall_forall _ _) G j J).
    - unfold perm_score. pose proof (proj2 (proj2 (perm_score_from bs p 0 L G)) F) as X. cbv zeta in X. rewrite X. lia. }
  pose proof (best_perm_spec bs (Z.of_nat (length bs) * 2) (perms (length bs) [0; 1; 2; 3]%nat) None ltac:(discriminate)) as S.
  destruct (best_perm _ _ _ _) as [[p s]|].
  - destruct S as [(E & I & P)|(E & P)]; [left|right]; (split; [exact E|]).
    + exact (A p I P).
    + intros q Q. destruct (B q Q) as [I X]. exact (P q I X).
  - intros q Q. destruct (B q Q) as [I _]. rewrite S in I. destruct I.
Qed.

(** placing the corners *)
Lemma place_spec bs p t : NoDup p -> Forall2 suits bs p -> Forall (fun b => In b instances) bs -> slots corner_dirs t ->
  (forall j, In j p -> nth j t PNone = PNone) ->
  slots corner_dirs (place_corners bs p t) /\ keeps t (place_corners bs p t) /\
  Forall2 (fun b j => nth j (place_corners bs p t) PNone = PBdc b) bs p.
Proof.
  intros N F. revert t. induction F as [|b j bs p S F IH]; intros t I SL E; cbn [place_corners].
  - split; [exact SL|]. split; [apply keeps_refl|constructor].
  - inversion N as [|? ? Nj Np]; subst. inversion I as [|? ? Ib Ibs]; subst.
    assert (j < 4)%nat as J by exact (proj1 (Forall_forall _ _) (seats_bound _ _ (Forall2_cons _ _ S F)) j (or_introl eq_refl)).
    assert (both b (nth j corner_dirs (DN, DN))) as H.
    { destruct S as (d & d' & X & A & B). clear - J X A B. four_cases j J; injection X as <- <-; split; assumption. }
    destruct (set_slots corner_dirs t j b SL J (E j (or_introl eq_refl)) Ib H) as (SL' & K & X).
    destruct (IH Np (set_at t j (PBdc b)) Ibs SL') as (S2 & K2 & F2).
    { intros i Hi. rewrite setat_nth by (destruct SL as [L _]; lia). destruct (Nat.eqb_spec j i) as [<-|_]; [contradiction|]. apply E. now right. }
    split; [exact S2|]. split; [exact (keeps_trans _ _ _ K K2)|]. constructor; [|exact F2].
    rewrite (K2 j); rewrite X; [reflexivity|discriminate].
Qed.
Lemma empty_slots : slots corner_dirs [PNone; PNone; PNone; PNone].
Proof. split; [reflexivity|]. intros i B. four_cases i B; exact I. Qed.
Lemma first_index_spec {A} (f : A -> bool) l i k d : first_index f l i = Some k -> (i <= k < i + length l)%nat /\ f (nth (k - i) l d) = true.
Proof.
  revert i. induction l as [|x r IH]; intros i E; cbn in E; [discriminate|]. destruct (f x) eqn:Fx.
  - injection E as <-. rewrite Nat.sub_diag. cbn. split; [lia|exact Fx].
  - destruct (IH (S i) E) as [B H]. split; [cbn; lia|]. replace (k - i)%nat with (S (k - S i)) by lia. exact H.
Qed.
Lemma first_index_none {A} (f : A -> bool) l i : first_index f l i = None -> forall x, In x l -> f x = false.
Proof.
  revert i. induction l as [|y r IH]; intros i E x []; cbn in E.
  - subst. destruct (f x); [discriminate|reflexivity].
  - destruct (f y); [discriminate|]. exact (IH _ E x H).
Qed.

(** * The sides *)
Lemma side_of d1 d2 a b da db : In a instances -> In b instances -> arm a (fst da) <> None -> arm b (snd db) <> None ->
  In (rotate (fst da) 180, rotate (snd db) 180) pairs -> d1 = rotate (fst da) 180 -> d2 = rotate (snd db) 180 ->
  exists c, corner_link (PBdc a) (PBdc b) da db = Ok c /\ In c instances /\ spans c d1 a (fst da) d2 b (snd db).
Proof.
  intros Ia Ib A B P -> ->. destruct (arm_ex _ _ A) as [s1 A1], (arm_ex _ _ B) as [s2 B1].
  rewrite (link_ok _ _ _ _ _ _ A1 B1).
  destruct (pair_arms _ _ s1 s2 P (table_styles _ _ _ Ia A1) (table_styles _ _ _ Ib B1)) as (c & Ec & C & Ic & _).
  exists c. split; [exact Ec|]. split; [exact Ic|]. exists s1, s2. auto.
Qed.
Lemma sides_ok t c0 c1 c2 c3 : all_full corner_dirs t c0 c1 c2 c3 ->
  exists s0 s1 s2 s3, corner_side t 0 = Ok s0 /\ corner_side t 1 = Ok s1 /\ corner_side t 2 = Ok s2 /\ corner_side t 3 = Ok s3 /\
    let x := Frame c0 s0 c1 s3 s1 c3 s2 c2 in in_table x /\ sides_span x.
Proof.
  intros [-> [_ S]].
  destruct (S 0%nat ltac:(lia)) as [I0 [A0 B0]], (S 1%nat ltac:(lia)) as [I1 [A1 B1]], (S 2%nat ltac:(lia)) as [I2 [A2 B2]], (S 3%nat ltac:(lia)) as [I3 [A3 B3]].
  cbn [nth fst snd corner_dirs] in *.
  destruct (side_of DW DE c0 c1 (DE, DS) (DS, DW) I0 I1 A0 B1 ltac:(vm_compute; tauto) eq_refl eq_refl) as (s0 & E0 & J0 & P0).
  destruct (side_of DN DS c1 c2 (DS, DW) (DW, DN) I1 I2 A1 B2 ltac:(vm_compute; tauto) eq_refl eq_refl) as (s1 & E1 & J1 & P1).
  destruct (side_of DE DW c2 c3 (DW, DN) (DN, DE) I2 I3 A2 B3 ltac:(vm_compute; tauto) eq_refl eq_refl) as (s2 & E2 & J2 & P2).
  destruct (side_of DS DN c3 c0 (DN, DE) (DE, DS) I3 I0 A3 B0 ltac:(vm_compute; tauto) eq_refl eq_refl) as (s3 & E3 & J3 & P3).
  exists s0, s1, s2, s3. split; [exact E0|]. split; [exact E1|]. split; [exact E2|]. split; [exact E3|].
  cbv zeta. split; [unfold in_table; cbn; tauto|]. unfold sides_span. cbn. auto.
Qed.

(** * One corner *)
Lemma spread_ok i b : (i < 4)%nat -> In b instances -> suits b i ->
  let t := set_at [PNone; PNone; PNone; PNone] i (PBdc b) in
  exists t' c0 c1 c2 c3, spread_corners 3 i t = Ok t' /\ keeps t t' /\ all_full corner_dirs t' c0 c1 c2 c3.
Proof.
  intros B I S t.
  assert (both b (nth i corner_dirs (DN, DN))) as H.
  { destruct S as (d & d' & X & A & C). clear - B X A C. four_cases i B; injection X as <- <-; split; assumption. }
  destruct (set_slots corner_dirs [PNone; PNone; PNone; PNone] i b empty_slots B ltac:(four_cases i B; reflexivity) I H) as (S0 & _ & N0).
  fold t in S0, N0.
  assert (forall j, i <> j -> nth j t PNone = PNone) as Q0.
  { intros j J. unfold t. rewrite setat_nth by (cbn; lia). apply Nat.eqb_neq in J. rewrite J. clear. destruct j as [|[|[|[|[|j]]]]]; reflexivity. }
  set (i1 := (Datatypes.S i mod 4)%nat). set (i2 := (Datatypes.S i1 mod 4)%nat). set (i3 := (Datatypes.S i2 mod 4)%nat).
  assert (i <> i1 /\ i <> i2 /\ i <> i3 /\ i1 <> i2 /\ i1 <> i3 /\ i2 <> i3) as D.
  { unfold i1, i2, i3. clear - B. four_cases i B; cbn; lia. }
  destruct D as (D1 & D2 & D3 & D4 & D5 & D6).
  destruct (spread_step 2 i t b B S0 N0 (Q0 _ D1)) as (c1 & E1 & _ & S1 & K1 & N1). fold i1 in E1, S1, K1, N1.
  assert (nth i2 (set_at t i1 (PBdc c1)) PNone = PNone) as Q1.
  { rewrite setat_nth by (destruct S0 as [L _]; unfold i1; pose proof (lt4 (Datatypes.S i)); lia). apply Nat.eqb_neq in D4. rewrite D4. exact (Q0 _ D2). }
  destruct (spread_step 1 i1 _ c1 (lt4 _) S1 N1 Q1) as (c2 & E2 & _ & S2 & K2 & N2). fold i2 in E2, S2, K2, N2.
  set (t2 := set_at (set_at t i1 (PBdc c1)) i2 (PBdc c2)) in *.
  assert (nth i3 t2 PNone = PNone) as Q2.
  { unfold t2. rewrite setat_nth by (destruct S1 as [L _]; unfold i2; pose proof (lt4 (Datatypes.S i1)); lia). apply Nat.eqb_neq in D6. rewrite D6.
    rewrite setat_nth by (destruct S0 as [L _]; unfold i1; pose proof (lt4 (Datatypes.S i)); lia). apply Nat.eqb_neq in D5. rewrite D5. exact (Q0 _ D3). }
  destruct (spread_step 0 i2 _ c2 (lt4 _) S2 N2 Q2) as (c3 & E3 & _ & S3 & K3 & N3). fold i3 in E3, S3, K3, N3.
  set (t3 := set_at t2 i3 (PBdc c3)) in *.
  assert (keeps t t3) as K by exact (keeps_trans _ _ _ K1 (keeps_trans _ _ _ K2 K3)).
  assert (nth i t3 PNone <> PNone) as M0 by (rewrite K; rewrite N0; discriminate).
  assert (nth i1 t3 PNone <> PNone) as M1 by (rewrite (keeps_trans _ _ _ K2 K3); rewrite N1; discriminate).
  assert (nth i2 t3 PNone <> PNone) as M2 by (rewrite K3; rewrite N2; discriminate).
  assert (nth i3 t3 PNone <> PNone) as M3 by (rewrite N3; discriminate).
  destruct (all_some corner_dirs t3 S3) as (x0 & x1 & x2 & x3 & F).
  { clearbody t3. unfold i3, i2, i1 in M1, M2, M3. clear - B M0 M1 M2 M3. four_cases i B; cbn in M0, M1, M2, M3; intros j J; four_cases j J; assumption. }
  exists t3, x0, x1, x2, x3. split; [|split; [exact K|exact F]]. rewrite E1, E2, E3. reflexivity.
Qed.

Lemma denotes_map l bs : Forall2 denotes l bs -> map_res corner_bdc l = Ok bs /\ Forall (fun b => In b instances) bs.
Proof.
  induction 1 as [|p b l bs [I D] _ [IH F]]; [split; [reflexivity|constructor]|]. split; [|constructor; assumption].
  change (map_res corner_bdc (p :: l)) with (do y <- corner_bdc p; do ys <- map_res corner_bdc l; Ok (y :: ys)). assert (corner_bdc p = Ok b) as E by (destruct D as [-> | ->]; [reflexivity|apply from_char_iff; auto]).
  rewrite E. cbn [bind]. rewrite IH. reflexivity.
Qed.
Theorem corners_spec l bs : (1 <= length l <= 4)%nat -> Forall2 denotes l bs ->
  (exists x p, from_corners l = Ok (drawn_frame x) /\ in_table x /\ seated x bs p /\ sides_span x) \/
  (from_corners l = Err ValueError /\ forall p, ~ seating bs p).
Proof.
  intros B F. destruct (denotes_map l bs F) as [E I]. pose proof (Forall2_len _ _ _ F) as L.
  unfold from_corners. replace ((length l =? 0)%nat || (4 <? length l)%nat) with false.
  2:{ symmetry. apply orb_false_iff. split; [apply Nat.eqb_neq; lia|apply Nat.ltb_ge; lia]. }
  rewrite E. cbn [bind]. pose proof (seat_spec bs ltac:(lia)) as S.
  destruct (best_perm bs _ _ None) as [[p s]|]; [|right; auto].
  destruct S as [[-> S]|[N S]].
  2:{ right. split; [|exact S]. apply Z.eqb_neq in N. rewrite N. reflexivity. }
  rewrite Z.eqb_refl. cbn [negb]. left. destruct S as [N S].
  destruct (place_spec bs p _ N S I empty_slots) as (SL & _ & PL).
  { intros j J. clear. destruct j as [|[|[|[|[|j]]]]]; reflexivity. }
  set (t := place_corners bs p [PNone; PNone; PNone; PNone]) in *.
  destruct (first_index (fun p => negb (is_none p)) t 0) as [k|] eqn:K.
  2:{ exfalso. destruct bs as [|b bs]; [cbn in L; lia|]. inversion PL as [|? j ? p' Hj Hp]; subst.
      assert (In (PBdc b) t) as Q.
      { rewrite <- Hj. apply nth_In. destruct SL as [SL _]. rewrite SL.
        exact (proj1 (Forall_forall _ _) (seats_bound _ _ S) j (or_introl eq_refl)). }
      pose proof (first_index_none _ _ _ K _ Q). discriminate. }
  destruct (first_index_spec _ _ _ _ PNone K) as [KB KN]. rewrite Nat.sub_0_r in KN. destruct SL as [SLL SLS]. rewrite SLL in KB. cbn in KB.
  assert (nth k t PNone <> PNone) as KN' by (intros X; rewrite X in KN; discriminate).
  assert (exists t' c0 c1 c2 c3, (if (length bs =? 1)%nat then spread_corners 3 k t else fill_corners 3 k t) = Ok t' /\ keeps t t' /\ all_full corner_dirs t' c0 c1 c2 c3) as (t' & c0 & c1 & c2 & c3 & E' & KP & FU).
  { destruct (Nat.eqb_spec (length bs) 1) as [O|O].
    - destruct bs as [|b [|? ?]]; try (cbn in O; lia). inversion S as [|? j ? p' Hj Hp]; subst. inversion Hp; subst. inversion I as [|? ? Ib _]; subst.
      assert (j < 4)%nat as J by exact (proj1 (Forall_forall _ _) (seats_bound _ _ S) j (or_introl eq_refl)).
      assert (k = j) as ->.
      { unfold t in KN'. cbn [place_corners] in KN'. destruct (Nat.eq_dec k j) as [Q|Q]; [exact Q|]. exfalso. apply KN'. rewrite setat_nth by (cbn; lia).
        apply Nat.neq_sym, Nat.eqb_neq in Q. rewrite Q. clear. destruct k as [|[|[|[|[|k]]]]]; reflexivity. }
      exact (spread_ok j b J Ib Hj).
    - apply fill_ok; [lia|split; assumption|exact KN']. }
  rewrite E'. cbn [bind]. destruct (sides_ok t' c0 c1 c2 c3 FU) as (s0 & s1 & s2 & s3 & E0 & E1 & E2 & E3 & T & SP).
  rewrite E0, E1, E2, E3. cbn [bind]. exists (Frame c0 s0 c1 s3 s1 c3 s2 c2), p. destruct FU as [-> _].
  split; [reflexivity|]. split; [exact T|]. split; [|exact SP]. split; [split; assumption|]. clearbody t. clear - PL KP S.
  apply seats_bound in S. revert S KP. induction PL as [|b j bs p Hj PL IH]; intros S KP; [constructor|]. inversion S as [|? ? Sj Sp]; subst. constructor; [|exact (IH Sp KP)].
  assert (nth j [PBdc c0; PBdc c1; PBdc c2; PBdc c3] PNone = PBdc b) as X by (rewrite KP; rewrite Hj; [reflexivity|discriminate]).
  clear - X Sj. four_cases j Sj; injection X as ->; reflexivity.
Qed.
Lemma span_meet c d a e d' b e' : d <> d' -> spans c d a e d' b e' -> joinable d a e d' b e' -> meet a e c d /\ meet c d' b e'.
Proof.
  intros ND (s & s' & A & B & C) (s1 & s2 & x & A1 & B1 & D). rewrite A in A1. injection A1 as <-. rewrite B in B1. injection B1 as <-.
  assert (NoDup (map fst [(d, s); (d', s')])) as N by (cbn; repeat constructor; cbn; intuition congruence).
  pose proof (fuzzy_drawn _ _ N D) as F. apply fuzzy_iff in F. pose proof (closest_unique _ _ _ F C) as ->.
  split; [exists s; split; [exact A|]|exists s'; split; [|exact B]]; apply (arm_drawn _ _ _ _ D); [now left|right; now left].
Qed.
Theorem corners_joined x : sides_span x ->
  joinable DW (f_nw x) DE DE (f_ne x) DW -> joinable DN (f_ne x) DS DS (f_se x) DN ->
  joinable DE (f_se x) DW DW (f_sw x) DE -> joinable DS (f_sw x) DN DN (f_nw x) DS -> joined x.
Proof.
  intros (P0 & P1 & P2 & P3) J0 J1 J2 J3.
  assert (DW <> DE) as N0 by discriminate. assert (DN <> DS) as N1 by discriminate.
  assert (DE <> DW) as N2 by discriminate. assert (DS <> DN) as N3 by discriminate.
  destruct (span_meet _ _ _ _ _ _ _ N0 P0 J0) as [M0 M1].
  destruct (span_meet _ _ _ _ _ _ _ N1 P1 J1) as [M2 M3].
  destruct (span_meet _ _ _ _ _ _ _ N2 P2 J2) as [M4 M5].
  destruct (span_meet _ _ _ _ _ _ _ N3 P3 J3) as [M6 M7].
  unfold joined. auto 10.
Qed.
