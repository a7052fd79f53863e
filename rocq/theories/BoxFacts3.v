From Verif Require Export BoxFacts2.
From Coq Require Import Lia.
Opaque instances.

(** * Characters with two given arms *)
Definition styles : list style :=
  [light; heavy; double; Sty Light Single DashTriple Segment; Sty Heavy Single DashTriple Segment; Sty Light Single DashQuad Segment;
   Sty Heavy Single DashQuad Segment; Sty Light Single DashDouble Segment; Sty Heavy Single DashDouble Segment; Sty Light Single DashNone Arc].
Lemma table_styles b d s : In b instances -> arm b d = Some s -> In s styles.
Proof.
  intros I A. apply arm_in in A.
  assert (forallb (fun b => forallb (fun x => existsb (fun s => style_distance (snd x) s =? 0) styles) (b_ds b)) instances = true) as H by (vm_compute; reflexivity).
  pose proof (proj1 (forallb_forall _ _) (proj1 (forallb_forall _ _) H b I) (d, s) A) as E. apply existsb_exists in E.
  destruct E as (y & J & E). cbn [snd] in E. rewrite style_distance_differ in E. apply Z.eqb_eq, differ_zero in E. subst y. exact J.
Qed.
Definition pairs : list (dir * dir) :=
  [(DN, DS); (DS, DN); (DE, DW); (DW, DE); (DN, DE); (DE, DN); (DE, DS); (DS, DE); (DS, DW); (DW, DS); (DW, DN); (DN, DW)].
Definition both (b : bdc) (d : dir * dir) : Prop := arm b (fst d) <> None /\ arm b (snd d) <> None.
Lemma pair_arms d1 d2 s1 s2 : In (d1, d2) pairs -> In s1 styles -> In s2 styles ->
  exists b, from_direction_styles [(d1, s1); (d2, s2)] true = Ok b /\ closest [(d1, s1); (d2, s2)] b /\ In b instances /\ both b (d1, d2).
Proof.
  intros P I J.
  assert (forallb (fun p => forallb (fun s1 => forallb (fun s2 =>
    match from_direction_styles [(fst p, s1); (snd p, s2)] true with
    | Ok b => match ds_get (b_ds b) (fst p), ds_get (b_ds b) (snd p) with Some _, Some _ => true | _, _ => false end
    | Err _ => false end) styles) styles) pairs = true) as H by (vm_compute; reflexivity).
  pose proof (proj1 (forallb_forall _ _) (proj1 (forallb_forall _ _) (proj1 (forallb_forall _ _) H _ P) s1 I) s2 J) as E.
  cbn [fst snd] in E. clear H. destruct (from_direction_styles _ true) as [b|] eqn:F; [|discriminate].
  exists b. split; [reflexivity|]. apply fuzzy_iff in F. split; [exact F|]. split; [exact (proj1 (closest_in _ _ F))|].
  unfold both. cbn [fst snd]. rewrite <- !ds_get_arm. destruct (ds_get (b_ds b) d1), (ds_get (b_ds b) d2); try discriminate. split; discriminate.
Qed.
Lemma opt_styles a b : from_opt_styles [Some a; Some b] = from_direction_styles [a; b] true.
Proof. reflexivity. Qed.
Lemma get_some b d s : arm b d = Some s -> ds_get (b_ds b) d = Some (d, s).
Proof.
  rewrite <- ds_get_arm. destruct (ds_get (b_ds b) d) as [x|] eqn:E; [|discriminate]. cbn. intros [= <-].
  destruct (ds_get_fst _ _ _ E) as [<- _]. destruct x; reflexivity.
Qed.
Lemma arm_ex b d : arm b d <> None -> exists s, arm b d = Some s.
Proof. destruct (arm b d) as [s|]; [intros _; exists s; reflexivity|congruence]. Qed.

(** * Arms after turning and mirroring *)
Lemma arm_drawn ts b d s : drawn ts b -> In (d, s) ts -> arm b d = Some s.
Proof. intros [I P] J. apply arm_of; [exact (table_dirs b I)|]. exact (Permutation_in _ P J). Qed.
Lemma turn_arm a b c d s : a mod 90 = 0 -> In b instances -> bdc_rotate b a = Ok c -> arm b d = Some s -> arm c (rotate d a) = Some s.
Proof.
  intros H I E A. destruct (turn_ok a b H I) as [_ (c' & E' & D)]. rewrite E in E'. injection E' as <-.
  apply (arm_drawn _ _ _ _ D). apply arm_in in A. exact (in_map (ds_rotate a) _ _ A).
Qed.
Lemma mirror_arm f b c d s : In b instances -> bdc_reflect b f = Ok c -> arm b d = Some s -> arm c (reflect d f) = Some s.
Proof.
  intros I E A. destruct (mirror_ok f b I) as [_ (c' & E' & D)]. rewrite E in E'. injection E' as <-.
  apply (arm_drawn _ _ _ _ D). apply arm_in in A. exact (in_map (ds_reflect f) _ _ A).
Qed.
Lemma turn_both b c d1 d2 : In b instances -> bdc_rotate b 90 = Ok c -> both b (d1, d2) -> both c (rotate d1 90, rotate d2 90).
Proof.
  intros I E [A B]. destruct (arm_ex _ _ A) as [s1 A1], (arm_ex _ _ B) as [s2 B1]. cbn [fst snd] in *.
  split; cbn [fst snd]; [rewrite (turn_arm 90 b c d1 s1 eq_refl I E A1)|rewrite (turn_arm 90 b c d2 s2 eq_refl I E B1)]; discriminate.
Qed.
Lemma mirror_both f b c d1 d2 : In b instances -> bdc_reflect b f = Ok c -> both b (d1, d2) -> both c (reflect d1 f, reflect d2 f).
Proof.
  intros I E [A B]. destruct (arm_ex _ _ A) as [s1 A1], (arm_ex _ _ B) as [s2 B1]. cbn [fst snd] in *.
  split; cbn [fst snd]; [rewrite (mirror_arm f b c d1 s1 I E A1)|rewrite (mirror_arm f b c d2 s2 I E B1)]; discriminate.
Qed.
Lemma both_swap b d1 d2 : both b (d1, d2) -> both b (d2, d1).
Proof. intros [A B]. split; assumption. Qed.

(** * The four places of corners (or sides), with the arms they need *)
Definition slot (d : dir * dir) (p : part) : Prop :=
  match p with PNone => True | PBdc b => In b instances /\ both b d | PStr _ => False end.
Definition full (d : dir * dir) (p : part) : Prop := exists b, p = PBdc b /\ In b instances /\ both b d.
Definition slots (ds : list (dir * dir)) (l : list part) : Prop := length l = 4%nat /\ forall i, (i < 4)%nat -> slot (nth i ds (DN, DN)) (nth i l PNone).
Definition keeps (l l' : list part) : Prop := forall i, nth i l PNone <> PNone -> nth i l' PNone = nth i l PNone.
Lemma keeps_trans a b c : keeps a b -> keeps b c -> keeps a c.
Proof. intros H K i N. rewrite (K i); [exact (H i N)|]. rewrite (H i N). exact N. Qed.
Lemma keeps_refl a : keeps a a.
Proof. intros i N. reflexivity. Qed.
Lemma set_len {A} (l : list A) i x : length (set_at l i x) = length l.
Proof. revert i. induction l as [|y r IH]; intros [|i]; cbn; try reflexivity. rewrite IH. reflexivity. Qed.
Lemma setat_nth {A} (l : list A) i j x d : (i < length l)%nat -> nth j (set_at l i x) d = if (i =? j)%nat then x else nth j l d.
Proof.
  revert i j. induction l as [|y r IH]; intros i j L; cbn in L; [lia|]. destruct i as [|i], j as [|j]; cbn; try reflexivity.
  apply IH. lia.
Qed.
Lemma set_slots ds l i b : slots ds l -> (i < 4)%nat -> nth i l PNone = PNone -> In b instances -> both b (nth i ds (DN, DN)) ->
  slots ds (set_at l i (PBdc b)) /\ keeps l (set_at l i (PBdc b)) /\ nth i (set_at l i (PBdc b)) PNone = PBdc b.
Proof.
  intros [L S] B N I H. split; [|split].
  - split; [rewrite set_len; exact L|]. intros j J. rewrite setat_nth by lia. destruct (Nat.eqb_spec i j) as [<-|_]; [split; assumption|exact (S j J)].
  - intros j M. rewrite setat_nth by lia. destruct (Nat.eqb_spec i j) as [<-|_]; [congruence|reflexivity].
  - rewrite setat_nth by lia. rewrite Nat.eqb_refl. reflexivity.
Qed.
Lemma slot_bdc ds l i : slots ds l -> (i < 4)%nat -> nth i l PNone <> PNone -> full (nth i ds (DN, DN)) (nth i l PNone).
Proof.
  intros [_ S] B N. specialize (S i B). destruct (nth i l PNone) as [|s|b]; [congruence|destruct S|]. exists b. auto.
Qed.

(** * The character between two corners *)
Lemma link_ok x y da db s1 s2 : arm x (fst da) = Some s1 -> arm y (snd db) = Some s2 ->
  corner_link (PBdc x) (PBdc y) da db = from_direction_styles [(rotate (fst da) 180, s1); (rotate (snd db) 180, s2)] true.
Proof.
  intros A B. unfold corner_link. cbn [as_bdc bind]. rewrite (get_some _ _ _ A), (get_some _ _ _ B). reflexivity.
Qed.
Lemma is_none_spec p : is_none p = true <-> p = PNone.
Proof. destruct p; cbn; split; congruence. Qed.

(** * One corner *)
Lemma four_mod {A} (l : list A) i d : four l (i mod 4) d = four l i d.
Proof. unfold four. rewrite Nat.mod_mod by lia. reflexivity. Qed.
Lemma succ_mod i : (S (i mod 4) mod 4 = S i mod 4)%nat.
Proof.
  change (S (i mod 4)) with (1 + i mod 4)%nat. rewrite Nat.add_mod_idemp_r by lia. reflexivity.
Qed.
Lemma four_succ {A} (l : list A) i d : four l (S (i mod 4)) d = four l (S i) d.
Proof. unfold four. rewrite succ_mod. reflexivity. Qed.
Lemma spread_mod n i t : spread_corners n (i mod 4) t = spread_corners n i t.
Proof.
  revert i t. induction n as [|n IH]; intros i t; cbn [spread_corners]; [reflexivity|].
  rewrite !four_mod, succ_mod. destruct (as_bdc (four t i PNone)) as [b|]; [|reflexivity]. cbn [bind].
  destruct (bdc_reflect _ _) as [c|]; [|reflexivity]. cbn [bind].
  rewrite <- (IH (S (i mod 4))), succ_mod, IH. reflexivity.
Qed.
Lemma fill_mod n i t : fill_corners n (i mod 4) t = fill_corners n i t.
Proof.
  revert i t. induction n as [|n IH]; intros i t; cbn [fill_corners]; [reflexivity|].
  rewrite succ_mod, !four_mod.
  assert (forall u, fill_corners n (S (i mod 4)) u = fill_corners n (S i) u) as F by (intros u; rewrite <- (IH (S (i mod 4))), succ_mod, IH; reflexivity).
  destruct (negb _); [apply F|]. destruct (if is_none _ then _ else _); [|reflexivity]. cbn [bind]. apply F.
Qed.

Lemma lt4 i : (i mod 4 < 4)%nat.
Proof. apply Nat.mod_upper_bound. lia. Qed.
Ltac four_cases i B := destruct i as [|[|[|[|i]]]]; [| | | |exfalso; lia].
Lemma spread_step n i t b : (i < 4)%nat -> slots corner_dirs t -> nth i t PNone = PBdc b -> nth (S i mod 4) t PNone = PNone ->
  exists c, spread_corners (S n) i t = spread_corners n (S i mod 4) (set_at t (S i mod 4) (PBdc c)) /\
    bdc_reflect b (snd (nth i corner_dirs (DN, DN))) = Ok c /\
    slots corner_dirs (set_at t (S i mod 4) (PBdc c)) /\ keeps t (set_at t (S i mod 4) (PBdc c)) /\ nth (S i mod 4) (set_at t (S i mod 4) (PBdc c)) PNone = PBdc c.
Proof.
  intros B S N M. assert (full (nth i corner_dirs (DN, DN)) (nth i t PNone)) as (b' & E & I & H) by (apply (slot_bdc _ _ _ S B); congruence).
  rewrite N in E. injection E as <-.
  destruct (mirror_ok (snd (nth i corner_dirs (DN, DN))) b I) as [_ (c & E & [J _])].
  exists c. split; [|split; [exact E|]].
  - cbn [spread_corners]. unfold four at 1 2. rewrite (Nat.mod_small i 4) by lia. rewrite N. cbn [as_bdc bind]. rewrite E. cbn [bind].
    rewrite spread_mod. reflexivity.
  - apply set_slots; [exact S|apply Nat.mod_upper_bound; lia|exact M|exact J|].
    four_cases i B; pose proof (mirror_both _ _ _ _ _ I E H) as K; cbn in K |- *; try exact K; exact (both_swap _ _ _ K).
Qed.
Lemma fill_step n i t : (i < 4)%nat -> slots corner_dirs t -> nth i t PNone <> PNone ->
  exists t', fill_corners (S n) i t = fill_corners n (S i mod 4) t' /\ slots corner_dirs t' /\ keeps t t' /\ nth (S i mod 4) t' PNone <> PNone.
Proof.
  intros B SL N. destruct (slot_bdc _ _ _ SL B N) as (b & E & I & H).
  set (cur := (S i mod 4)%nat). assert (cur < 4)%nat as C by (apply Nat.mod_upper_bound; lia).
  assert (fill_corners (S n) i t =
    if negb (is_none (nth cur t PNone)) then fill_corners n cur t
    else do c <- (if is_none (nth (S cur mod 4) t PNone) then bdc_rotate b 90
          else corner_link (PBdc b) (nth (S cur mod 4) t PNone) (nth i corner_dirs (DN, DN)) (nth (S cur mod 4) corner_dirs (DN, DN)));
      fill_corners n cur (set_at t cur (PBdc c))) as U.
  { cbn [fill_corners]. fold cur. unfold four. rewrite (Nat.mod_small i 4), (Nat.mod_small cur 4) by lia. rewrite E. cbn [as_bdc bind].
    destruct (negb _); [symmetry; apply fill_mod|]. destruct (if is_none _ then _ else _); [|reflexivity]. cbn [bind]. symmetry. apply fill_mod. }
  rewrite U. clear U. destruct (is_none (nth cur t PNone)) eqn:M; cbn [negb].
  2:{ exists t. split; [reflexivity|]. split; [exact SL|]. split; [apply keeps_refl|]. intros Q. rewrite Q in M. discriminate. }
  apply is_none_spec in M.
  assert (exists c, (if is_none (nth (S cur mod 4) t PNone) then bdc_rotate b 90
          else corner_link (PBdc b) (nth (S cur mod 4) t PNone) (nth i corner_dirs (DN, DN)) (nth (S cur mod 4) corner_dirs (DN, DN))) = Ok c /\
          In c instances /\ both c (nth cur corner_dirs (DN, DN))) as (c & Ec & Ic & Hc).
  { destruct (is_none (nth (S cur mod 4) t PNone)) eqn:Q.
    - destruct (turn_ok 90 b eq_refl I) as [_ (c & Ec & [J _])]. exists c. split; [exact Ec|]. split; [exact J|].
      unfold cur. clear - B I Ec H. four_cases i B; exact (turn_both _ _ _ _ I Ec H).
    - assert (nth (S cur mod 4) t PNone <> PNone) as Q' by (intros X; rewrite X in Q; discriminate).
      destruct (slot_bdc _ _ _ SL (lt4 _) Q') as (y & Ey & Iy & Hy). rewrite Ey.
      destruct (arm_ex _ _ (proj1 H)) as [s1 A1], (arm_ex _ _ (proj2 Hy)) as [s2 A2].
      rewrite (link_ok _ _ _ _ _ _ A1 A2).
      assert (In (rotate (fst (nth i corner_dirs (DN, DN))) 180, rotate (snd (nth (S cur mod 4) corner_dirs (DN, DN))) 180) pairs) as P.
      { unfold cur. clear - B. four_cases i B; vm_compute; tauto. }
      destruct (pair_arms _ _ s1 s2 P (table_styles _ _ _ I A1) (table_styles _ _ _ Iy A2)) as (c & Ec & _ & Ic & Hc).
      exists c. split; [exact Ec|]. split; [exact Ic|]. unfold cur in *. clear - Hc B. four_cases i B; exact (both_swap _ _ _ Hc). }
  rewrite Ec. cbn [bind]. exists (set_at t cur (PBdc c)). split; [reflexivity|].
  destruct (set_slots corner_dirs t cur c SL C M Ic Hc) as (S' & K & X). split; [exact S'|]. split; [exact K|]. rewrite X. discriminate.
Qed.
Definition all_full (ds : list (dir * dir)) (t : list part) (c0 c1 c2 c3 : bdc) : Prop :=
  t = [PBdc c0; PBdc c1; PBdc c2; PBdc c3] /\ slots ds t.
Lemma all_some ds t : slots ds t -> (forall i, (i < 4)%nat -> nth i t PNone <> PNone) -> exists c0 c1 c2 c3, all_full ds t c0 c1 c2 c3.
Proof.
  intros S N. destruct t as [|p0 [|p1 [|p2 [|p3 [|? ?]]]]]; try (destruct S as [L _]; cbn in L; lia).
  destruct (slot_bdc _ _ 0%nat S ltac:(lia) (N 0%nat ltac:(lia))) as (c0 & E0 & _ & _).
  destruct (slot_bdc _ _ 1%nat S ltac:(lia) (N 1%nat ltac:(lia))) as (c1 & E1 & _ & _).
  destruct (slot_bdc _ _ 2%nat S ltac:(lia) (N 2%nat ltac:(lia))) as (c2 & E2 & _ & _).
  destruct (slot_bdc _ _ 3%nat S ltac:(lia) (N 3%nat ltac:(lia))) as (c3 & E3 & _ & _).
  cbn in E0, E1, E2, E3. subst. exists c0, c1, c2, c3. split; [reflexivity|exact S].
Qed.
Lemma fill_ok i t : (i < 4)%nat -> slots corner_dirs t -> nth i t PNone <> PNone ->
  exists t' c0 c1 c2 c3, fill_corners 3 i t = Ok t' /\ keeps t t' /\ all_full corner_dirs t' c0 c1 c2 c3.
Proof.
  intros B S N.
  destruct (fill_step 2 i t B S N) as (t1 & E1 & S1 & K1 & N1).
  destruct (fill_step 1 _ t1 (lt4 _) S1 N1) as (t2 & E2 & S2 & K2 & N2).
  destruct (fill_step 0 _ t2 (lt4 _) S2 N2) as (t3 & E3 & S3 & K3 & N3).
  assert (keeps t t3) as K by exact (keeps_trans _ _ _ K1 (keeps_trans _ _ _ K2 K3)).
  assert (keeps t1 t3) as K13 by exact (keeps_trans _ _ _ K2 K3).
  destruct (all_some corner_dirs t3 S3) as (c0 & c1 & c2 & c3 & F).
  { assert (nth i t3 PNone <> PNone) as M0 by (rewrite (K i N); exact N).
    assert (nth (Datatypes.S i mod 4) t3 PNone <> PNone) as M1 by (rewrite (K13 _ N1); exact N1).
    assert (nth (Datatypes.S (Datatypes.S i mod 4) mod 4) t3 PNone <> PNone) as M2 by (rewrite (K3 _ N2); exact N2).
    clear - B M0 M1 M2 N3. four_cases i B; cbn in M0, M1, M2, N3; intros j J; four_cases j J; assumption. }
  exists t3, c0, c1, c2, c3. split; [|split; [exact K|exact F]]. rewrite E1, E2, E3. reflexivity.
Qed.
