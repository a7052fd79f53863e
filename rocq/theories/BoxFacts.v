From Verif Require Export SpecBox.
From Coq Require Import Lia.
Opaque instances.

(** * Directions *)
Lemma from_degrees_val z : dvalue (from_degrees z) = z mod 360 / 45 * 45.
Proof.
  unfold from_degrees. pose proof (Z.mod_pos_bound z 360 ltac:(lia)) as B. set (m := z mod 360) in *. clearbody m.
  pose proof (Z.div_mod m 45 ltac:(lia)) as D. pose proof (Z.mod_pos_bound m 45 ltac:(lia)) as D'.
  set (q := m / 45) in *. clearbody q.
  assert (q = 0 \/ q = 1 \/ q = 2 \/ q = 3 \/ q = 4 \/ q = 5 \/ q = 6 \/ q = 7) as H by lia.
  destruct H as [H|[H|[H|[H|[H|[H|[H|H]]]]]]]; rewrite H; reflexivity.
Qed.
Lemma from_degrees_range z : dvalue (from_degrees z) <= z mod 360 < dvalue (from_degrees z) + 45.
Proof.
  rewrite from_degrees_val. set (m := z mod 360).
  pose proof (Z.div_mod m 45 ltac:(lia)) as D. pose proof (Z.mod_pos_bound m 45 ltac:(lia)) as D'. lia.
Qed.
Lemma dvalue_inj a b : dvalue a = dvalue b -> a = b.
Proof. destruct a, b; cbn; intros H; try reflexivity; discriminate. Qed.
Lemma dvalue_mod d : dvalue d mod 45 = 0.
Proof. destruct d; reflexivity. Qed.
Lemma dvalue_bound d : 0 <= dvalue d < 360.
Proof. destruct d; cbn; lia. Qed.
Lemma mul_45 z : z mod 45 = 0 -> exists k, z = 45 * k.
Proof. intros H. exists (z / 45). pose proof (Z.div_mod z 45 ltac:(lia)) as D. lia. Qed.
Lemma rotate_val d a : a mod 45 = 0 -> dvalue (rotate d a) = (dvalue d + a) mod 360.
Proof.
  intros H. unfold rotate. rewrite from_degrees_val.
  destruct (mul_45 _ H) as [k ->]. destruct (mul_45 _ (dvalue_mod d)) as [j ->].
  rewrite <- Z.mul_add_distr_l. change 360 with (45 * 8). rewrite Z.mul_mod_distr_l by lia.
  rewrite (Z.mul_comm 45 ((_ + _) mod 8)), Z.div_mul by lia. reflexivity.
Qed.
Lemma from_degrees_mod a b : a mod 360 = b mod 360 -> from_degrees a = from_degrees b.
Proof. intros H. apply dvalue_inj. rewrite !from_degrees_val, H. reflexivity. Qed.
Lemma from_degrees_dvalue d : from_degrees (dvalue d) = d.
Proof. destruct d; reflexivity. Qed.
Lemma rotate_rotate d a b : a mod 45 = 0 -> rotate (rotate d a) b = rotate d (a + b).
Proof.
  intros H. unfold rotate at 1 3. apply from_degrees_mod. rewrite rotate_val by exact H.
  rewrite Zplus_mod_idemp_l. f_equal. lia.
Qed.
Lemma rotate_360 d k : rotate d (360 * k) = d.
Proof.
  rewrite <- (from_degrees_dvalue d) at 2. apply from_degrees_mod.
  rewrite Z.mul_comm, Z_mod_plus_full. reflexivity.
Qed.
Lemma rotate_mod d a b : a mod 360 = b mod 360 -> rotate d a = rotate d b.
Proof. intros H. apply from_degrees_mod. rewrite (Zplus_mod (dvalue d) a), (Zplus_mod (dvalue d) b), H. reflexivity. Qed.
Lemma reflect_val d s : dvalue (reflect d s) = (2 * dvalue s - dvalue d) mod 360.
Proof. unfold reflect. rewrite rotate_val. - f_equal. lia. - destruct d, s; reflexivity. Qed.
Lemma reflect_reflect d s t : reflect (reflect d s) t = rotate d (2 * (dvalue t - dvalue s)).
Proof. destruct d, s, t; reflexivity. Qed.

(** * The distance *)
Lemma dir_eqb_dec a b : dir_eqb a b = if dir_dec a b then true else false.
Proof. destruct a, b; reflexivity. Qed.
Lemma ds_get_arm b d : option_map snd (ds_get (b_ds b) d) = arm b d.
Proof.
  unfold ds_get, arm. f_equal. induction (b_ds b) as [|x r IH]; [reflexivity|]. cbn [find]. rewrite dir_eqb_dec.
  destruct (dir_dec (fst x) d); [reflexivity|exact IH].
Qed.
Lemma ds_get_fst l d x : ds_get l d = Some x -> fst x = d /\ In x l.
Proof.
  unfold ds_get. intros H. pose proof (find_some _ _ H) as [I E]. rewrite dir_eqb_dec in E.
  destruct (dir_dec (fst x) d) as [e|]; [split; [exact e|exact I]|discriminate].
Qed.
Lemma style_distance_differ a b : style_distance a b = differ a b.
Proof. destruct a as [[] [] [] []], b as [[] [] [] []]; reflexivity. Qed.
Lemma differ_nonneg a b : 0 <= differ a b.
Proof. destruct a, b; cbn. destruct weight_dec, count_dec, dash_dec, path_dec; lia. Qed.
Lemma differ_zero a b : differ a b = 0 <-> a = b.
Proof.
  destruct a as [w c d p], b as [w' c' d' p']; cbn. split.
  - destruct weight_dec, count_dec, dash_dec, path_dec; intros H; try lia; subst; reflexivity.
  - intros [= -> -> -> ->]. destruct weight_dec, count_dec, dash_dec, path_dec; first [reflexivity|congruence].
Qed.
Lemma mismatch_nonneg b t : 0 <= mismatch b t.
Proof. unfold mismatch. destruct (arm b (fst t)); [apply differ_nonneg|lia]. Qed.
Lemma total_nonneg ts b : 0 <= total ts b.
Proof. induction ts as [|t r IH]; cbn [total]; [lia|]. pose proof (mismatch_nonneg b t). lia. Qed.
Lemma distance_total b ts : distance b ts = total ts b.
Proof.
  unfold distance. enough (forall n, fold_left (fun rv t => rv + match ds_get (b_ds b) (fst t) with None => 4 | Some x => style_distance (snd t) (snd x) end) ts n = n + total ts b) as H by (rewrite H; lia).
  induction ts as [|t r IH]; intros n; cbn [fold_left total]; [lia|]. rewrite IH. unfold mismatch. rewrite <- ds_get_arm.
  destruct (ds_get (b_ds b) (fst t)) as [x|]; cbn [option_map]; [rewrite style_distance_differ|]; lia.
Qed.
Lemma mismatch_zero b t : mismatch b t = 0 <-> arm b (fst t) = Some (snd t).
Proof.
  unfold mismatch. destruct (arm b (fst t)) as [s|]; [|split; intros H; [lia|discriminate]].
  rewrite differ_zero. split; [intros ->; reflexivity|intros [= ->]; reflexivity].
Qed.
Lemma total_zero ts b : total ts b = 0 <-> forall t, In t ts -> arm b (fst t) = Some (snd t).
Proof.
  induction ts as [|t r IH]; cbn [total In].
  - split; [intros _ t []|reflexivity].
  - pose proof (mismatch_nonneg b t). pose proof (total_nonneg r b). split.
    + intros Z t' [<-|I]; [apply mismatch_zero; lia|]. apply IH; [lia|exact I].
    + intros A. assert (mismatch b t = 0) by (apply mismatch_zero; auto). assert (total r b = 0) by (apply IH; auto). lia.
Qed.
Lemma arm_in b d s : arm b d = Some s -> In (d, s) (b_ds b).
Proof.
  rewrite <- ds_get_arm. destruct (ds_get (b_ds b) d) as [x|] eqn:E; [|discriminate]. cbn [option_map]. intros [= <-].
  destruct (ds_get_fst _ _ _ E) as [<- I]. destruct x; exact I.
Qed.
Lemma arm_of b d s : NoDup (map fst (b_ds b)) -> In (d, s) (b_ds b) -> arm b d = Some s.
Proof.
  unfold arm. induction (b_ds b) as [|x r IH]; intros N I; [destruct I|]. cbn [find].
  inversion N as [|? ? N1 N2]; subst. destruct I as [->|I].
  - cbn [fst]. destruct (dir_dec d d); [reflexivity|congruence].
  - destruct (dir_dec (fst x) d) as [e|]; [|exact (IH N2 I)]. exfalso. apply N1. rewrite e. exact (in_map fst _ _ I).
Qed.
Lemma total_drawn ts b : NoDup (map fst ts) -> arms b = length ts -> total ts b = 0 <-> Permutation ts (b_ds b).
Proof.
  intros N L. split.
  - intros Z. apply NoDup_Permutation_bis.
    + exact (NoDup_map_inv _ _ N).
    + unfold arms in L. apply Nat.eq_le_incl. exact L.
    + intros [d s] I. apply arm_in. exact (proj1 (total_zero _ _) Z _ I).
  - intros P. apply total_zero. intros [d s] I. apply arm_of.
    + exact (Permutation_NoDup (Permutation_map fst P) N).
    + exact (Permutation_in _ P I).
Qed.

(** * The loop over the candidates *)
Definition fitting (n : nat) (l : list bdc) : list bdc := filter (fun b => (length (b_ds b) =? n)%nat) l.
Lemma in_fitting n l b : In b (fitting n l) <-> In b l /\ arms b = n.
Proof. unfold fitting, arms. rewrite filter_In, Nat.eqb_eq. reflexivity. Qed.
Definition first_best (ts : list dstyle) (l : list bdc) (b : bdc) : Prop :=
  exists before after, l = before ++ b :: after /\
    (forall c, In c before -> total ts b < total ts c) /\ (forall c, In c after -> total ts b <= total ts c).
Lemma fuzzy_some l ts s b : s = total ts b ->
  exists s' b', fuzzy_loop l ts (Some (s, b)) = Some (s', b') /\ first_best ts (b :: l) b'.
Proof.
  revert s b. induction l as [|c r IH]; intros s b ->; cbn [fuzzy_loop].
  - exists (total ts b), b. split; [reflexivity|]. exists [], []. split; [reflexivity|]. split; intros ? [].
  - rewrite distance_total. destruct (Z.ltb_spec (total ts c) (total ts b)) as [H|H].
    + destruct (IH (total ts c) c eq_refl) as (s' & b' & E & bef & aft & El & B & A). exists s', b'. split; [exact E|].
      exists (b :: bef), aft. split; [cbn; rewrite El; reflexivity|]. split; [|exact A].
      intros x [<-|I]; [|exact (B x I)].
      destruct bef as [|y bef]; cbn in El; injection El as Ec El; subst.
      * exact H.
      * pose proof (B y (or_introl eq_refl)). lia.
    + destruct (IH (total ts b) b eq_refl) as (s' & b' & E & bef & aft & El & B & A). exists s', b'. split; [exact E|].
      destruct bef as [|y bef]; cbn in El; injection El as Ec El; subst.
      * exists [], (c :: aft). split; [reflexivity|]. split; [intros ? []|]. intros x [<-|I]; [lia|exact (A x I)].
      * exists (y :: c :: bef), aft. split; [reflexivity|]. split; [|exact A]. pose proof (B y (or_introl eq_refl)).
        intros x [<-|[<-|I]]; [lia|lia|]. apply B. now right.
Qed.
Lemma first_best_unique ts l b b' : first_best ts l b -> first_best ts l b' -> b = b'.
Proof.
  intros (p & q & E & P & Q) (p' & q' & E' & P' & Q'). rewrite E in E'. clear E.
  revert p' E' P'. induction p as [|x p IH]; intros p' E' P'.
  - destruct p' as [|y p']; cbn in E'; [injection E' as ->; reflexivity|]. injection E' as -> ->.
    pose proof (P' y (or_introl eq_refl)). pose proof (Q b' ltac:(apply in_or_app; right; now left)). lia.
  - destruct p' as [|y p']; cbn in E'.
    + injection E' as -> <-. pose proof (P b' (or_introl eq_refl)). pose proof (Q' b ltac:(apply in_or_app; right; now left)). lia.
    + injection E' as -> E'. apply (IH (fun c I => P c (or_intror I)) p' E'). intros c I. apply P'. now right.
Qed.
Lemma fitting_split n l b p q : fitting n l = p ++ b :: q ->
  exists p' q', l = p' ++ b :: q' /\ p = fitting n p' /\ q = fitting n q'.
Proof.
  revert p. induction l as [|x l IH]; intros p E; cbn in E; [destruct p; discriminate|].
  destruct (Nat.eqb_spec (length (b_ds x)) n) as [L|L].
  - destruct p as [|y p]; cbn in E.
    + injection E as -> <-. exists [], l. auto.
    + injection E as -> E. destruct (IH p E) as (p' & q' & -> & -> & ->). exists (y :: p'), q'.
      split; [reflexivity|]. split; [|reflexivity]. cbn. apply Nat.eqb_eq in L. rewrite L. reflexivity.
  - destruct (IH p E) as (p' & q' & -> & -> & ->). exists (x :: p'), q'.
    split; [reflexivity|]. split; [|reflexivity]. cbn. apply Nat.eqb_neq in L. rewrite L. reflexivity.
Qed.
Lemma fitting_app n a b : fitting n (a ++ b) = fitting n a ++ fitting n b.
Proof. apply filter_app. Qed.
Lemma closest_iff ts b : closest ts b <-> first_best ts (fitting (length ts) instances) b.
Proof.
  split.
  - intros (p & q & E & L & P & Q). rewrite E, fitting_app. unfold fitting at 2. cbn [filter].
    unfold arms in L. rewrite (proj2 (Nat.eqb_eq _ _) L). exists (fitting (length ts) p), (fitting (length ts) q).
    split; [reflexivity|]. split; intros c I; apply in_fitting in I; [apply P|apply Q]; tauto.
  - intros (p & q & E & P & Q). destruct (fitting_split _ _ _ _ _ E) as (p' & q' & E' & -> & ->).
    exists p', q'. split; [exact E'|]. split.
    + assert (In b (fitting (length ts) instances)) as I by (rewrite E; apply in_or_app; right; now left).
      apply in_fitting in I. tauto.
    + split; intros c I L; [apply P|apply Q]; apply in_fitting; tauto.
Qed.
Lemma look_unfold ts fuzzy : from_direction_styles ts fuzzy =
  if fuzzy then match fuzzy_loop (fitting (length ts) instances) ts None with Some (_, b) => Ok b | None => Err UnboundLocalError end
  else match find (fun b => distance b ts =? 0) (fitting (length ts) instances) with Some b => Ok b | None => Err ValueError end.
Proof. unfold from_direction_styles, fitting. cbv zeta. reflexivity. Qed.
Lemma fuzzy_spec ts :
  match from_direction_styles ts true with
  | Ok b => closest ts b
  | Err e => e = UnboundLocalError /\ forall b, In b instances -> arms b <> length ts
  end.
Proof.
  rewrite look_unfold.
  destruct (fitting (length ts) instances) as [|c r] eqn:E.
  - cbn. split; [reflexivity|]. intros b I L. assert (In b (fitting (length ts) instances)) as J by (apply in_fitting; tauto).
    rewrite E in J. destruct J.
  - cbn [fuzzy_loop]. rewrite distance_total. destruct (fuzzy_some r ts _ c eq_refl) as (s' & b' & F & B). rewrite F.
    apply closest_iff. rewrite E. exact B.
Qed.
Lemma closest_unique ts b b' : closest ts b -> closest ts b' -> b = b'.
Proof. rewrite !closest_iff. apply first_best_unique. Qed.
Lemma closest_in ts b : closest ts b -> In b instances /\ arms b = length ts.
Proof. intros (p & q & E & L & _). split; [rewrite E; apply in_or_app; right; now left|exact L]. Qed.
Lemma fuzzy_iff ts b : from_direction_styles ts true = Ok b <-> closest ts b.
Proof.
  pose proof (fuzzy_spec ts) as F. split.
  - intros E. rewrite E in F. exact F.
  - intros C. destruct (from_direction_styles ts true) as [b'|e].
    + f_equal. exact (closest_unique _ _ _ F C).
    + destruct F as [_ F]. destruct (closest_in _ _ C) as [I L]. destruct (F b I L).
Qed.
