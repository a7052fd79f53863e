From Verif Require Export BoxFacts.
From Coq Require Import Lia.
Opaque instances.

(** * Facts about the table, by computation *)
Fixpoint nodupb {A} (eqb : A -> A -> bool) (l : list A) : bool :=
  match l with [] => true | x :: r => negb (existsb (eqb x) r) && nodupb eqb r end.
Lemma nodupb_spec {A} (eqb : A -> A -> bool) (R : forall x, eqb x x = true) l : nodupb eqb l = true -> NoDup l.
Proof.
  induction l as [|x r IH]; cbn [nodupb]; intros H; constructor; apply andb_prop in H; destruct H as [H1 H2].
  - intros I. apply Bool.negb_true_iff in H1. assert (existsb (eqb x) r = true) by (apply existsb_exists; exists x; auto). congruence.
  - exact (IH H2).
Qed.
Lemma NoDup_map_eq {A B} (f : A -> B) l x y : NoDup (map f l) -> In x l -> In y l -> f x = f y -> x = y.
Proof.
  induction l as [|z r IH]; intros N I J E; [destruct I|]. cbn in N. inversion N as [|? ? N1 N2]; subst.
  destruct I as [->|I], J as [->|J].
  - reflexivity.
  - exfalso. apply N1. rewrite E. exact (in_map f _ _ J).
  - exfalso. apply N1. rewrite <- E. exact (in_map f _ _ I).
  - exact (IH N2 I J E).
Qed.
Lemma table_chars : NoDup (map b_char instances).
Proof. apply (nodupb_spec Z.eqb Z.eqb_refl). vm_compute. reflexivity. Qed.
Lemma eqb_str_refl s : eqb_str s s = true.
Proof. apply eqb_str_eq. reflexivity. Qed.
Lemma table_names : NoDup (map b_name instances).
Proof. apply (nodupb_spec eqb_str eqb_str_refl). vm_compute. reflexivity. Qed.
Lemma dir_eqb_refl d : dir_eqb d d = true.
Proof. destruct d; reflexivity. Qed.
Lemma table_dirs b : In b instances -> NoDup (map fst (b_ds b)).
Proof.
  assert (forallb (fun b => nodupb dir_eqb (map fst (b_ds b))) instances = true) as H by (vm_compute; reflexivity).
  intros I. apply (nodupb_spec dir_eqb dir_eqb_refl). exact (proj1 (forallb_forall _ _) H b I).
Qed.
Lemma table_arms b : In b instances -> (1 <= arms b <= 4)%nat.
Proof.
  assert (forallb (fun b => (1 <=? length (b_ds b))%nat && (length (b_ds b) <=? 4)%nat) instances = true) as H by (vm_compute; reflexivity).
  intros I. pose proof (proj1 (forallb_forall _ _) H b I) as E. apply andb_prop in E. unfold arms.
  rewrite !Nat.leb_le in E. exact E.
Qed.
Lemma table_has_arms n : (1 <= n <= 4)%nat -> exists b, In b instances /\ arms b = n.
Proof.
  assert (forallb (fun n => existsb (fun b => (length (b_ds b) =? n)%nat) instances) [1;2;3;4]%nat = true) as H by (vm_compute; reflexivity).
  intros B. assert (In n [1;2;3;4]%nat) as I by (cbn; lia).
  pose proof (proj1 (forallb_forall _ _) H n I) as E. apply existsb_exists in E. destruct E as (b & J & E).
  exists b. split; [exact J|]. apply Nat.eqb_eq. exact E.
Qed.
Lemma table_unique b c : In b instances -> In c instances -> Permutation (b_ds b) (b_ds c) -> b = c.
Proof.
  assert (forallb (fun b => forallb (fun c => implb ((length (b_ds b) =? length (b_ds c))%nat && (distance c (b_ds b) =? 0)) (b_char b =? b_char c)) instances) instances = true) as H
    by (vm_compute; reflexivity).
  intros I J P. apply (NoDup_map_eq b_char instances); [exact table_chars|exact I|exact J|].
  pose proof (proj1 (forallb_forall _ _) (proj1 (forallb_forall _ _) H b I) c J) as E. cbn beta in E.
  rewrite (proj2 (Nat.eqb_eq _ _) (Permutation_length P)), distance_total in E.
  rewrite (proj2 (total_drawn (b_ds b) c (table_dirs b I) (eq_sym (Permutation_length P))) P) in E. cbn in E.
  apply Z.eqb_eq. exact E.
Qed.

(** * Lookup *)
Lemma find_unique {A} (f : A -> bool) l x : In x l -> f x = true -> (forall y, In y l -> f y = true -> y = x) -> find f l = Some x.
Proof.
  intros I F U. destruct (find f l) as [y|] eqn:E.
  - destruct (find_some _ _ E) as [J G]. f_equal. exact (U y J G).
  - pose proof (find_none _ _ E x I). congruence.
Qed.
Lemma from_char_iff s b : from_char s = Ok b <-> In b instances /\ s = [b_char b].
Proof.
  unfold from_char. split.
  - destruct (find _ instances) as [c|] eqn:E; [|discriminate]. intros [= <-]. destruct (find_some _ _ E) as [I F].
    apply eqb_str_eq in F. auto.
  - intros [I ->]. rewrite (find_unique _ _ b I); [reflexivity|apply eqb_str_refl|].
    intros y J F. apply eqb_str_eq in F. injection F as F. exact (NoDup_map_eq b_char _ _ _ table_chars J I F).
Qed.
Lemma from_name_iff s b : from_name s = Ok b <-> In b instances /\ s = b_name b.
Proof.
  unfold from_name. split.
  - destruct (find _ instances) as [c|] eqn:E; [|discriminate]. intros [= <-]. destruct (find_some _ _ E) as [I F].
    apply eqb_str_eq in F. auto.
  - intros [I ->]. rewrite (find_unique _ _ b I); [reflexivity|apply eqb_str_refl|].
    intros y J F. apply eqb_str_eq in F. exact (NoDup_map_eq b_name _ _ _ table_names J I F).
Qed.
Lemma from_char_err s : (forall b, In b instances -> s <> [b_char b]) -> from_char s = Err ValueError.
Proof.
  intros H. unfold from_char. destruct (find _ instances) as [c|] eqn:E; [|reflexivity].
  destruct (find_some _ _ E) as [I F]. apply eqb_str_eq in F. destruct (H c I (eq_sym F)).
Qed.
Lemma from_name_err s : (forall b, In b instances -> s <> b_name b) -> from_name s = Err ValueError.
Proof.
  intros H. unfold from_name. destruct (find _ instances) as [c|] eqn:E; [|reflexivity].
  destruct (find_some _ _ E) as [I F]. apply eqb_str_eq in F. destruct (H c I (eq_sym F)).
Qed.
Lemma drawn_unique ts b c : drawn ts b -> drawn ts c -> b = c.
Proof. intros [I P] [J Q]. apply (table_unique b c I J). exact (Permutation_trans (Permutation_sym P) Q). Qed.
Lemma exact_iff ts b : NoDup (map fst ts) -> from_direction_styles ts false = Ok b <-> drawn ts b.
Proof.
  intros N. rewrite look_unfold. split.
  - destruct (find _ _) as [c|] eqn:E; [|discriminate]. intros [= <-]. destruct (find_some _ _ E) as [I F].
    apply in_fitting in I. destruct I as [I L]. rewrite distance_total in F. apply Z.eqb_eq in F.
    split; [exact I|]. exact (proj1 (total_drawn ts c N L) F).
  - intros [I P]. assert (arms b = length ts) as L by (unfold arms; exact (eq_sym (Permutation_length P))).
    rewrite (find_unique _ _ b); [reflexivity| | |].
    + apply in_fitting. auto.
    + rewrite distance_total, (proj2 (total_drawn ts b N L) P). reflexivity.
    + intros y J F. apply in_fitting in J. destruct J as [J L']. rewrite distance_total in F. apply Z.eqb_eq in F.
      apply (drawn_unique ts); [split; [exact J|exact (proj1 (total_drawn ts y N L') F)]|split; [exact I|exact P]].
Qed.
Lemma exact_err ts : NoDup (map fst ts) -> (forall b, ~ drawn ts b) -> from_direction_styles ts false = Err ValueError.
Proof.
  intros N H. destruct (from_direction_styles ts false) as [b|e] eqn:E.
  - destruct (H b). apply exact_iff; assumption.
  - rewrite look_unfold in E. destruct (find _ _); [discriminate|]. injection E as <-. reflexivity.
Qed.
Lemma fuzzy_drawn ts b : NoDup (map fst ts) -> drawn ts b -> from_direction_styles ts true = Ok b.
Proof.
  intros N [I P]. assert (arms b = length ts) as L by (unfold arms; exact (eq_sym (Permutation_length P))).
  pose proof (fuzzy_spec ts) as F. destruct (from_direction_styles ts true) as [c|e].
  - f_equal. destruct (closest_in _ _ F) as [J L'].
    assert (total ts b = 0) as Zb by (apply total_drawn; assumption).
    destruct F as (p & q & E & _ & Bp & Bq).
    assert (total ts c = 0) as Zc.
    { pose proof (total_nonneg ts c). rewrite E in I. apply in_app_or in I. destruct I as [I|[->|I]].
      - pose proof (Bp b I L). lia.
      - exact Zb.
      - pose proof (Bq b I L). lia. }
    apply (drawn_unique ts); split; [exact J| |exact I|exact P]. exact (proj1 (total_drawn ts c N L') Zc).
  - destruct F as [_ F]. destruct (F b I L).
Qed.
Lemma fuzzy_total ts : (1 <= length ts <= 4)%nat -> exists b, from_direction_styles ts true = Ok b /\ closest ts b.
Proof.
  intros B. pose proof (fuzzy_spec ts) as F. destruct (from_direction_styles ts true) as [c|e].
  - exists c. auto.
  - destruct F as [_ F]. destruct (table_has_arms _ B) as (b & I & L). destruct (F b I L).
Qed.
Lemma fuzzy_none ts : (length ts = 0 \/ 4 < length ts)%nat -> from_direction_styles ts true = Err UnboundLocalError.
Proof.
  intros B. pose proof (fuzzy_spec ts) as F. destruct (from_direction_styles ts true) as [c|e].
  - destruct (closest_in _ _ F) as [I L]. pose proof (table_arms c I). lia.
  - destruct F as [-> _]. reflexivity.
Qed.

(** * Turning and mirroring characters *)
Definition exactb (ts : list dstyle) : bool :=
  match from_direction_styles ts true with Ok c => (distance c ts =? 0) && nodupb dir_eqb (map fst ts) | Err _ => false end.
Lemma exactb_spec ts : exactb ts = true -> NoDup (map fst ts) /\ exists c, from_direction_styles ts true = Ok c /\ drawn ts c.
Proof.
  unfold exactb. pose proof (fuzzy_spec ts) as F. destruct (from_direction_styles ts true) as [c|e]; [|discriminate].
  intros H. apply andb_prop in H. destruct H as [D N]. apply (nodupb_spec dir_eqb dir_eqb_refl) in N.
  split; [exact N|]. exists c. split; [reflexivity|]. destruct (closest_in _ _ F) as [I L].
  split; [exact I|]. apply (total_drawn ts c N L). rewrite distance_total in D. apply Z.eqb_eq. exact D.
Qed.
Lemma quarter a : a mod 90 = 0 -> exists k, In k [0; 90; 180; 270] /\ a mod 360 = k mod 360.
Proof.
  intros H. pose proof (Z.div_mod a 90 ltac:(lia)) as D. set (q := a / 90) in *. clearbody q.
  pose proof (Z.div_mod a 360 ltac:(lia)) as D'. pose proof (Z.mod_pos_bound a 360 ltac:(lia)) as B.
  exists (a mod 360). set (m := a mod 360) in *. set (p := a / 360) in *. clearbody m p. split.
  - assert (m = 90 * (q - 4 * p)) as E by lia. set (x := q - 4 * p) in *. clearbody x. cbn. lia.
  - symmetry. apply Z.mod_small. exact B.
Qed.
Lemma ds_rotate_mod a b l : a mod 360 = b mod 360 -> map (ds_rotate a) l = map (ds_rotate b) l.
Proof. intros H. apply map_ext. intros x. unfold ds_rotate. rewrite (rotate_mod _ a b H). reflexivity. Qed.
Lemma turn_ok a b : a mod 90 = 0 -> In b instances ->
  NoDup (map fst (map (ds_rotate a) (b_ds b))) /\ exists c, bdc_rotate b a = Ok c /\ drawn (map (ds_rotate a) (b_ds b)) c.
Proof.
  intros H I. destruct (quarter a H) as (k & K & E). unfold bdc_rotate. rewrite (ds_rotate_mod a k _ E).
  assert (forallb (fun k => forallb (fun b => exactb (map (ds_rotate k) (b_ds b))) instances) [0; 90; 180; 270] = true) as C by (vm_compute; reflexivity).
  pose proof (proj1 (forallb_forall _ _) (proj1 (forallb_forall _ _) C k K) b I) as X. exact (exactb_spec _ X).
Qed.
Lemma mirror_ok s b : In b instances ->
  NoDup (map fst (map (ds_reflect s) (b_ds b))) /\ exists c, bdc_reflect b s = Ok c /\ drawn (map (ds_reflect s) (b_ds b)) c.
Proof.
  intros I. unfold bdc_reflect.
  assert (forallb (fun s => forallb (fun b => exactb (map (ds_reflect s) (b_ds b))) instances) all_dirs = true) as C by (vm_compute; reflexivity).
  assert (In s all_dirs) as K by (destruct s; cbn; tauto).
  pose proof (proj1 (forallb_forall _ _) (proj1 (forallb_forall _ _) C s K) b I) as X. exact (exactb_spec _ X).
Qed.
Lemma turn_turn a a' b c : a mod 90 = 0 -> a' mod 90 = 0 -> In b instances -> bdc_rotate b a = Ok c -> bdc_rotate c a' = bdc_rotate b (a + a').
Proof.
  intros H H' I E. destruct (turn_ok a b H I) as [_ (c1 & E1 & J & P)]. rewrite E in E1. injection E1 as <-.
  destruct (turn_ok a' c H' J) as [_ (c2 & E2 & J2 & P2)]. rewrite E2.
  assert ((a + a') mod 90 = 0) as H2 by (rewrite Zplus_mod, H, H'; reflexivity).
  destruct (turn_ok (a + a') b H2 I) as [_ (c3 & E3 & J3 & P3)]. rewrite E3. f_equal.
  apply (table_unique c2 c3 J2 J3). rewrite <- P2, <- P3, <- P, map_map. apply Permutation_refl'. apply map_ext.
  intros x. unfold ds_rotate. cbn [fst snd]. rewrite rotate_rotate; [reflexivity|].
  pose proof (Z.div_mod a 90 ltac:(lia)) as D. rewrite H in D. rewrite D.
  replace (90 * (a / 90) + 0) with (2 * (a / 90) * 45) by lia. apply Z.mod_mul. lia.
Qed.
Lemma turn_none b : In b instances -> bdc_rotate b 0 = Ok b.
Proof.
  intros I. destruct (turn_ok 0 b eq_refl I) as [_ (c & E & J & P)]. rewrite E. f_equal. apply (table_unique c b J I).
  rewrite <- P. apply Permutation_refl'. transitivity (map (fun x : dstyle => x) (b_ds b)); [apply map_ext|apply map_id]. intros [d s]. unfold ds_rotate. cbn [fst snd].
  pose proof (rotate_360 d 0) as R. change (360 * 0) with 0 in R. rewrite R. reflexivity.
Qed.
Lemma mirror_mirror s b c : In b instances -> bdc_reflect b s = Ok c -> bdc_reflect c s = Ok b.
Proof.
  intros I E. destruct (mirror_ok s b I) as [_ (c1 & E1 & J & P)]. rewrite E in E1. injection E1 as <-.
  destruct (mirror_ok s c J) as [_ (c2 & E2 & J2 & P2)]. rewrite E2. f_equal. apply (table_unique c2 b J2 I).
  rewrite <- P2, <- P, map_map. apply Permutation_refl'. transitivity (map (fun x : dstyle => x) (b_ds b)); [apply map_ext|apply map_id].
  intros [d y]. unfold ds_reflect. cbn [fst snd]. rewrite reflect_reflect.
  replace (2 * (dvalue s - dvalue s)) with (360 * 0) by lia. rewrite rotate_360. reflexivity.
Qed.
