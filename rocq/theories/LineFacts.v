(** to_line_col (ItoStr) by str.count and str.split (SpecPy), for every end of line,
    also one that can overlap itself. *)
From Verif Require Export PyChar PyUniq SpecPy ItoStrFacts5.
From Coq Require Import Lia.
Open Scope Z_scope.
Import ListNotations.

(** two ways to cut a text around the same word *)
Lemma app_cut {A} (a b c d : list A) : a ++ b = c ++ d -> (length a <= length c)%nat -> exists x, c = a ++ x /\ b = x ++ d.
Proof.
  revert c. induction a as [|y a IH]; intros c E L.
  - exists c. split; [reflexivity|exact E].
  - destruct c as [|z c]; [cbn in L; lia|]. cbn in E, L. injection E as -> E. destruct (IH c E) as (x & -> & ->); [lia|]. exists x. split; reflexivity.
Qed.

(** an occurrence of sub as the last one adds exactly one to the count of what stands before it *)
Lemma counted_last sub : sub <> [] -> forall a n, counted sub a n -> forall s b, last_at sub s a b -> counted sub s (1 + n).
Proof.
  intros S0 a n C. induction C as [a Ab|a a1 b1 n F C IH]; intros s b (E & M).
  - destruct (find_in sub s) as [k|] eqn:Fi.
    + pose proof (find_first_at _ _ _ Fi) as Fa. destruct (cut_at sub s k (proj1 (find_in_Some _ _ _ Fi))) as (_ & Lk).
      eapply counted_more; [exact Fa|]. apply counted_none. intros x y Exy.
      set (p := zsub s 0 k) in *. set (r := zsub s (k + zlen sub) (zlen s)) in *. destruct Fa as (Es & Mn).
      assert (L1 : (length (p ++ sub ++ x) <= length a)%nat) by (apply (M (p ++ sub ++ x) y); rewrite <- !app_assoc, <- Exy; exact Es).
      rewrite E in Es. destruct (app_cut (p ++ sub) r a (sub ++ b)) as (z & Ez & _).
      * rewrite <- app_assoc. symmetry. exact Es.
      * rewrite !app_length in *. lia.
      * exact (Ab p z ltac:(rewrite Ez, <- app_assoc; reflexivity)).
    + exfalso. exact (none_absent _ _ Fi a b E).
  - destruct F as (Ea & Mn). apply counted_more with (a := a1) (b := b1 ++ sub ++ b).
    + split; [rewrite E, Ea, <- !app_assoc; reflexivity|]. intros x y Exy.
      destruct (Nat.le_gt_cases (length a1) (length x)) as [L|L]; [exact L|]. rewrite E, app_assoc in Exy.
      destruct (app_cut (x ++ sub) y a (sub ++ b)) as (z & Ez & _).
      * rewrite <- app_assoc, <- Exy. rewrite <- app_assoc. reflexivity.
      * rewrite Ea, !app_length. lia.
      * apply (Mn x z). rewrite Ez, <- app_assoc. reflexivity.
    + apply (IH _ b). split; [reflexivity|]. intros x y Exy.
      assert (L : (length (a1 ++ sub ++ x) <= length a)%nat).
      { apply (M (a1 ++ sub ++ x) y). rewrite <- !app_assoc, <- Exy, E, Ea, <- !app_assoc. reflexivity. }
      rewrite Ea, !app_length in L. lia.
Qed.

Lemma split_counted sub m s l : m < 0 -> split_at sub m s l -> counted sub s (zlen l - 1).
Proof.
  intros Hm S. induction S as [m s [E|A]|m s a b l N F S IH]; [lia| |].
  - apply counted_none. exact A.
  - rewrite zlen_cons. replace (1 + zlen l - 1) with (1 + (zlen l - 1)) by lia. eapply counted_more; [exact F|apply IH; lia].
Qed.

Definition before (i : fito) : pystr := zsub (f_str i) 0 (f_start i).

Lemma to_line_col_gen i eol : fwf i -> eol <> [] ->
  (absent eol (before i) /\ to_line_col i eol = (1, 1 + zlen (before i))) \/
  (exists a b n, last_at eol (before i) a b /\ counted eol a n /\ to_line_col i eol = (1 + (1 + n), 1 + zlen b)).
Proof.
  intros H Hne. pose proof H as [H1 H2]. unfold to_line_col, before. rewrite py_rfind_abs by lia.
  assert (1 <= zlen eol) by (destruct eol; [congruence|rewrite zlen_cons; pose proof (zlen_nonneg eol); lia]).
  assert (Lb : zlen (zsub (f_str i) 0 (f_start i)) = f_start i) by (rewrite zsub_len; lia).
  destruct (rfind_in eol (zsub (f_str i) 0 (f_start i))) as [k|] eqn:F.
  - right. pose proof (rfind_last_at _ _ _ F) as LA. pose proof (rfind_in_range _ _ _ F) as R.
    destruct (Z.eqb_spec (0 + k) (-1)); [lia|]. do 2 eexists. exists (py_count (f_str i) eol (Some 0) (Some (0 + k))). split; [exact LA|]. split.
    + rewrite zsub_zsub by lia. replace (0 + 0) with 0 by lia. unfold py_count. rewrite adj_start_in, adj_end_in by lia.
      destruct (Z.ltb_spec (0 + k - 0) (zlen eol)).
      * apply counted_none, none_absent, find_in_short. rewrite zsub_len by lia. lia.
      * destruct eol as [|c e]; [congruence|]. cbv zeta. apply counted_count; [discriminate|lia].
    + f_equal; [lia|]. rewrite zsub_len by lia. lia.
  - left. cbn [Z.eqb]. split; [exact (rnone_absent _ _ F)|]. rewrite Lb. cbn. f_equal. lia.
Qed.

Lemma line_counted i eol n : fwf i -> eol <> [] -> counted eol (before i) n -> fst (to_line_col i eol) = 1 + n.
Proof.
  intros H N C. destruct (to_line_col_gen i eol H N) as [(A & ->)|(a & b & k & L & Ca & ->)]; cbn [fst].
  - rewrite (counted_unique _ _ _ _ C (counted_none eol _ A)). reflexivity.
  - rewrite (counted_unique _ _ _ _ C (counted_last eol N a k Ca _ b L)). reflexivity.
Qed.
Lemma line_split i eol l m : fwf i -> eol <> [] -> m < 0 -> split_at eol m (before i) l -> fst (to_line_col i eol) = zlen l.
Proof. intros H N Hm S. rewrite (line_counted i eol (zlen l - 1) H N (split_counted _ _ _ _ Hm S)). lia. Qed.
Lemma col_rsplit i eol l m : fwf i -> eol <> [] -> m <> 0 -> rsplit_at eol m (before i) l -> snd (to_line_col i eol) = 1 + zlen (last l []).
Proof.
  intros H N Hm R. destruct (to_line_col_gen i eol H N) as [(A & ->)|(a & b & k & L & Ca & ->)]; cbn [snd]; inversion R as [m' s' D|m' s' a' b' l' _ L' R']; subst.
  - reflexivity.
  - exfalso. exact (A _ _ (proj1 L')).
  - destruct D as [D|D]; [congruence|]. exfalso. exact (D _ _ (proj1 L)).
  - rewrite last_last. destruct (last_unique _ _ _ _ _ _ L L') as (-> & ->). reflexivity.
Qed.
(** when eol cannot overlap itself, the column is counted in the last piece of str.split *)
Lemma split_end_piece sep m s l : m < 0 -> split_at sep m s l ->
  (absent sep s /\ l = [s]) \/ (exists p, s = p ++ sep ++ last l [] /\ absent sep (last l [])).
Proof.
  intros Hm S. induction S as [m s [E|A]|m s a b l N F S IH]; [lia|left; auto|right].
  assert (Lc : last (a :: l) [] = last l []) by (inversion S; reflexivity). rewrite Lc. destruct IH as [(A & ->)|(p & E & A)]; [lia| |].
  - exists a. cbn [last]. split; [exact (proj1 F)|exact A].
  - exists (a ++ sep ++ p). split; [|exact A]. rewrite (proj1 F). rewrite E at 1. rewrite <- !app_assoc. reflexivity.
Qed.
Lemma no_overlap_last sep s p b : no_self_overlap sep -> s = p ++ sep ++ b -> absent sep b -> last_at sep s p b.
Proof.
  intros Hno E A. split; [exact E|]. intros x y Exy. destruct (Nat.le_gt_cases (length x) (length p)) as [L|L]; [exact L|]. exfalso.
  assert (O1 : occ sep s (zlen p)) by (apply occ_split; eauto). assert (O2 : occ sep s (zlen x)) by (apply occ_split; eauto).
  pose proof (overlap_occ sep s _ _ Hno O1 O2) as Q. assert (Q' : zlen p + zlen sep <= zlen x) by (apply Q; unfold zlen; lia). clear Q.
  rewrite E in Exy. rewrite app_assoc in Exy. destruct (app_cut (p ++ sep) b x (sep ++ y) Exy) as (z & _ & Ez); [unfold zlen in Q'; rewrite app_length; lia|].
  exact (A _ _ Ez).
Qed.
Lemma col_split i eol l m : fwf i -> eol <> [] -> no_self_overlap eol -> m < 0 -> split_at eol m (before i) l -> snd (to_line_col i eol) = 1 + zlen (last l []).
Proof.
  intros H N O Hm S. destruct (to_line_col_gen i eol H N) as [(A & ->)|(a & b & k & L & Ca & ->)]; cbn [snd]; destruct (split_end_piece _ _ _ _ Hm S) as [(A' & ->)|(p & E & A')].
  - reflexivity.
  - exfalso. exact (A _ _ E).
  - exfalso. exact (A' _ _ (proj1 L)).
  - destruct (last_unique _ _ _ _ _ _ L (no_overlap_last _ _ _ _ O E A')) as (_ & ->). reflexivity.
Qed.
Lemma line_col_empty i : fwf i -> to_line_col i [] = (f_start i + 3, 1).
Proof.
  intros H. pose proof H as [H1 H2]. unfold to_line_col. rewrite py_rfind_abs by lia.
  assert (F : rfind_in [] (zsub (f_str i) 0 (f_start i)) = Some (f_start i)).
  { assert (G : forall l, rfind_in [] l = Some (zlen l)) by (induction l as [|c l IH]; [reflexivity|]; cbn [rfind_in]; rewrite IH, zlen_cons; reflexivity).
    rewrite G. f_equal. rewrite zsub_len; lia. }
  rewrite F. destruct (Z.eqb_spec (0 + f_start i) (-1)); [lia|]. unfold py_count. rewrite adj_start_in, adj_end_in by lia.
  change (@zlen Z []) with 0. destruct (Z.ltb_spec (0 + f_start i - 0) 0); [lia|]. f_equal; lia.
Qed.
