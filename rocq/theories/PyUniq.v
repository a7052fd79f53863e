(** The descriptions of SpecPy leave no choice. *)
From Verif Require Import PyFacts SpecPy PyChar.
From Coq Require Import Lia.
Open Scope Z_scope.
Import ListNotations.

Lemma app_same_length {A} (a a' x y : list A) : a ++ x = a' ++ y -> length a = length a' -> a = a' /\ x = y.
Proof.
  revert a'. induction a as [|c a IH]; intros [|c' a'] E L; try discriminate; [split; [reflexivity|exact E]|]. cbn in E, L. injection E as -> E. injection L as L.
  destruct (IH a' E L) as (-> & ->). split; reflexivity.
Qed.
Lemma first_unique sub s a b a' b' : first_at sub s a b -> first_at sub s a' b' -> a = a' /\ b = b'.
Proof.
  intros (E & M) (E' & M'). pose proof (M _ _ E'). pose proof (M' _ _ E). assert (L : length a = length a') by lia.
  assert (Q : a ++ sub ++ b = a' ++ sub ++ b') by congruence. destruct (app_same_length _ _ _ _ Q L) as (-> & Q'). split; [reflexivity|]. exact (app_inv_head _ _ _ Q').
Qed.
Lemma last_unique sub s a b a' b' : last_at sub s a b -> last_at sub s a' b' -> a = a' /\ b = b'.
Proof.
  intros (E & M) (E' & M'). pose proof (M _ _ E'). pose proof (M' _ _ E). assert (L : length a = length a') by lia.
  assert (Q : a ++ sub ++ b = a' ++ sub ++ b') by congruence. destruct (app_same_length _ _ _ _ Q L) as (-> & Q'). split; [reflexivity|]. exact (app_inv_head _ _ _ Q').
Qed.
Lemma counted_unique sub s n n' : counted sub s n -> counted sub s n' -> n = n'.
Proof.
  intros C. revert n'. induction C as [s N|s a b n F C IH]; intros n' C'; destruct C' as [s N'|s a' b' n' F' C'].
  - reflexivity.
  - destruct (N _ _ (proj1 F')).
  - destruct (N' _ _ (proj1 F)).
  - destruct (first_unique _ _ _ _ _ _ F F') as (-> & ->). rewrite (IH _ C'). reflexivity.
Qed.
Lemma split_unique sep m s l l' : split_at sep m s l -> split_at sep m s l' -> l = l'.
Proof.
  intros C. revert l'. induction C as [m s D|m s a b l M F C IH]; intros l' C'; inversion C' as [m' s' D' E1 E2 E3|m' s' a' b' r' M' F' C'' E1 E2 E3]; subst.
  - reflexivity.
  - destruct D as [D|D]; [congruence|]. destruct (D _ _ (proj1 F')).
  - destruct D' as [D|D]; [congruence|]. destruct (D _ _ (proj1 F)).
  - destruct (first_unique _ _ _ _ _ _ F F') as (-> & ->). rewrite (IH _ C''). reflexivity.
Qed.
Lemma rsplit_unique sep m s l l' : rsplit_at sep m s l -> rsplit_at sep m s l' -> l = l'.
Proof.
  intros C. revert l'. induction C as [m s D|m s a b l M F C IH]; intros l' C'; inversion C' as [m' s' D' E1 E2 E3|m' s' a' b' r' M' F' C'' E1 E2 E3]; subst.
  - reflexivity.
  - destruct D as [D|D]; [congruence|]. destruct (D _ _ (proj1 F')).
  - destruct D' as [D|D]; [congruence|]. destruct (D _ _ (proj1 F)).
  - destruct (last_unique _ _ _ _ _ _ F F') as (-> & ->). rewrite (IH _ C''). reflexivity.
Qed.
(** a run of one kind followed by the other kind is found in one way only *)
Lemma run_unique (p : Z -> bool) a x a' y : all_of p a -> begins_out p x -> all_of p a' -> begins_out p y -> a ++ x = a' ++ y -> a = a' /\ x = y.
Proof.
  revert a'. induction a as [|c a IH]; intros [|c' a'] A X A' Y E; cbn in E.
  - auto.
  - pose proof (X c' _ E). pose proof (A' c' (or_introl eq_refl)). congruence.
  - pose proof (Y c _ (eq_sym E)). pose proof (A c (or_introl eq_refl)). congruence.
  - injection E as -> E. destruct (IH a' (fun c I => A c (or_intror I)) X (fun c I => A' c (or_intror I)) Y E) as (-> & ->). auto.
Qed.
Lemma out_app p w s : w <> [] -> none_of p w -> begins_out p (w ++ s).
Proof. intros W N c r E. destruct w as [|d w]; [congruence|]. injection E as -> _. apply N. left. reflexivity. Qed.
Lemma word_unique p w s w' s' : none_of p w -> begins_in p s -> none_of p w' -> begins_in p s' -> w ++ s = w' ++ s' -> w = w' /\ s = s'.
Proof.
  intros N B N' B' E. apply (run_unique (fun c => negb (p c)) w s w' s').
  - intros c I. rewrite (N c I). reflexivity.
  - intros c r Q. rewrite (B c r Q). reflexivity.
  - intros c I. rewrite (N' c I). reflexivity.
  - intros c r Q. rewrite (B' c r Q). reflexivity.
  - exact E.
Qed.
Lemma words_unique p m s l l' : words p m s l -> words p m s l' -> l = l'.
Proof.
  intros C. revert l'. induction C as [m s A|a s A S0 B|m a w s l M A W N B C IH]; intros l' C'.
  - inversion C' as [m' s' A' E1 E2 E3|a' s' A' S0' B' E1 E2 E3|m' a' w' s' r' M' A' W' N' B' C'' E1 E2 E3]; subst; [reflexivity| |].
    + destruct s' as [|c s']; [congruence|]. pose proof (B' c s' eq_refl). pose proof (A c (in_or_app a' (c :: s') c (or_intror (or_introl eq_refl)))). congruence.
    + destruct w' as [|c w']; [congruence|]. pose proof (N' c (or_introl eq_refl)). pose proof (A c (in_or_app a' ((c :: w') ++ s') c (or_intror (or_introl eq_refl)))). congruence.
  - inversion C' as [m' s' A' E1 E2 E3|a' s' A' S0' B' E1 E2 E3|m' a' w' s' r' M' A' W' N' B' C'' E1 E2 E3]; subst; [| |congruence].
    + destruct s as [|c s]; [congruence|]. pose proof (B c s eq_refl). pose proof (A' c (in_or_app a (c :: s) c (or_intror (or_introl eq_refl)))). congruence.
    + destruct (run_unique p a s a' s' A B A' B') as (_ & ->); [symmetry; assumption|reflexivity].
  - pose proof (out_app p w s W N) as O. inversion C' as [m' s' A' E1 E2 E3|a' s' A' S0' B' E1 E2 E3|m' a' w' s' r' M' A' W' N' B' C'' E1 E2 E3]; subst; [|congruence|].
    + destruct w as [|c w]; [congruence|]. pose proof (N c (or_introl eq_refl)). pose proof (A' c (in_or_app a ((c :: w) ++ s) c (or_intror (or_introl eq_refl)))). congruence.
    + destruct (run_unique p a _ a' _ A O A' (out_app p w' s' W' N')) as (_ & Q); [symmetry; assumption|]. destruct (word_unique p w s w' s' N B N' B' Q) as (-> & ->). rewrite (IH _ C''). reflexivity.
Qed.
Lemma rwords_rev p m s l : rwords p m s l -> words p m (rev s) (rev (map (@rev Z) l)).
Proof.
  intros W. induction W as [m s A|a s A S0 B|m a w s l M A W0 N B W IH].
  - apply words_end. apply all_of_rev. exact A.
  - rewrite rev_app_distr. apply words_rest; [apply all_of_rev; exact A| |].
    + intros E. apply S0. rewrite <- (rev_involutive s), E. reflexivity.
    + intros c r E. apply (B c (rev r)). rewrite <- (rev_involutive s), E. reflexivity.
  - rewrite !rev_app_distr, <- app_assoc, map_app, rev_app_distr. cbn [map rev app]. apply words_more; [exact M|apply all_of_rev; exact A| | | |exact IH].
    + intros E. apply W0. rewrite <- (rev_involutive w), E. reflexivity.
    + intros c I. apply N. apply in_rev. exact I.
    + intros c r E. apply (B c (rev r)). rewrite <- (rev_involutive s), E. reflexivity.
Qed.
Lemma rwords_unique p m s l l' : rwords p m s l -> rwords p m s l' -> l = l'.
Proof.
  intros C C'. pose proof (words_unique _ _ _ _ _ (rwords_rev _ _ _ _ C) (rwords_rev _ _ _ _ C')) as E. apply (f_equal (@rev _)) in E. rewrite !rev_involutive in E.
  apply (f_equal (map (@rev Z))) in E. rewrite !map_map in E. rewrite !(map_ext _ (fun x => x) (@rev_involutive Z)), !map_id in E. exact E.
Qed.
(** lines *)
Lemma eol_boundary e s : eol e s -> exists c r, e = c :: r /\ boundary c.
Proof. intros [->|(c & -> & B & _)]; [exists 13, [10]; split; [reflexivity|unfold boundary; cbn; auto 10]|exists c, []; auto]. Qed.
Lemma body_unique b e s b' e' s' : (forall c, In c b -> ~ boundary c) -> eol e s -> (forall c, In c b' -> ~ boundary c) -> eol e' s' ->
  b ++ e ++ s = b' ++ e' ++ s' -> b = b' /\ e ++ s = e' ++ s'.
Proof.
  intros N D N' D'. destruct (eol_boundary _ _ D) as (c & r & -> & B). destruct (eol_boundary _ _ D') as (c' & r' & -> & B'). clear D D'. revert b' N'.
  induction b as [|x b IH]; intros [|x' b'] N' E; cbn in E.
  - auto.
  - injection E as -> _. destruct (N' x' (or_introl eq_refl) B).
  - injection E as -> _. destruct (N c' (or_introl eq_refl) B').
  - injection E as -> E. destruct (IH (fun c I => N c (or_intror I)) b' (fun c I => N' c (or_intror I)) E) as (-> & Q). auto.
Qed.
Lemma eol_unique e s e' s' : eol e s -> eol e' s' -> e ++ s = e' ++ s' -> e = e' /\ s = s'.
Proof.
  intros [->|(c & -> & B & X)] [->|(c' & -> & B' & X')] E; cbn in E.
  - injection E as ->. auto.
  - injection E as <- E. exfalso. apply X'. split; [reflexivity|]. exists s. congruence.
  - injection E as -> E. exfalso. apply X. split; [reflexivity|]. exists s'. congruence.
  - injection E as -> ->. auto.
Qed.
Lemma lines_unique keep s l l' : lines keep s l -> lines keep s l' -> l = l'.
Proof.
  intros C. revert l'. induction C as [|b B N|b e s l N D C IH]; intros l' C'.
  - inversion C' as [E|b' B' N' E|b' e' s' r' N' D' C'' E]; subst; [reflexivity|congruence|].
    destruct (eol_boundary _ _ D') as (c & r & -> & _). destruct b'; discriminate.
  - inversion C' as [E|b' B' N' E|b' e' s' r' N' D' C'' E]; subst; [congruence|reflexivity|].
    destruct (eol_boundary _ _ D') as (c & r & -> & Bc). exfalso. apply (N c); [apply in_or_app; right; left; reflexivity|exact Bc].
  - destruct (eol_boundary _ _ D) as (c & r & Ee & Bc). inversion C' as [E|b' B' N' E|b' e' s' r' N' D' C'' E]; subst.
    + destruct b; discriminate.
    + exfalso. apply (N' c); [apply in_or_app; right; left; reflexivity|exact Bc].
    + destruct (body_unique b _ s b' e' s' N D N' D' (eq_sym E)) as (-> & Q). destruct (eol_unique _ _ _ _ D D' Q) as (<- & ->). rewrite (IH _ C''). reflexivity.
Qed.
