(** Facts for C128. *)
From Verif Require Import PyFacts PyChar HeapFacts4 CombinFacts AxisFacts2 ChildSlices ChildSeq.
From Coq Require Import Lia.
Open Scope Z_scope.
Import ListNotations.

Lemma node_eq_spec h c v : node_eqb h c v = true <-> n_f (nd h c) = n_f (nd h v).
Proof.
  unfold node_eqb. rewrite orb_true_iff, key_eqb_spec, Nat.eqb_eq. split; [intros [->|E]; [reflexivity|exact E]|intros E; right; exact E].
Qed.
Lemma kids_get_nth h p k : 0 <= k -> kids_get_int h p k = match nth_error (n_kids (nd h p)) (Z.to_nat k) with Some c => Ok c | None => Err IndexError end.
Proof. intros K. unfold kids_get_int, py_index, zget. destruct (Z.ltb_spec k 0); [lia|]. cbv zeta. destruct (Z.ltb_spec k 0); [lia|]. reflexivity. Qed.
Lemma index_loop_spec h p v stop : forall fuel i, 0 <= i -> (length (n_kids (nd h p)) < fuel + Z.to_nat i)%nat ->
  match index_loop fuel h p v i stop with
  | Ok k => i <= k /\ (forall s, stop = Some s -> k < s) /\ exists c, nth_error (n_kids (nd h p)) (Z.to_nat k) = Some c /\ n_f (nd h c) = n_f (nd h v)
  | Err e => (fuel <> 0%nat -> e = ValueError /\ forall k c, (Z.to_nat i <= k)%nat -> (forall s, stop = Some s -> Z.of_nat k < s) -> nth_error (n_kids (nd h p)) k = Some c -> n_f (nd h c) <> n_f (nd h v))
  end.
Proof.
  induction fuel as [|n IH]; intros i Hi L; cbn [index_loop]; [congruence|].
  destruct (match stop with None => true | Some s => i <? s end) eqn:B.
  - rewrite (kids_get_nth h p i Hi). destruct (nth_error (n_kids (nd h p)) (Z.to_nat i)) as [c|] eqn:N.
    + destruct (node_eqb h c v) eqn:Q.
      * split; [lia|]. split; [intros s ->; apply Z.ltb_lt in B; exact B|]. exists c. split; [exact N|apply node_eq_spec; exact Q].
      * assert (Hn : n <> 0%nat). { intros ->. assert (Z.to_nat i < length (n_kids (nd h p)))%nat by (apply nth_error_Some; congruence). lia. }
        specialize (IH (i + 1) ltac:(lia) ltac:(lia)). destruct (index_loop n h p v (i + 1) stop) as [k|e].
        -- destruct IH as (A1 & A2 & A3). split; [lia|]. split; [exact A2|exact A3].
        -- intros _. destruct (IH Hn) as (-> & A). split; [reflexivity|]. intros k d K S D. destruct (Nat.eq_dec k (Z.to_nat i)) as [->|Nk].
           ++ rewrite N in D. injection D as <-. intros E. apply node_eq_spec in E. congruence.
           ++ apply (A k d); [lia|exact S|exact D].
    + intros _. split; [reflexivity|]. intros k d K _ D. apply nth_error_None in N. assert (k < length (n_kids (nd h p)))%nat by (apply nth_error_Some; congruence). lia.
  - intros _. split; [reflexivity|]. intros k d K S _. destruct stop as [s|]; [|discriminate]. apply Z.ltb_ge in B. specialize (S s eq_refl). lia.
Qed.
Lemma kids_distinct h p k k' c c' : hwf h -> nth_error (n_kids (nd h p)) k = Some c -> nth_error (n_kids (nd h p)) k' = Some c' -> n_f (nd h c) = n_f (nd h c') -> k = k'.
Proof.
  intros H N N' E. pose proof (hwf_sorted h H p) as S. unfold kids_sorted in S.
  assert (G : forall l k k' c c', StronglySorted (h_before h) l -> nth_error l k = Some c -> nth_error l k' = Some c' -> n_f (nd h c) = n_f (nd h c') -> k = k').
  { clear. induction l as [|x l IH]; intros k k' c c' S N N' E; [destruct k; discriminate|]. inversion S as [|? ? S' F]; subst. rewrite Forall_forall in F.
    destruct k as [|k], k' as [|k']; cbn in N, N'; [reflexivity| | |f_equal; exact (IH k k' c c' S' N N' E)].
    - injection N as ->. apply nth_error_In in N'. destruct (F c' N') as [B _]. unfold h_start in B. rewrite E in B. lia.
    - injection N' as ->. apply nth_error_In in N. destruct (F c N) as [B _]. unfold h_start in B. rewrite E in B. lia. }
  exact (G _ k k' c c' S N N' E).
Qed.
Lemma reversed_spec h p : forall n, (n <= length (n_kids (nd h p)))%nat -> reversed_from h p n = Ok (rev (firstn n (n_kids (nd h p)))).
Proof.
  induction n as [|m IH]; intros L; [reflexivity|]. cbn [reversed_from]. rewrite kids_get_nth by lia. rewrite Nat2Z.id.
  destruct (nth_error (n_kids (nd h p)) m) as [c|] eqn:N; [|apply nth_error_None in N; lia]. cbn [bind]. rewrite IH by lia. cbn [bind].
  assert (E : firstn (S m) (n_kids (nd h p)) = firstn m (n_kids (nd h p)) ++ [c]).
  { clear IH L. revert m N. induction (n_kids (nd h p)) as [|x l IHl]; intros m N; [destruct m; discriminate|]. destruct m; [cbn in N; injection N as ->; reflexivity|]. cbn [nth_error] in N. cbn [firstn app]. f_equal. exact (IHl m N). }
  rewrite E, rev_app_distr. reflexivity.
Qed.
Lemma filter_one {A} (p : A -> bool) l : (forall k k' c c', nth_error l k = Some c -> nth_error l k' = Some c' -> p c = true -> p c' = true -> k = k') -> (length (filter p l) <= 1)%nat.
Proof.
  induction l as [|x l IH]; intros H; [cbn; lia|]. cbn [filter]. destruct (p x) eqn:P.
  - destruct (filter p l) as [|y r] eqn:F; [cbn; lia|]. assert (I : In y (filter p l)) by (rewrite F; left; reflexivity). apply filter_In in I. destruct I as (I & Py).
    apply In_nth_error in I. destruct I as (k & K). discriminate (H 0%nat (S k) x y eq_refl K P Py).
  - apply IH. intros k k' c c' N N' C C'. assert (E : S k = S k') by exact (H (S k) (S k') c c' N N' C C'). congruence.
Qed.
