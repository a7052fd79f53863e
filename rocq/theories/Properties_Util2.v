(** Property theorem C109: arguments of the scanning functions. *)
From Verif Require Import UtilFacts2.

(** the texts with one separator between each two of them *)
Fixpoint interleaved (ts : list pystr) (seps : pystr) : pystr :=
  match ts, seps with
  | t :: ts', c :: seps' => t ++ [c] ++ interleaved ts' seps'
  | t :: _, [] => t
  | [], _ => []
  end.

(** ** C109 bad arguments are refused before anything is yielded *)
Theorem C109_refused : forall u a b, u_wf u ->
  (forall escape, length escape <> 1%nat ->
    find_escapes u escape a b = ([], Some ValueError) /\
    (forall chars, find_unescaped u chars escape a b = ([], Some ValueError)) /\
    (forall chars, split_unescaped u chars escape a b = ([], Some ValueError)) /\
    (forall l r, find_balanced u l r escape a b = ([], Some ValueError))) /\
  (forall escape, find_unescaped u [] escape a b = ([], Some ValueError) /\ split_unescaped u [] escape a b = ([], Some ValueError)) /\
  (forall l r escape, length l <> 1%nat \/ length r <> 1%nat -> find_balanced u l r escape a b = ([], Some ValueError)).
Proof.
  intros u a b W. destruct (u_window u a b W) as (x & y & _ & _ & _ & O & _).
  assert (F : forall chars esc, length esc <> 1%nat \/ chars = [] -> find_unescaped u chars esc a b = ([], Some ValueError)).
  { intros chars esc N. unfold find_unescaped. rewrite O. destruct chars; [reflexivity|]. destruct esc as [|e [|? ?]]; [reflexivity| |reflexivity]. destruct N as [N|N]; [contradiction N; reflexivity|discriminate]. }
  split; [|split].
  - intros esc N. split; [|split; [intros; apply F; auto|split]].
    + unfold find_escapes. rewrite O. destruct esc as [|e [|? ?]]; [reflexivity|contradiction N; reflexivity|reflexivity].
    + intros chars. unfold split_unescaped. rewrite F; auto.
    + intros l r. unfold find_balanced. destruct l as [|l [|? ?]]; try reflexivity. destruct r as [|r [|? ?]]; try reflexivity. rewrite F; auto.
  - intros esc. split; [apply F; auto|]. unfold split_unescaped. rewrite F; auto.
  - intros l r esc N. unfold find_balanced. destruct l as [|l [|? ?]]; try reflexivity. destruct r as [|r [|? ?]]; try reflexivity. destruct N as [N|N]; contradiction N; reflexivity.
Qed.
Print Assumptions C109_refused.

Lemma pair_of {A B} (R : A -> B -> Prop) l l' b : Forall2 R l l' -> In b l' -> exists a, In a l /\ R a b.
Proof. induction 1 as [|x y l l' H F IH]; intros [].
  - subst. exists x. split; [left|]; auto.
  - destruct (IH H0) as (a & I' & R'). exists a. split; [right|]; auto.
Qed.
Lemma cut_interleaved t ys : forall cur, 0 <= cur <= zlen t ->
  StronglySorted Z.lt ys -> Forall (fun k => cur <= k < zlen t) ys ->
  exists seps, length (cut t cur ys) = S (length seps) /\ Forall2 (fun k c => zget t k = Some c) ys seps /\ interleaved (cut t cur ys) seps = zsub t cur (zlen t).
Proof.
  induction ys as [|i ys IH]; intros cur Hc HS HF; cbn [cut].
  - exists []. repeat split; constructor.
  - inversion HS as [|? ? HS' HF']; subst. inversion HF as [|? ? Hi HF2]; subst.
    destruct (IH (i + 1)) as (seps & L & F & E); [lia|exact HS'| |].
    { rewrite Forall_forall in *. intros k Hk. specialize (HF2 k Hk). specialize (HF' k Hk). lia. }
    destruct (zget t i) as [c|] eqn:G; [|apply zget_none in G; lia].
    exists (c :: seps). split; [cbn [length]; lia|]. split; [constructor; assumption|]. cbn [interleaved]. rewrite E.
    rewrite <- (zsub_app_split t cur i (zlen t)) by lia. rewrite (zsub_step _ _ (zlen t) _ G) by lia. reflexivity.
Qed.

(** ** C109 split_unescaped with several separators splits at each unescaped one of them *)
Theorem C109_split : forall u chars e a b, u_wf u -> chars <> [] -> literal_after e (py_slice (u_text u) a b) ->
  let r := split_unescaped u chars [e] a b in
  snd r = None /\ Forall (fun p => u_part p u) (fst r) /\
  exists seps, length (fst r) = S (length seps) /\ Forall (fun c => In c chars) seps /\ interleaved (map u_text (fst r)) seps = u_text u.
Proof.
  intros u chars e a b H N HL. cbv zeta. pose proof (find_unescaped_spec u chars e a b H N) as HS.
  cbv zeta in HS. unfold split_unescaped.
  pose proof (from_indices_range (zlen (u_text u)) a b (zlen_nonneg _)) as HR.
  destruct (find_unescaped u chars [e] a b) as [ys err]. cbn [fst snd] in *.
  destruct HS as [[HS HP] [Herr Hiff]].
  assert (HF : Forall (fun k => 0 <= k < zlen (u_text u)) ys).
  { apply Forall_forall. intros k Hk. apply HP in Hk. lia. }
  pose proof (zlen_nonneg (u_text u)). apply Hiff in HL. subst err.
  destruct (usplit_loop_ok u ys H 0) as (ps & E & Ht & Hp); [lia|exact HS|exact HF|].
  rewrite E. cbn [fst snd]. split; [reflexivity|]. split; [exact Hp|].
  destruct (cut_interleaved (u_text u) ys 0) as (seps & L & F & J); [lia|exact HS|exact HF|].
  exists seps. rewrite Ht. split; [|split].
  - rewrite <- L, <- Ht. symmetry. apply map_length.
  - apply Forall_forall. intros c Hc. destruct (pair_of _ _ _ c F Hc) as (k & Hk & G). apply HP in Hk. destruct Hk as (_ & c' & G' & I' & _). congruence.
  - rewrite J. apply zsub_full.
Qed.
Theorem C109_split_none_left : forall u chars e, u_wf u -> chars <> [] -> literal_after e (u_text u) ->
  Forall (fun p => forall k, ~ unescaped_at e chars (u_text p) 0 k) (fst (split_unescaped u chars [e] None None)).
Proof.
  intros u chars e H N HL.
  assert (EF : from_indices (zlen (u_text u)) None None = (0, zlen (u_text u))).
  { unfold from_indices. pose proof (zlen_nonneg (u_text u)). f_equal; lia. }
  assert (HL' : literal_after e (py_slice (u_text u) None None)).
  { rewrite py_slice_zsub, EF. cbn [fst snd]. rewrite zsub_full. exact HL. }
  pose proof (find_unescaped_spec u chars e None None H N) as HS. cbv zeta in HS. rewrite EF in HS. cbn [fst snd] in HS.
  unfold split_unescaped. destruct (find_unescaped u chars [e] None None) as [ys err]. cbn [fst snd] in *.
  destruct HS as [[HS HP] [_ Hiff]]. apply Hiff in HL'. subst err. pose proof (zlen_nonneg (u_text u)).
  assert (HF : Forall (fun k => 0 <= k < zlen (u_text u)) ys). { apply Forall_forall. intros k Hk. apply HP in Hk. lia. }
  destruct (usplit_loop_ok u ys H 0) as (ps & E & Ht & Hp); [lia|exact HS|exact HF|]. rewrite E. cbn [fst].
  pose proof (cut_clean e chars (u_text u) ys 0 ltac:(lia) eq_refl (conj HS HP)) as HC. rewrite <- Ht in HC. rewrite Forall_map in HC. exact HC.
Qed.
Print Assumptions C109_split_none_left.
Example C109_case : let i := UIto (ito_of_str (lit "__a,b\,c;d") (Some 2) None None) in
  u_wf i /\ literal_after 92 (u_text i) /\ map u_text (fst (split_unescaped i (lit ";,") [92] None None)) = [lit "a"; lit "b\,c"; lit "d"] /\
  find_balanced i (lit "((") (lit ")") [92] None None = ([], Some ValueError).
Proof. vm_compute. repeat split; discriminate. Qed.
