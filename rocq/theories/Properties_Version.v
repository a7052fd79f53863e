(** Properties of pawpaw/_version.py. *)
From Verif Require Import SpecVersion SpecNlp PyFacts VersionFacts.

Lemma local_loose u : local_text u -> loose_local u.
Proof.
  intros [H|(x & xs & -> & [Hx _] & F)]; [left; exact H|right]. exists x, (map (fun y => (46, y)) xs). split; [unfold tail_of; rewrite map_map; reflexivity|]. split; [exact Hx|].
  apply Forall_map. revert F. apply Forall_impl. intros y [Hy _]. cbn [fst snd]. split; [right; right; left; reflexivity|exact Hy].
Qed.
Lemma version_imp (L L' : pystr -> Prop) v : (forall l, (exists b, v = b ++ l) -> L l -> L' l) -> version_with L v -> version_with L' v.
Proof.
  intros H (a & b & c & d & f & g & E & Ha & Hb & Hc & Hd & Hf & Hg). exists a, b, c, d, f, g. repeat (split; [assumption|]). apply H; [|exact Hg]. exists (a ++ b ++ c ++ d ++ f). rewrite E, <- !app_assoc. reflexivity.
Qed.
Lemma ends_nl u v : v = u ++ [10] -> last v 0 = 10. Proof. intros ->. apply last_last. Qed.

(** C94: is_canonical accepts every canonical version identifier of PEP 440 ... *)
Theorem C94_accepts v : canonical v -> is_canonical v = true.
Proof. intros H. apply canonical_exact. left. revert H. apply version_imp. intros l _. apply local_loose. Qed.
(** ... and nothing else, among texts without local identifier that do not end in a newline *)
Theorem C94_rejects_partial v : ~ In 43 v -> last v 0 <> 10 -> is_canonical v = true <-> canonical v.
Proof.
  intros Np Nl. split; [|apply C94_accepts]. intros H. apply canonical_exact in H. destruct H as [H|(u & E & _)]; [|exfalso; exact (Nl (ends_nl u v E))]. revert H. apply version_imp.
  intros l (b & ->) [Hl|(x & ps & -> & _)]; [left; exact Hl|]. exfalso. apply Np, in_or_app. right. left. reflexivity.
Qed.
(** what it accepts exactly: a newline at the end; a local identifier with - or _, or with superfluous zeros *)
Theorem C94_exact v : is_canonical v = true <-> version_with loose_local v \/ exists u, v = u ++ [10] /\ version_with loose_local u.
Proof. exact (canonical_exact v). Qed.

Ltac digits_ := repeat constructor; unfold is_digit; lia.
Example C94_case : canonical (lit "1!2.0.10rc3.post0.dev12+ubuntu.1") /\ ~ In 43 (lit "2.0rc1") /\ is_canonical (lit "01.0") = false /\ is_canonical (lit "1.0-1") = false /\ is_canonical version = true.
Proof.
  split; [|split; [vm_compute; lia|vm_compute; auto]].
  exists (lit "1!"), (lit "2.0.10"), (lit "rc3"), (lit ".post0"), (lit ".dev12"), (lit "+ubuntu.1"). split; [reflexivity|].
  split; [right; exists (lit "1"); split; [reflexivity|]; split; [right; exists 49, []; split; [reflexivity|]; split; [lia|constructor]|discriminate]|].
  split; [exists (lit "2"), [lit "0"; lit "10"]; split; [reflexivity|]; split; [right; exists 50, []; split; [reflexivity|]; split; [lia|constructor]|]; constructor; [left; reflexivity|]; constructor; [right; exists 49, [48]; split; [reflexivity|]; split; [lia|digits_]|constructor]|].
  split; [right; exists (lit "rc"), (lit "3"); split; [reflexivity|]; split; [right; right; left; reflexivity|]; right; exists 51, []; split; [reflexivity|]; split; [lia|constructor]|].
  split; [right; exists (lit "0"); split; [reflexivity|left; reflexivity]|].
  split; [right; exists (lit "12"); split; [reflexivity|]; right; exists 49, [50]; split; [reflexivity|]; split; [lia|digits_]|].
  right. exists (lit "ubuntu"), [lit "1"]. split; [reflexivity|]. split.
  - split; [split; [discriminate|]|].
    { apply Forall_forall. intros c H. left. unfold is_letter. cbn in H. lia. }
    intros F. inversion F as [|? ? D _]. unfold is_digit in D. lia.
  - constructor; [|constructor]. split; [split; [discriminate|]; apply Forall_forall; intros c H; right; unfold is_digit; cbn in H; lia|]. intros _. right. exists 49, []. split; [reflexivity|]. split; [lia|constructor].
Qed.

Lemma in_tail_of x sep xs : In x (tail_of sep xs) -> x = sep \/ exists y, In y xs /\ In x y.
Proof. unfold tail_of. rewrite in_concat. intros (l & H & Hx). apply in_map_iff in H. destruct H as (y & <- & Hy). destruct Hx as [->|Hx]; [left; reflexivity|right; eauto]. Qed.
Lemma num_digits u x : v_num u -> In x u -> is_digit x.
Proof. intros [->|(c & r & -> & Hc & F)]; [intros H; unfold is_digit; cbn in H; lia|]. intros [<-|H]; [unfold is_digit; lia|]. rewrite Forall_forall in F. exact (F x H). Qed.
(** the characters of a version before its local identifier *)
Definition v_chars (x : Z) : Prop := is_letter x \/ is_digit x \/ In x (lit "!.").
Lemma public_chars e r p o d x : epoch_text e -> release_text r -> pre_text p -> post_text o -> dev_text d -> In x (e ++ r ++ p ++ o ++ d) -> v_chars x.
Proof.
  intros He Hr Hp Ho Hd H. rewrite !in_app_iff in H. unfold v_chars. destruct H as [H|[H|[H|[H|H]]]].
  - destruct He as [->|(n & -> & Hn & _)]; [destruct H|]. apply in_app_or in H. destruct H as [H|[<-|[]]]; [right; left; exact (num_digits n x Hn H)|right; right; left; reflexivity].
  - destruct Hr as (n & ns & -> & Hn & F). apply in_app_or in H. destruct H as [H|H]; [right; left; exact (num_digits n x Hn H)|]. apply in_tail_of in H. destruct H as [->|(y & Hy & Hx)]; [right; right; right; left; reflexivity|]. rewrite Forall_forall in F. right. left. exact (num_digits y x (F y Hy) Hx).
  - destruct Hp as [->|(k & n & -> & Hk & Hn)]; [destruct H|]. apply in_app_or in H. destruct H as [H|H]; [left|right; left; exact (num_digits n x Hn H)]. unfold is_letter. destruct Hk as [<-|[<-|[<-|[]]]]; cbn in H; lia.
  - destruct Ho as [->|(n & -> & Hn)]; [destruct H|]. apply in_app_or in H. destruct H as [H|H]; [|right; left; exact (num_digits n x Hn H)]. unfold is_letter. cbn in H. cbn. lia.
  - destruct Hd as [->|(n & -> & Hn)]; [destruct H|]. apply in_app_or in H. destruct H as [H|H]; [|right; left; exact (num_digits n x Hn H)]. unfold is_letter. cbn in H. cbn. lia.
Qed.
Lemma part_chars u x : local_part u -> In x u -> is_letter x \/ is_digit x.
Proof. intros [[_ F] _] H. rewrite Forall_forall in F. exact (F x H). Qed.
Lemma canonical_chars v x : canonical v -> In x v -> v_chars x \/ x = 43.
Proof.
  intros (e & r & p & o & d & l & -> & He & Hr & Hp & Ho & Hd & Hl) H. replace (e ++ r ++ p ++ o ++ d ++ l) with ((e ++ r ++ p ++ o ++ d) ++ l) in H by (rewrite <- !app_assoc; reflexivity).
  apply in_app_or in H. destruct H as [H|H]; [left; exact (public_chars e r p o d x He Hr Hp Ho Hd H)|]. destruct Hl as [->|(y & ys & -> & Hy & F)]; [destruct H|]. apply in_app_or in H. destruct H as [[<-|[]]|H]; [right; reflexivity|left].
  unfold v_chars. apply in_app_or in H. destruct H as [H|H]; [destruct (part_chars y x Hy H); auto|]. apply in_tail_of in H. destruct H as [->|(z & Hz & Hx)]; [right; right; right; left; reflexivity|]. rewrite Forall_forall in F. destruct (part_chars z x (F z Hz) Hx); auto.
Qed.
(** a newline at the end, - in a local identifier, a superfluous zero in a local identifier: accepted, not canonical *)
Theorem C94_refuted : Forall (fun v => is_canonical v = true /\ ~ canonical v) [lit "1" ++ [10]; lit "1+a-b"; lit "1+01"].
Proof.
  constructor; [|constructor; [|constructor; [|constructor]]]; (split; [reflexivity|]); intros H.
  - apply (canonical_chars _ 10) in H; [|right; left; reflexivity]. unfold v_chars, is_letter, is_digit in H. cbn in H. lia.
  - apply (canonical_chars _ 45) in H; [|right; right; right; left; reflexivity]. unfold v_chars, is_letter, is_digit in H. cbn in H. lia.
  - destruct H as (e & r & p & o & d & l & E & He & Hr & Hp & Ho & Hd & Hl). assert (Hpub := public_chars e r p o d 43 He Hr Hp Ho Hd). replace (e ++ r ++ p ++ o ++ d ++ l) with ((e ++ r ++ p ++ o ++ d) ++ l) in E by (rewrite <- !app_assoc; reflexivity). set (q := e ++ r ++ p ++ o ++ d) in *.
    assert (Nq : ~ In 43 q) by (intros H; specialize (Hpub H); unfold v_chars, is_letter, is_digit in Hpub; cbn in Hpub; lia).
    destruct Hl as [->|(y & ys & -> & Hy & F)]; [rewrite app_nil_r in E; apply Nq; rewrite <- E; right; left; reflexivity|].
    destruct q as [|q1 q2]; [discriminate E|]. injection E as E1 E. destruct q2 as [|q2 q3]; [|injection E as E2 _; apply Nq; rewrite <- E2; right; left; reflexivity]. injection E as E.
    destruct ys as [|z ys]; [unfold tail_of in E; cbn in E; rewrite app_nil_r in E; subst y|].
    + destruct Hy as [_ Hy]. destruct Hy as [H|(c & t & H & Hc & _)]; [digits_|discriminate H|injection H as <- _; lia].
    + assert (Q : In 46 [48; 49]) by (rewrite E; apply in_or_app; right; left; reflexivity). cbn in Q. lia.
Qed.
