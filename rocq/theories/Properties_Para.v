(** C102: the paragraphs of Paragraph(min_separators, trim_ws). *)
From Verif Require Import SpecPara NlpDoc PyFacts HeapFacts HeapFacts4 NlpFacts NlpFacts4 NlpFacts6 NlpFacts7 NlpFacts9 NlpFacts10 NlpFacts12 NlpFacts13 NlpFacts16.

(** ** without trim_ws: what lies between runs of n or more separators *)
Lemma parts_spans s n a b : Forall2 (fun x t => t_start t = fst x /\ t_stop t = snd x) (leftover a b (found_spans (para_rx n) s a b)) (parts s n a b).
Proof. unfold parts. induction (leftover a b (found_spans (para_rx n) s a b)) as [|x l IH]; [constructor|]. cbn [map]. constructor; [split; reflexivity|exact IH]. Qed.
Lemma parts_pars s n a b : Forall (is_par_of s) (parts s n a b).
Proof. unfold parts. induction (leftover a b (found_spans (para_rx n) s a b)) as [|x l IH]; [constructor|]. cbn [map]. constructor; [reflexivity|exact IH]. Qed.
Theorem C102_between : forall n s a b, (1 <= n)%nat -> 0 <= a < b -> b <= zlen s ->
  exists ps, para_gives n false s a b ps /\ Forall (is_par_of s) ps /\ parts_of n s a b ps.
Proof.
  intros n s a b Hn Ha Hb. exists (parts s n a b). split; [apply para_plain; lia|]. split; [apply parts_pars|]. exact (parts_found s b n Hb a _ Hn Ha (parts_spans s n a b)).
Qed.
(** an empty Ito has one empty paragraph *)
Theorem C102_empty : forall n s a, (1 <= n)%nat -> 0 <= a <= zlen s -> para_gives n false s a a [at_ s a a paragraph_desc []].
Proof.
  intros n s a Hn Ha. pose proof (para_plain n s a a ltac:(lia) ltac:(lia)) as G. unfold parts in G. rewrite (found_empty s a n ltac:(lia) Hn ltac:(lia)) in G. exact G.
Qed.
(** ** with trim_ws: the paragraphs of the text stripped as str.strip would, so that the first does not begin and the
    last does not end with white space.  The others may: C102_trim_refuted. *)
Theorem C102_trim_partial : forall n s a b, (1 <= n)%nat -> 0 <= a <= b -> b <= zlen s ->
  exists a' b' ps, a <= a' <= b' /\ b' <= b /\ zsub s a' b' = py_strip (fun _ => false) (zsub s a b) (Some trimmable) /\
    para_gives n true s a b ps /\ para_gives n false s a' b' ps /\
    (a' < b' -> exists p q r l, ps = p :: r /\ ps = l ++ [q] /\ t_start p = a' /\ t_stop q = b' /\ trim_start s p /\ trim_stop s q).
Proof.
  intros n s a b Hn Ha Hb. destruct (para_trimmed n s a b Ha Hb) as (a' & b' & Cw & G). pose proof Cw as (H1 & H2 & H3). exists a', b', (parts s n a' b'). split; [lia|]. split; [lia|]. split; [exact H3|]. split; [exact G|]. split; [apply para_plain; lia|]. intros L.
  pose proof (cut_first s a b a' b' ltac:(lia) Hb Cw L) as Cf. pose proof (cut_last s a b a' b' ltac:(lia) Hb Cw L) as Cl.
  destruct (zget_some s a' ltac:(lia)) as [c Hc]. destruct (zget_some s (b' - 1) ltac:(lia)) as [c' Hc'].
  destruct (sep_cover s b' n ltac:(lia) a' a' c ltac:(lia) ltac:(lia) Hc ltac:(intros Q; exact (Cf c Hc (blanks_trimmable _ Q)))) as (x & Hx & Bx).
  destruct (sep_cover s b' n ltac:(lia) a' (b' - 1) c' ltac:(lia) ltac:(lia) Hc' ltac:(intros Q; exact (Cl c' Hc' (blanks_trimmable _ Q)))) as (y & Hy & By).
  pose proof (found_ordered (para_rx n) s a' b' ltac:(lia)) as O. fold (found_spans (para_rx n) s a' b') in O.
  pose proof (fun z => cut_in C0 [] [] true s false (or_introl eq_refl) _ a' b' z O) as Bd. pose proof (cut_lined C0 [] [] true s false (or_introl eq_refl) _ a' b' (parts s n a' b') O) as Ln.
  destruct Ln as [So _]. { unfold parts. clear. induction (leftover a' b' (found_spans (para_rx n) s a' b')) as [|z l IH]; [constructor|]. cbn [map]. constructor; [auto|exact IH]. }
  assert (P1 : In (at_ s (fst x) (snd x) paragraph_desc []) (parts s n a' b')) by (unfold parts; apply in_map_iff; exists x; auto).
  assert (P2 : In (at_ s (fst y) (snd y) paragraph_desc []) (parts s n a' b')) by (unfold parts; apply in_map_iff; exists y; auto).
  assert (Bp : forall p, In p (parts s n a' b') -> a' <= t_start p <= t_stop p /\ t_stop p <= b').
  { intros p Hp. unfold parts in Hp. apply in_map_iff in Hp. destruct Hp as (z & <- & Hz). exact (Bd z Hz). }
  pose proof (Bd x Hx) as Dx. pose proof (Bd y Hy) as Dy.
  destruct (parts s n a' b') as [|p r] eqn:Ep; [destruct P1|]. destruct (exists_last (l := p :: r) ltac:(discriminate)) as (l & q & Eq).
  assert (Sp : t_start p = a'). { pose proof (Bp p (or_introl eq_refl)) as Q. destruct P1 as [->|P1]; [cbn; lia|]. inversion So as [|? ? _ F]; subst. rewrite Forall_forall in F. specialize (F _ P1). destruct F as [F1 F2]. cbn in F1, F2. lia. }
  assert (Sq : t_stop q = b'). { rewrite Eq in *. pose proof (Bp q ltac:(apply in_or_app; right; left; reflexivity)) as Q. apply in_app_or in P2. destruct P2 as [P2|[->|[]]]; [|cbn in *; lia].
    apply SS_app_inv in So. destruct So as (_ & _ & So). specialize (So _ q P2 (or_introl eq_refl)). destruct So as [F1 F2]. cbn in F1, F2. lia. }
  exists p, q, r, l. split; [reflexivity|]. split; [exact Eq|]. split; [exact Sp|]. split; [exact Sq|]. split; [intros z; rewrite Sp; apply Cf|intros z; rewrite Sq; apply Cl].
Qed.
Definition nl : pystr := [10].
Definition pdemo : pystr := lit "a" ++ nl ++ nl ++ lit "  b" ++ nl ++ nl ++ lit "c".
Theorem C102_trim_refuted : ~ forall n s a b ps p, (1 <= n)%nat -> 0 <= a <= b -> b <= zlen s -> para_gives n true s a b ps -> In p ps -> trim_start s p.
Proof.
  intros H. destruct (para_trimmed 2 pdemo 0 (zlen pdemo)) as (a' & b' & (H1 & H2 & H3) & G); [vm_compute; split; discriminate|lia|].
  change (py_strip (fun _ => false) (zsub pdemo 0 (zlen pdemo)) (Some trimmable_ws)) with pdemo in H3. pose proof (f_equal zlen H3) as L. rewrite zsub_len in L by lia. assert (a' = 0 /\ b' = zlen pdemo) as [-> ->] by lia.
  pose proof (H 2%nat pdemo 0 (zlen pdemo) _ (at_ pdemo 3 6 paragraph_desc []) (le_S _ _ (le_n _)) ltac:(vm_compute; split; discriminate) ltac:(lia) G) as Q. clear H G.
  refine (Q _ 32 _ _); vm_compute; auto 20.
Qed.
(** the hypotheses are met: white space around two paragraphs *)
Definition pdemo2 : pystr := nl ++ lit " a" ++ nl ++ lit " " ++ nl ++ lit "b" ++ nl.
Example C102_case : let r := para_run 2 true 0 (fst (new_str [] pdemo2 None None None)) in
  map (fun c => n_f (nd (fst r) c)) (fst (snd r)) = [FI pdemo2 2 3 (Some paragraph_desc) None; FI pdemo2 6 7 (Some paragraph_desc) None] /\ snd (snd r) = None.
Proof. vm_compute. auto. Qed.

Print Assumptions C102_between.
Print Assumptions C102_empty.
Print Assumptions C102_trim_partial.
Print Assumptions C102_trim_refuted.
