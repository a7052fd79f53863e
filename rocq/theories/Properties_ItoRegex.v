(** Property theorem C114: the regex methods of an Ito see its text and nothing else. *)
From Verif Require Import ItoRegex SpecStr SpecTable ItoStrFacts NlpFacts9 TableFacts TableFacts5 TableFacts6.

(** the piece v of the text of i, after u: its span *)
Definition span_after (i : fito) (u v : pystr) : span := (f_start i + zlen u, f_start i + zlen u + zlen v).

Lemma text_written i p v : fwf i -> 0 <= p -> written (f_str i) (f_stop i) (f_start i + p) v <-> exists u w, ito_str i = u ++ v ++ w /\ zlen u = p.
Proof.
  intros W Hp. rewrite (ito_str_zsub i W). destruct W as [W1 W2]. unfold written. pose proof (zlen_nonneg v). split.
  - intros (_ & H1 & H2). exists (zsub (f_str i) (f_start i) (f_start i + p)), (zsub (f_str i) (f_start i + p + zlen v) (f_stop i)). split.
    + rewrite <- H2 at 1. rewrite !zsub_app_split by lia. reflexivity.
    + rewrite zsub_len by lia. lia.
  - intros (u & w & E & Lu). assert (L : zlen (zsub (f_str i) (f_start i) (f_stop i)) = f_stop i - f_start i) by (apply zsub_len; lia).
    rewrite E, !zlen_app in L. pose proof (zlen_nonneg w). split; [lia|]. split; [lia|].
    assert (Q : zsub (zsub (f_str i) (f_start i) (f_stop i)) p (p + zlen v) = v).
    { rewrite E, zsub_app_r by lia. rewrite zsub_app_l by lia. replace (p - zlen u) with 0 by lia. replace (p + zlen v - zlen u) with (zlen v) by lia. apply zsub_full. }
    rewrite zsub_zsub in Q by lia. rewrite <- Q at 2. f_equal; lia.
Qed.

(** the first match *)
Lemma find_first r s e : forall n k, e + 1 - k < Z.of_nat n -> match zfind n r s e k with
  | m :: _ => k <= fst (fst m) <= e /\ (exists w ws, zways r s e (fst (fst m), []) = w :: ws /\ snd (fst m) = fst w) /\ forall j, k <= j < fst (fst m) -> zways r s e (j, []) = []
  | [] => forall j, k <= j <= e -> zways r s e (j, []) = []
  end.
Proof.
  induction n as [|n IH]; intros k Hn; [cbn [zfind]; intros; lia|]. cbn [zfind]. destruct (Z.ltb_spec e k) as [Q|Q]; [intros; lia|].
  destruct (zways r s e (k, [])) as [|w ws] eqn:E.
  - specialize (IH (k + 1) ltac:(lia)). destruct (zfind n r s e (k + 1)) as [|m l].
    + intros j Hj. destruct (Z.eq_dec j k) as [->|]; [exact E|apply IH; lia].
    + destruct IH as (B & W & F). split; [lia|]. split; [exact W|]. intros j Hj. destruct (Z.eq_dec j k) as [->|]; [exact E|apply F; lia].
  - cbn [fst snd]. split; [lia|]. split; [exists w, ws; auto|]. intros; lia.
Qed.
Lemma text_len i : fwf i -> zlen (ito_str i) = f_stop i - f_start i.
Proof. intros W. rewrite ito_str_zsub by exact W. destruct W as [W1 W2]. apply zsub_len; lia. Qed.
Section One.
  Variables (i : fito) (r : trx).
  Hypotheses (W : fwf i) (S : simple r = true).
  Let t := ito_str i.
  Lemma ways_text p w : 0 <= p <= zlen t -> In w (zways r (f_str i) (f_stop i) (f_start i + p, [])) -> exists u v x, t = u ++ v ++ x /\ zlen u = p /\ lang r v /\ fst w = f_start i + p + zlen v.
  Proof.
    intros Hp Hw. destruct W as [W1 W2]. assert (L : zlen t = f_stop i - f_start i) by (unfold t; rewrite ito_str_zsub by (split; assumption); apply zsub_len; lia).
    destruct (simple_reads (f_str i) (f_stop i) (fun _ => True) W2 (fun _ _ _ _ _ => Logic.I) r S (f_start i + p, []) w ltac:(cbn [fst]; lia) Hw) as (v & Lv & Wv & ->). cbn [fst snd] in *.
    apply text_written in Wv; [|split; assumption|lia]. destruct Wv as (u & x & E & Lu). exists u, v, x. auto.
  Qed.
  Lemma text_ways u v x : t = u ++ v ++ x -> lang r v -> In (f_start i + zlen u + zlen v, []) (zways r (f_str i) (f_stop i) (f_start i + zlen u, [])).
  Proof.
    intros E Lv. destruct W as [W1 W2]. pose proof (zlen_nonneg u).
    pose proof (simple_writes (f_str i) (f_stop i) (fun _ => True) W2 (fun _ _ _ _ _ => Logic.I) r S v (f_start i + zlen u, []) Lv) as H'. cbn [fst snd] in H'. apply H'; [lia|].
    apply text_written; [split; assumption|lia|]. exists u, x. auto.
  Qed.
End One.

(** ** C114 fullmatch: exactly when the text is one the pattern stands for *)
Theorem C114_fullmatch : forall i r, fwf i -> simple r = true ->
  (lang r (ito_str i) -> regex_fullmatch r i = Some (f_start i, f_stop i)) /\ (~ lang r (ito_str i) -> regex_fullmatch r i = None).
Proof.
  intros i r W S. pose proof (text_len i W) as L. unfold regex_fullmatch. destruct (filter _ _) as [|w ws] eqn:E.
  - split; [|auto]. intros H. exfalso. pose proof (text_ways i r W S [] (ito_str i) [] ltac:(cbn; rewrite app_nil_r; reflexivity) H) as Q. change (zlen (@nil Z)) with 0 in Q. rewrite Z.add_0_r in Q.
    assert (In (f_start i + zlen (ito_str i), []) (filter (fun w : state => fst w =? f_stop i) (zways r (f_str i) (f_stop i) (f_start i, [])))) as X by (apply filter_In; split; [exact Q|]; cbn [fst]; apply Z.eqb_eq; lia).
    exact (eq_ind _ (fun l => In (f_start i + zlen (ito_str i), []) l) X _ E).
  - assert (Hw : In w (w :: ws)) by (left; reflexivity). apply (eq_ind_r (fun l => In w l) Hw) in E. pose proof E as Hw'. apply filter_In in Hw'. clear Hw. rename Hw' into Hw. destruct Hw as [Hw Q]. apply Z.eqb_eq in Q.
    pose proof (zlen_nonneg (ito_str i)). destruct (ways_text i r W S 0 w ltac:(lia)) as (u & v & x & T & Lu & Lv & F); [rewrite Z.add_0_r; exact Hw|].
    assert (X : zlen (ito_str i) = zlen v) by lia. rewrite T, !zlen_app in X. pose proof (zlen_nonneg x). assert (u = []) as -> by (apply length_zero_iff_nil; unfold zlen in Lu; lia). assert (x = []) as -> by (apply length_zero_iff_nil; unfold zlen in *; lia).
    cbn in T. rewrite app_nil_r in T. rewrite T. split; [intros _; rewrite Q; reflexivity|intros N; contradiction].
Qed.
(** ** C114 match: the text begins with what the pattern stands for *)
Theorem C114_match : forall i r, fwf i -> simple r = true -> match regex_match r i with
  | Some sp => exists v w, ito_str i = v ++ w /\ lang r v /\ sp = span_after i [] v
  | None => forall v w, ito_str i = v ++ w -> ~ lang r v
  end.
Proof.
  intros i r W S. pose proof (text_len i W) as L. unfold regex_match. destruct (zways _ _ _ _) as [|w ws] eqn:E.
  - intros v x T H. pose proof (text_ways i r W S [] v x T H) as Q. change (zlen (@nil Z)) with 0 in Q. rewrite Z.add_0_r, E in Q. destruct Q.
  - pose proof (zlen_nonneg (ito_str i)). destruct (ways_text i r W S 0 w ltac:(lia)) as (u & v & x & T & Lu & Lv & F); [rewrite Z.add_0_r, E; left; reflexivity|].
    assert (u = []) as -> by (apply length_zero_iff_nil; unfold zlen in Lu; lia). exists v, x. split; [exact T|]. split; [exact Lv|]. unfold span_after. change (zlen (@nil Z)) with 0. f_equal; lia.
Qed.
(** ** C114 search: the leftmost piece of the text that the pattern stands for *)
Theorem C114_search : forall i r, fwf i -> simple r = true -> match regex_search r i with
  | Some sp => exists u v w, ito_str i = u ++ v ++ w /\ lang r v /\ sp = span_after i u v /\
      forall u' v' w', ito_str i = u' ++ v' ++ w' -> lang r v' -> zlen u <= zlen u'
  | None => forall u v w, ito_str i = u ++ v ++ w -> ~ lang r v
  end.
Proof.
  intros i r W S. pose proof (text_len i W) as L. pose proof (zlen_nonneg (ito_str i)). unfold regex_search, zfound.
  pose proof (find_first r (f_str i) (f_stop i) (Datatypes.S (Datatypes.S (Z.to_nat (f_stop i - f_start i)))) (f_start i) ltac:(lia)) as H'. destruct (zfind _ _ _ _ _) as [|m l].
  - intros u v w T Lv. pose proof (text_ways i r W S u v w T Lv) as Q. rewrite H' in Q; [destruct Q|]. pose proof (f_equal zlen T) as X. rewrite !zlen_app in X. pose proof (zlen_nonneg u). pose proof (zlen_nonneg v). pose proof (zlen_nonneg w). lia.
  - destruct H' as (B & (w & ws & E & Q) & F). destruct (ways_text i r W S (fst (fst m) - f_start i) w ltac:(lia)) as (u & v & x & T & Lu & Lv & G).
    { replace (f_start i + (fst (fst m) - f_start i)) with (fst (fst m)) by lia. rewrite E. left. reflexivity. }
    exists u, v, x. split; [exact T|]. split; [exact Lv|]. split; [unfold span_after; destruct m as [[a b] c]; cbn [fst snd] in *; f_equal; lia|].
    intros u' v' w' T' Lv'. destruct (Z.le_gt_cases (zlen u) (zlen u')) as [Q'|Q']; [exact Q'|]. exfalso. pose proof (text_ways i r W S u' v' w' T' Lv') as X. pose proof (zlen_nonneg u'). rewrite F in X by lia. destruct X.
Qed.
(** ** C114 finditer and findall: pieces the pattern stands for, in order and apart, and every other such piece
    touches one of them (for patterns that do not stand for the empty text) *)
Theorem C114_finditer : forall i r, fwf i -> simple r = true -> ~ lang r [] ->
  Forall (fun sp => exists u v w, ito_str i = u ++ v ++ w /\ lang r v /\ sp = span_after i u v) (regex_finditer r i) /\
  StronglySorted (fun a b => snd a <= fst b) (regex_finditer r i) /\
  (forall u v w, ito_str i = u ++ v ++ w -> lang r v -> exists sp, In sp (regex_finditer r i) /\ fst sp <= f_start i + zlen u < snd sp) /\
  regex_findall r i = map (fun sp => zsub (f_str i) (fst sp) (snd sp)) (regex_finditer r i).
Proof.
  intros i r W S N. pose proof (text_len i W) as L. pose proof (zlen_nonneg (ito_str i)).
  destruct W as [W1 W2].
  assert (Fw : forall j w, 0 <= j <= f_stop i -> In w (zways r (f_str i) (f_stop i) (j, [])) -> j < fst w).
  { intros j w Hj Hw. destruct (simple_reads (f_str i) (f_stop i) (fun _ => True) W2 (fun _ _ _ _ _ => Logic.I) r S (j, []) w Hj Hw) as (v & Lv & _ & ->). cbn [fst].
    destruct v; [contradiction|]. rewrite zlen_cons. pose proof (zlen_nonneg v). lia. }
  assert (In_ : forall m, In m (zfound r (f_str i) (f_start i) (f_stop i)) -> exists u v w, ito_str i = u ++ v ++ w /\ lang r v /\ fst m = span_after i u v).
  { intros m Hm. destruct (zfind_in r (f_str i) (f_stop i) Fw _ _ m (proj1 W1) Hm) as (B & w & ws & E & Q & _).
    destruct (ways_text i r (conj W1 W2) S (fst (fst m) - f_start i) w ltac:(lia)) as (u & v & x & T & Lu & Lv & G).
    { replace (f_start i + (fst (fst m) - f_start i)) with (fst (fst m)) by lia. rewrite E. left. reflexivity. }
    exists u, v, x. split; [exact T|]. split; [exact Lv|]. unfold span_after. destruct m as [[a b] c]. cbn [fst snd] in *. f_equal; lia. }
  unfold regex_finditer, regex_findall. split; [|split; [|split]].
  - apply Forall_map, Forall_forall. exact In_.
  - pose proof (zfind_sorted r (f_str i) (f_stop i) Fw (Datatypes.S (Datatypes.S (Z.to_nat (f_stop i - f_start i)))) (f_start i) (proj1 W1)) as Q. unfold zfound. revert Q. generalize (zfind (Datatypes.S (Datatypes.S (Z.to_nat (f_stop i - f_start i)))) r (f_str i) (f_stop i) (f_start i)) as l. clear. induction 1 as [|a l H IH F]; cbn; constructor; [exact IH|]. apply Forall_map. exact F.
  - intros u v w T Lv. pose proof (text_ways i r (conj W1 W2) S u v w T Lv) as Q. pose proof (zlen_nonneg u). pose proof (zlen_nonneg v). pose proof (zlen_nonneg w). pose proof (f_equal zlen T) as X. rewrite !zlen_app in X.
    destruct (zfind_all r (f_str i) (f_stop i) Fw (Datatypes.S (Datatypes.S (Z.to_nat (f_stop i - f_start i)))) (f_start i) (f_start i + zlen u)) as (m & Hm & B); [lia|lia|intros Y; rewrite Y in Q; destruct Q|lia|].
    exists (fst m). split; [apply in_map; exact Hm|exact B].
  - rewrite map_map. apply map_ext_in. intros m Hm. destruct (In_ m Hm) as (u & v & w & T & _ & E). destruct m as [sp c]. cbn [fst snd] in *. subst sp. unfold span_after. cbn [fst snd]. pose proof (zlen_nonneg u). pose proof (zlen_nonneg v). pose proof (zlen_nonneg w). pose proof (f_equal zlen T) as X. rewrite !zlen_app in X. apply py_slice_in; lia.
Qed.
Print Assumptions C114_finditer.
(** [a-c]+ in the middle of a text *)
Example C114_case : let i := ito_of_str (lit "abc1ab,ccc") (Some 1) (Some 8) None in let r := ZPlus (ZCls (fun c => (97 <=? c) && (c <=? 99))) in
  fwf i /\ simple r = true /\ regex_search r i = Some (1, 3) /\ regex_match r i = Some (1, 3) /\ regex_fullmatch r i = None /\ regex_findall r i = [lit "bc"; lit "ab"; lit "c"] /\ ~ lang r [].
Proof.
  cbv zeta. split; [vm_compute; repeat split; discriminate|]. do 5 (split; [vm_compute; reflexivity|]). intros (us & E & F & L & _). destruct us as [|u us]; [cbn in L; lia|]. inversion F as [|? ? [N _] _]. cbn in E. destruct u; [contradiction|discriminate].
Qed.
