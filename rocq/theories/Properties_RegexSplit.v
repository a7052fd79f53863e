(** Properties of splitting an Ito by a pattern (pawpaw/ito.py). *)
From Verif Require Import SpecStr SpecNlp PyFacts ItoStrFacts ItoStrFacts4 TableFacts TableFacts5 TableFacts6 ItoRegex SpecTable Properties_ItoRegex.

(** pieces with the separators between them *)
Fixpoint weave (ps seps : list pystr) : pystr :=
  match ps, seps with p :: ps', x :: seps' => p ++ x ++ weave ps' seps' | p :: _, [] => p | [], _ => [] end.
Lemma seq_of a b : forall ms, a <= b -> Forall (fun m => a <= fst m /\ fst m <= snd m /\ snd m <= b) ms -> StronglySorted (fun x y : span => snd x <= fst y) ms -> match_seq a b ms.
Proof.
  intros ms. revert a. induction ms as [|m ms IH]; intros a Hab F S; [exact Hab|]. inversion F as [|? ? (B1 & B2 & B3) F']; subst. apply StronglySorted_inv in S. destruct S as [S1 S2]. split; [lia|]. split; [lia|]. apply IH; [lia| |exact S1]. rewrite Forall_forall in *. intros x Hx. specialize (S2 x Hx). specialize (F' x Hx). lia.
Qed.
Lemma weave_between s b : b <= zlen s -> forall ms a, 0 <= a -> match_seq a b ms -> weave (map (fun p => zsub s (fst p) (snd p)) (between a b ms)) (map (fun p => zsub s (fst p) (snd p)) ms) = zsub s a b.
Proof.
  intros Hb. induction ms as [|m ms IH]; intros a Ha M; cbn [match_seq between map weave fst snd] in *; [reflexivity|]. destruct M as (M1 & M2 & M3). assert (B : snd m <= b) by (clear - M3; revert M3; generalize (snd m); induction ms as [|x ms IH]; intros k M; cbn in M; [exact M|]; destruct M as (? & ? & M); specialize (IH _ M); lia).
  rewrite IH by (lia || exact M3). rewrite !zsub_app_split by lia. reflexivity.
Qed.
Lemma between_off b : forall ms a, match_seq a b ms -> forall p m q, In p (between a b ms) -> In m ms -> fst p <= q < snd p -> fst m <= q < snd m -> False.
Proof.
  induction ms as [|x ms IH]; intros a M p m q Hp Hm Q1 Q2; [destruct Hm|]. cbn [match_seq between] in *. destruct M as (M1 & M2 & M3).
  assert (Lo : forall k l, match_seq k b l -> (forall y, In y l -> k <= fst y) /\ (forall y, In y (between k b l) -> k <= fst y)).
  { clear. intros k l. revert k. induction l as [|z l IH]; intros k M; cbn [match_seq between] in *; [split; [intros y []|intros y [<-|[]]; cbn; lia]|]. destruct M as (A & B & M). destruct (IH _ M) as [I1 I2]. split; (intros y [<-|Hy]; cbn [fst]; [lia|]); [specialize (I1 y Hy)|specialize (I2 y Hy)]; lia. }
  destruct (Lo _ _ M3) as [L1 L2]. destruct Hp as [<-|Hp]; destruct Hm as [<-|Hm]; cbn [fst snd] in *; [lia|specialize (L1 m Hm); lia|specialize (L2 p Hp); lia|exact (IH _ M3 p m q Hp Hm Q1 Q2)].
Qed.
Lemma spans_in i r sp : fwf i -> (exists u v w, ito_str i = u ++ v ++ w /\ lang r v /\ sp = span_after i u v) -> f_start i <= fst sp /\ fst sp <= snd sp /\ snd sp <= f_stop i.
Proof. intros W (u & v & w & T & _ & ->). pose proof (text_len i W) as L. unfold span_after. cbn [fst snd]. pose proof (zlen_nonneg u). pose proof (zlen_nonneg v). pose proof (zlen_nonneg w). pose proof (f_equal zlen T) as X. rewrite !zlen_app in X. lia. Qed.
(** C116: regex_split cuts the text of the Ito at the texts of the pattern and nowhere else *)
Theorem C116_split i r m : fwf i -> simple r = true -> ~ lang r [] -> m <= 0 ->
  let ps := map ito_str (regex_split r i m) in exists seps, length ps = S (length seps) /\ ito_str i = weave ps seps /\ Forall (lang r) seps /\ Forall (fun p => forall u v w, p = u ++ v ++ w -> ~ lang r v) ps /\
  Forall (fun p => within p i /\ f_desc p = None) (regex_split r i m).
Proof.
  intros W S N Hm ps. destruct (C114_finditer i r W S N) as (F & So & Al & _). pose proof W as [W1 W2].
  assert (M : match_seq (f_start i) (f_stop i) (regex_finditer r i)) by (apply seq_of; [lia| |exact So]; eapply Forall_impl; [|exact F]; cbn beta; intros sp H; exact (spans_in i r sp W H)).
  destruct (split_iter_spec i (regex_finditer r i) m false None W Hm M) as [E Fi]. fold (regex_split r i m) in E, Fi. set (ms := regex_finditer r i) in *.
  assert (T : ps = map (fun p => zsub (f_str i) (fst p) (snd p)) (between (f_start i) (f_stop i) ms)).
  { rewrite <- E. unfold ps, spans_of. rewrite map_map. apply map_ext_in. intros p Hp. rewrite Forall_forall in Fi. destruct (Fi p Hp) as [(P1 & P2 & P3) _]. cbn [fst snd]. rewrite ito_str_zsub by (split; [lia|rewrite P1; lia]). rewrite P1. reflexivity. }
  exists (map (fun p => zsub (f_str i) (fst p) (snd p)) ms). split; [|split; [|split; [|split]]].
  - rewrite T, !map_length. clear. generalize (f_start i). induction ms as [|x ms IH]; intros a; cbn; [reflexivity|]. rewrite IH. reflexivity.
  - rewrite T, weave_between by (lia || exact M). apply ito_str_zsub. exact W.
  - apply Forall_map. eapply Forall_impl; [|exact F]. cbn beta. intros sp (u & v & w & T0 & Lv & ->). unfold span_after. cbn [fst snd]. pose proof (proj2 (text_written i (zlen u) v W (zlen_nonneg u)) (ex_intro _ u (ex_intro _ w (conj T0 eq_refl)))) as (_ & _ & Wr). replace (zsub (f_str i) (f_start i + zlen u) (f_start i + zlen u + zlen v)) with v by (symmetry; exact Wr). exact Lv.
  - rewrite T. apply Forall_map, Forall_forall. intros p Hp u v w Ep Lv.
    assert (Bp : f_start i <= fst p /\ fst p <= snd p /\ snd p <= f_stop i).
    { rewrite <- E in Hp. apply in_map_iff in Hp. destruct Hp as (f & <- & Hf). rewrite Forall_forall in Fi. destruct (Fi f Hf) as [(_ & P2 & P3) _]. cbn [fst snd]. lia. }
    assert (Et : ito_str i = (zsub (f_str i) (f_start i) (fst p) ++ u) ++ v ++ (w ++ zsub (f_str i) (snd p) (f_stop i))).
    { rewrite ito_str_zsub by exact W. rewrite <- (zsub_app_split (f_str i) (f_start i) (fst p) (f_stop i)) by lia. rewrite <- (zsub_app_split (f_str i) (fst p) (snd p) (f_stop i)) by lia. rewrite Ep, <- !app_assoc. reflexivity. }
    destruct (Al _ _ _ Et Lv) as (sp & Hsp & Q). rewrite zlen_app, zsub_len in Q by lia. pose proof (f_equal zlen Ep) as X. rewrite zsub_len, !zlen_app in X by lia. pose proof (zlen_nonneg u). pose proof (zlen_nonneg w). assert (0 < zlen v) by (destruct v; [contradiction|]; rewrite zlen_cons; pose proof (zlen_nonneg v); lia).
    exact (between_off _ _ _ M p sp (fst p + zlen u) Hp Hsp ltac:(lia) ltac:(lia)).
  - exact Fi.
Qed.
(** with keep_seps each piece but the last ends with its separator *)
Theorem C116_keep_seps i r m desc : fwf i -> simple r = true -> ~ lang r [] -> m <= 0 -> exists ps seps last, length ps = length seps /\
  map ito_str (split_with_seps r i m desc) = map (fun q => fst q ++ snd q) (combine ps seps) ++ [last] /\ map ito_str (regex_split r i m) = ps ++ [last] /\ Forall (lang r) seps /\ concat (map ito_str (split_with_seps r i m desc)) = ito_str i.
Proof.
  intros W S N Hm. destruct (C114_finditer i r W S N) as (F & So & _). pose proof W as [W1 W2].
  assert (M : match_seq (f_start i) (f_stop i) (regex_finditer r i)) by (apply seq_of; [lia| |exact So]; eapply Forall_impl; [|exact F]; cbn beta; intros sp H; exact (spans_in i r sp W H)).
  assert (Tx : forall k d, map ito_str (split_iter i (regex_finditer r i) m k d) = map (fun p => zsub (f_str i) (fst p) (snd p)) (if k then up_to_and_with (f_start i) (f_stop i) (regex_finditer r i) else between (f_start i) (f_stop i) (regex_finditer r i))).
  { intros k d. destruct (split_iter_spec i (regex_finditer r i) m k d W Hm M) as [E Fi]. refine (eq_trans _ (f_equal (map (fun p : span => zsub (f_str i) (fst p) (snd p))) E)). unfold spans_of. rewrite map_map. apply map_ext_in. intros p Hp. rewrite Forall_forall in Fi. destruct (Fi p Hp) as [(P1 & P2 & P3) _]. cbn [fst snd]. rewrite ito_str_zsub by (split; [lia|rewrite P1; lia]). rewrite P1. reflexivity. }
  assert (Ls : Forall (lang r) (map (fun p => zsub (f_str i) (fst p) (snd p)) (regex_finditer r i))).
  { apply Forall_map. eapply Forall_impl; [|exact F]. cbn beta. intros sp (u & v & w & T0 & Lv & ->). unfold span_after. cbn [fst snd]. pose proof (proj2 (text_written i (zlen u) v W (zlen_nonneg u)) (ex_intro _ u (ex_intro _ w (conj T0 eq_refl)))) as (_ & _ & Wr). replace (zsub (f_str i) (f_start i + zlen u) (f_start i + zlen u + zlen v)) with v by (symmetry; exact Wr). exact Lv. }
  unfold split_with_seps, regex_split. rewrite !Tx. set (ms := regex_finditer r i) in *.
  assert (G : forall ms a, 0 <= a -> match_seq a (f_stop i) ms -> exists ps last, length ps = length ms /\ map (fun p => zsub (f_str i) (fst p) (snd p)) (between a (f_stop i) ms) = ps ++ [last] /\
    map (fun p => zsub (f_str i) (fst p) (snd p)) (up_to_and_with a (f_stop i) ms) = map (fun q => fst q ++ snd q) (combine ps (map (fun p => zsub (f_str i) (fst p) (snd p)) ms)) ++ [last]).
  { clear - W2. induction ms as [|x ms IH]; intros a Ha M; cbn [match_seq between up_to_and_with map] in *; [exists [], (zsub (f_str i) a (f_stop i)); auto|]. destruct M as (M1 & M2 & M3).
    assert (B : snd x <= f_stop i) by (clear - M3; revert M3; generalize (snd x); induction ms as [|x0 ms IH]; intros k M; cbn in M; [exact M|]; destruct M as (? & ? & M); specialize (IH _ M); lia).
    destruct (IH (snd x) ltac:(lia) M3) as (ps & last & L & E1 & E2). exists (zsub (f_str i) a (fst x) :: ps), last. cbn [length combine map fst snd app]. rewrite E1, E2, L. split; [reflexivity|]. split; [reflexivity|]. f_equal. rewrite zsub_app_split by lia. reflexivity. }
  destruct (G ms (f_start i) ltac:(lia) M) as (ps & last & L & E1 & E2). exists ps, (map (fun p => zsub (f_str i) (fst p) (snd p)) ms), last. split; [rewrite map_length; exact L|]. split; [exact E2|]. split; [exact E1|]. split; [exact Ls|].
  rewrite (ito_str_zsub i W). clear - M W1 W2. assert (Ha : 0 <= f_start i) by lia. revert M Ha. generalize (f_start i). induction ms as [|x ms IH]; intros a M Ha; cbn [match_seq up_to_and_with map concat] in *; [apply app_nil_r|]. destruct M as (M1 & M2 & M3).
  assert (B : snd x <= f_stop i) by (clear - M3; revert M3; generalize (snd x); induction ms as [|x0 ms IH]; intros k M; cbn in M; [exact M|]; destruct M as (? & ? & M); specialize (IH _ M); lia).
  cbn [fst snd]. rewrite IH by (lia || exact M3). apply zsub_app_split; lia.
Qed.
Print Assumptions C116_split.
Print Assumptions C116_keep_seps.
(** commas, in the middle of a text *)
Example C116_case : let i := ito_of_str (lit "x,ab,,c,") (Some 2) None None in let r := ZPlus (ZCls (Z.eqb 44)) in
  fwf i /\ simple r = true /\ ~ lang r [] /\ map ito_str (regex_split r i 0) = [lit "ab"; lit "c"; []] /\ map ito_str (split_with_seps r i 0 None) = [lit "ab,,"; lit "c,"; []].
Proof.
  cbv zeta. split; [vm_compute; repeat split; discriminate|]. split; [reflexivity|]. split; [|split; vm_compute; reflexivity]. intros (us & E & F & L & _). destruct us as [|u us]; [cbn in L; lia|]. inversion F as [|? ? [N _] _]. cbn in E. destruct u; [contradiction|discriminate].
Qed.
