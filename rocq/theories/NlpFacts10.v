(** Facts for Nlp.v: paragraphs and sentences. *)
From Verif Require Import NlpDoc PyFacts ArborFacts3 ArborFacts4 NlpFacts NlpFacts2 NlpFacts7 NlpFacts9.

(** ** splitting at what finditer finds *)
Section Lay.
  Variables (r : nrx) (s : pystr) (b : Z) (brk : Z -> Prop) (skip : Z -> Z -> Prop).
  Hypothesis Hb : b <= zlen s.
  Hypothesis Hbrk : forall i, 0 <= i <= b -> brk i <-> nways r s b i <> [].
  Hypothesis Hskip : forall i w ws, 0 <= i <= b -> nways r s b i = w :: ws -> skip i (fst w) /\ (i < fst w \/ i = b /\ fst w = b) /\ (i < fst w -> ~ brk (fst w)).
  Lemma laid_finds : forall i ms, finds_from r s b i ms -> forall a ss, 0 <= a <= i -> a <= b -> (forall k, a <= k < i -> k < b -> ~ brk k) -> ~ brk a \/ b < i ->
    Forall2 (fun x t => t_start t = fst x /\ t_stop t = snd x) (filter wide (gaps a (map fst ms) b)) ss -> laid brk skip b a ss.
  Proof.
    induction 1 as [i L|i ms L E F IH|i w ws ms L E F IH]; intros a ss Ha Hab Nb Na Fs.
    - cbn [map gaps filter] in Fs. unfold wide in Fs. cbn [fst snd] in Fs. destruct (Z.ltb_spec a b).
      + inversion Fs as [|? q ? ss' [Q1 Q2] Fs']; subst. inversion Fs'; subst. cbn [fst snd] in *. apply L_last; auto. intros k Hk. apply Nb; lia.
      + inversion Fs; subst. replace a with b by lia. constructor.
    - apply IH; [lia|lia| |destruct Na as [Na|Na]; [left; exact Na|right; lia]|exact Fs]. intros k Hk Kb. destruct (Z.eq_dec k i) as [->|N]; [|apply Nb; lia]. rewrite Hbrk by lia. rewrite E. congruence.
    - assert (Bi : brk i) by (rewrite Hbrk by lia; rewrite E; discriminate). destruct (Hskip i w ws ltac:(lia) E) as (Sk & Pr & Nn).
      pose proof (nways_bound s b r i w L ltac:(rewrite E; left; reflexivity)) as B.
      assert (Hai : a < i). { destruct (Z.eq_dec a i) as [->|N]; [|lia]. destruct Na as [Na|Na]; [contradiction|lia]. }
      cbn [map gaps filter fst snd] in Fs. unfold wide at 1 in Fs. cbn [fst snd] in Fs. destruct (Z.ltb_spec a i); [|lia].
      inversion Fs as [|? q ? ss' [Q1 Q2] Fs']; subst. cbn [fst snd] in *. rewrite <- Q2 in *. apply (L_next _ _ _ _ q (fst w)); auto; [intros k Hk; apply Nb; lia|].
      destruct Pr as [Pr|[P1 P2]].
      + replace (t_stop q <? fst w) with true in IH by lia. apply IH; [lia|lia|intros k Hk; lia|left; auto|exact Fs'].
      + replace (t_stop q <? fst w) with false in IH by lia. apply IH; [lia|lia|intros k Hk; lia|right; lia|exact Fs'].
  Qed.
End Lay.
Lemma leftover_wide a b sp : a < b -> leftover a b sp = filter wide (gaps a sp b).
Proof. intros H. destruct sp; [|reflexivity]. cbn. unfold wide. cbn. destruct (Z.ltb_spec a b); [reflexivity|lia]. Qed.

(** the first way of a greedy repetition with a least number ends where the one without does *)
Lemma rep_head_least s e r : (forall i w, 0 <= i <= e -> In w (nways r s e i) -> i < fst w) -> forall fuel least i w ws, 0 <= i <= e -> (Z.to_nat (e - i) < fuel)%nat ->
  rep_ways (nways r s e) fuel least None i = w :: ws -> nways r s e (fst w) = [].
Proof.
  intros Go. assert (Fi : forall i, 0 <= i <= e -> filter (fun w => i <? fst w) (nways r s e i) = nways r s e i).
  { intros i Hi. pose proof (fun w => Go i w Hi) as G. induction (nways r s e i) as [|w ws IH]; [reflexivity|]. cbn. destruct (Z.ltb_spec i (fst w)) as [L|L]; [f_equal; apply IH; intros v Hv; apply G; right; exact Hv|]. specialize (G w (or_introl eq_refl)). lia. }
  induction fuel as [|fuel IH]; intros least i w ws Hi Hf; [lia|]. cbn [rep_ways option_map]. rewrite Fi by lia.
  assert (K : forall vs, (forall v, In v vs -> i < fst v <= e) -> forall tl, then_ vs (rep_ways (nways r s e) fuel (Nat.pred least) None) ++ tl = w :: ws -> (nways r s e (fst w) = []) \/ (tl = w :: ws /\ forall v, In v vs -> rep_ways (nways r s e) fuel (Nat.pred least) None (fst v) = [])).
  { induction vs as [|v vs IHv]; intros Hv tl Q; [right; split; [exact Q|intros v []]|]. unfold then_ in Q. cbn [flat_map] in Q. destruct (rep_ways (nways r s e) fuel (Nat.pred least) None (fst v)) as [|x xs] eqn:Ex.
    - cbn [map app] in Q. destruct (IHv ltac:(intros y Hy; apply Hv; right; exact Hy) tl Q) as [G|[G1 G2]]; [left; exact G|right; split; [exact G1|]]. intros y [<-|Hy]; [exact Ex|apply G2; exact Hy].
    - cbn [map app] in Q. injection Q as <- _. cbn [fst]. left. pose proof (Hv v (or_introl eq_refl)). apply (IH _ (fst v) x xs ltac:(lia) ltac:(lia) Ex). }
  intros Q. destruct (K (nways r s e i) ltac:(intros v Hv; pose proof (nways_bound s e r i v ltac:(lia) Hv); pose proof (Go i v Hi Hv); lia) _ Q) as [G|[G1 G2]]; [exact G|].
  destruct least; [|discriminate G1]. injection G1 as <- _. cbn [fst Nat.pred] in *. destruct (nways r s e i) as [|v vs] eqn:Ev; [reflexivity|]. exfalso.
  specialize (G2 v (or_introl eq_refl)). pose proof (nways_bound s e r i v ltac:(lia) ltac:(rewrite Ev; left; reflexivity)) as B. pose proof (Go i v Hi ltac:(rewrite Ev; left; reflexivity)) as Lv.
  destruct fuel as [|fuel]; [lia|]. cbn [rep_ways] in G2. apply app_eq_nil in G2. destruct G2 as [_ G2]. discriminate G2.
Qed.
(** ** paragraphs *)
Section Para.
  Variables (s : pystr).
  Notation e := (zlen s).
  Let He : e <= zlen s. Proof. lia. Qed.
  Lemma plain_line : plain s e (NSeq (NStar (NCls (among ws_chars))) (NChars eol_chars)) empty_line.
  Proof.
    eapply plain_imp; [|exact (plain_seq s e He _ _ _ _ (plain_cls_rep s e He 0 _) (plain_chars s e _))]. cbn beta. intros u. split.
    - intros (v & w & -> & [_ F] & (c & -> & Hc)). exists v, c. split; [reflexivity|]. split; [|exact Hc]. eapply Forall_impl; [|exact F]. cbn beta. intros x. apply among_in.
    - intros (v & c & -> & F & Hc). exists v, [c]. split; [reflexivity|]. split; [|exists c; auto]. split; [lia|]. eapply Forall_impl; [|exact F]. cbn beta. intros x Hx. apply existsb_exists. exists x. split; [exact Hx|apply Z.eqb_refl].
  Qed.
  Lemma line_full u : empty_line u -> u <> []. Proof. intros (w & c & -> & _) E. apply app_eq_nil in E. destruct E as [_ E]. discriminate E. Qed.
  Lemma plain_para n : plain s e (para_rx n) (empty_lines n).
  Proof. exact (plain_rep s e He n _ _ plain_line line_full). Qed.
  Lemma para_brk i : 0 <= i <= e -> lines_at s i <-> nways (para_rx 2) s e i <> [].
  Proof. intros Hi. rewrite <- hits_some. rewrite (plain_some s e _ _ i (plain_para 2) Hi). reflexivity. Qed.
  Lemma line_goes i w : 0 <= i <= e -> In w (nways (NSeq (NStar (NCls (among ws_chars))) (NChars eol_chars)) s e i) -> i < fst w.
  Proof.
    intros Hi H. destruct w as [j c]. destruct (proj1 (plain_line i j Hi)) as (u & L & _ & ->); [exists c; exact H|]. apply line_full in L. cbn [fst]. pose proof (nonempty_len u L). lia.
  Qed.
  Lemma para_skip i w ws : 0 <= i <= e -> nways (para_rx 2) s e i = w :: ws -> lines_over s i (fst w) /\ (i < fst w \/ i = e /\ fst w = e) /\ (i < fst w -> ~ lines_at s (fst w)).
  Proof.
    intros Hi E. destruct (proj1 (plain_para 2 i (fst w) Hi)) as (u & L & W & Ej). { exists (snd w). rewrite E. left. destruct w; reflexivity. }
    assert (Lu : 0 < zlen u). { destruct L as (ls & L & -> & F). destruct F as [|l ls Hl F]; [cbn in L; lia|]. cbn [concat]. rewrite zlen_app. pose proof (nonempty_len l (line_full l Hl)). pose proof (zlen_nonneg (concat ls)). lia. }
    pose proof (written_end s e i u W) as We. rewrite Ej in *.
    assert (N : ~ exists v, empty_line v /\ written s e (i + zlen u) v).
    { pose proof (rep_head_least s e _ line_goes (S (Z.to_nat (e - i))) 2 i w ws Hi ltac:(lia) E) as Q. rewrite Ej in Q. intros V. apply (plain_some s e _ _ (i + zlen u) plain_line ltac:(lia)) in V. apply hits_some in V. contradiction. }
    split; [exists u; auto|]. split; [left; lia|]. intros _ (v & (ls & Lv & -> & F) & Wv). apply N. destruct F as [|l ls Hl F]; [cbn in Lv; lia|]. exists l. split; [exact Hl|]. cbn [concat] in Wv. apply (written_app s e He) in Wv; [apply Wv|lia].
  Qed.
  Theorem paragraphs_found ss : s <> [] -> Forall2 (fun x t => t_start t = fst x /\ t_stop t = snd x) (leftover 0 e (found_spans (para_rx 2) s 0 e)) ss -> paragraphs_of s ss.
  Proof.
    intros Ne F. pose proof (nonempty_len s Ne) as Le. rewrite leftover_wide in F by lia. unfold found_spans in F. pose proof (found_finds (para_rx 2) s e 0) as Fd. revert Fd F. generalize (found (para_rx 2) s 0 e) as ms. intros ms Fd F.
    destruct (nways (para_rx 2) s e 0) as [|w ws] eqn:E.
    - exists 0. assert (Nb : ~ lines_at s 0) by (rewrite para_brk by lia; rewrite E; congruence). split; [left; auto|]. apply (laid_finds _ s e _ _ para_brk para_skip 0 ms Fd); [lia|lia|intros k Hk; lia|left; exact Nb|exact F].
    - assert (Bb : lines_at s 0) by (rewrite para_brk by lia; rewrite E; discriminate). destruct (para_skip 0 w ws ltac:(lia) E) as (Sk & Pr & Nn). exists (fst w). split; [right; auto|].
      pose proof (nways_bound s e _ 0 w ltac:(lia) ltac:(rewrite E; left; reflexivity)) as B. destruct Pr as [Pr|[P1 _]]; [|lia].
      inversion Fd as [i L|i ms' L E' Fd'|i w' ws' ms' L E' Fd']; subst; [lia|congruence|]. rewrite E in E'. injection E' as <- <-. replace (0 <? fst w) with true in Fd' by lia.
      cbn [map gaps filter fst snd] in F. change (wide (0, 0)) with false in F. cbn [filter] in F. apply (laid_finds _ s e _ _ para_brk para_skip (fst w) ms' Fd'); [lia|lia|intros k Hk; lia|left; auto|exact F].
  Qed.
End Para.
