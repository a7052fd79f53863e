(** Facts for NlpConf.v: Paragraph.get_itor. *)
From Verif Require Import SpecPara NlpDoc PyFacts ItoStrFacts ItoStrFacts2 ItoStrFacts3 ItoStrFacts4 ItoStrFacts5 HeapFacts HeapFacts2 HeapFacts3 HeapFacts4 CombinFacts CombinFacts2 CombinFacts3 CombinFacts4 ArborFacts ArborFacts2 ArborFacts3 ArborFacts4 XmlFacts5 XmlFacts6 NlpFacts NlpFacts2 NlpFacts3 NlpFacts4 NlpFacts5 NlpFacts6 NlpFacts7 NlpFacts9 NlpFacts10 NlpFacts12 NlpFacts13.

Definition C0 : classes := Classes (fun _ => false) (fun _ => false) (fun _ => false).
(** ** the layout *)
Section Win.
  Variables (s : pystr) (e : Z) (n : nat).
  Hypothesis He : e <= zlen s.
  Lemma plain_line' : plain s e (NSeq (NStar (NCls (among ws_chars))) (NChars eol_chars)) empty_line.
  Proof.
    eapply plain_imp; [|exact (plain_seq s e He _ _ _ _ (plain_cls_rep s e He 0 _) (plain_chars s e _))]. cbn beta. intros u. split.
    - intros (v & w & -> & [_ F] & (c & -> & Hc)). exists v, c. split; [reflexivity|]. split; [|exact Hc]. eapply Forall_impl; [|exact F]. cbn beta. intros x. apply among_in.
    - intros (v & c & -> & F & Hc). exists v, [c]. split; [reflexivity|]. split; [|exists c; auto]. split; [lia|]. eapply Forall_impl; [|exact F]. cbn beta. intros x Hx. apply existsb_exists. exists x. split; [exact Hx|apply Z.eqb_refl].
  Qed.
  Lemma plain_para' : plain s e (para_rx n) (empty_lines n).
  Proof. exact (plain_rep s e He n _ _ plain_line' line_full). Qed.
  Lemma sep_brk i : 0 <= i <= e -> sep_at n s e i <-> nways (para_rx n) s e i <> [].
  Proof. intros Hi. rewrite <- hits_some. rewrite (plain_some s e _ _ i plain_para' Hi). reflexivity. Qed.
  Lemma line_goes' i w : 0 <= i <= e -> In w (nways (NSeq (NStar (NCls (among ws_chars))) (NChars eol_chars)) s e i) -> i < fst w.
  Proof.
    intros Hi H. destruct w as [j c]. destruct (proj1 (plain_line' i j Hi)) as (u & L & _ & ->); [exists c; exact H|]. apply line_full in L. cbn [fst]. pose proof (nonempty_len u L). lia.
  Qed.
  Lemma lines_full u : (1 <= n)%nat -> empty_lines n u -> 0 < zlen u.
  Proof.
    intros Hn (ls & L & -> & F). destruct F as [|l ls Hl F]; [cbn in L; lia|]. cbn [concat]. rewrite zlen_app. pose proof (nonempty_len l (line_full l Hl)). pose proof (zlen_nonneg (concat ls)). lia.
  Qed.
  Lemma sep_skip i w ws : (1 <= n)%nat -> 0 <= i <= e -> nways (para_rx n) s e i = w :: ws -> sep_over n s e i (fst w) /\ (i < fst w \/ i = e /\ fst w = e) /\ (i < fst w -> ~ sep_at n s e (fst w)).
  Proof.
    intros Hn Hi E. destruct (proj1 (plain_para' i (fst w) Hi)) as (u & L & W & Ej). { exists (snd w). rewrite E. left. destruct w; reflexivity. }
    pose proof (lines_full u Hn L) as Lu. pose proof (written_end s e i u W) as We. rewrite Ej in *.
    assert (N : ~ exists v, empty_line v /\ written s e (i + zlen u) v).
    { pose proof (rep_head_least s e _ line_goes' (S (Z.to_nat (e - i))) n i w ws Hi ltac:(lia) E) as Q. rewrite Ej in Q. intros V. apply (plain_some s e _ _ (i + zlen u) plain_line' ltac:(lia)) in V. apply hits_some in V. contradiction. }
    split; [exists u; auto|]. split; [left; lia|]. intros _ (v & (ls & Lv & -> & F) & Wv). apply N. destruct F as [|l ls Hl F]; [cbn in Lv; lia|]. exists l. split; [exact Hl|]. cbn [concat] in Wv. apply (written_app s e He) in Wv; [apply Wv|lia].
  Qed.
  Theorem parts_found a ss : (1 <= n)%nat -> 0 <= a < e -> Forall2 (fun x t => t_start t = fst x /\ t_stop t = snd x) (leftover a e (found_spans (para_rx n) s a e)) ss -> parts_of n s a e ss.
  Proof.
    intros Hn Ha F. rewrite leftover_wide in F by lia. unfold found_spans in F. pose proof (found_finds (para_rx n) s e a) as Fd. revert Fd F. generalize (found (para_rx n) s a e) as ms. intros ms Fd F.
    destruct (nways (para_rx n) s e a) as [|w ws] eqn:E.
    - exists a. assert (Nb : ~ sep_at n s e a) by (rewrite sep_brk by lia; rewrite E; congruence). split; [left; auto|]. apply (laid_finds _ s e _ _ (sep_brk) (fun i w ws => sep_skip i w ws Hn) a ms Fd); [lia|lia|intros k Hk; lia|left; exact Nb|exact F].
    - destruct (sep_skip a w ws Hn ltac:(lia) E) as (Sk & Pr & Nn). exists (fst w). split; [right; auto|].
      pose proof (nways_bound s e _ a w ltac:(lia) ltac:(rewrite E; left; reflexivity)) as B. destruct Pr as [Pr|[P1 _]]; [|lia].
      inversion Fd as [i L|i ms' L E' Fd'|i w' ws' ms' L E' Fd']; subst; [lia|congruence|]. rewrite E in E'. injection E' as <- <-. replace (a <? fst w) with true in Fd' by lia.
      cbn [map gaps filter fst snd] in F. assert (Wd : wide (a, a) = false) by (unfold wide; cbn; lia). rewrite Wd in F. apply (laid_finds _ s e _ _ sep_brk (fun i w ws => sep_skip i w ws Hn) (fst w) ms' Fd'); [lia|lia|intros k Hk; lia|left; auto|exact F].
  Qed.
  Lemma found_empty : (1 <= n)%nat -> 0 <= e -> found_spans (para_rx n) s e e = [].
  Proof.
    intros Hn H0. unfold found_spans. pose proof (found_way (para_rx n) s e e) as Fw. destruct (found (para_rx n) s e e) as [|m ms]; [reflexivity|]. exfalso. destruct (Fw m (or_introl eq_refl)) as (B1 & B2 & W).
    destruct (proj1 (plain_para' (fst (fst m)) (snd (fst m)) ltac:(lia))) as (u & L & _ & Q); [exists (snd m); exact W|]. pose proof (lines_full u Hn L). lia.
  Qed.
  Lemma sep_blank i j : 0 <= i <= e -> hits s e (para_rx n) i j -> Forall (fun x => In x blanks) (zsub s i j).
  Proof.
    intros Hi H. apply (plain_para' i j Hi) in H. destruct H as (u & (ls & _ & -> & F) & (_ & _ & W) & ->). rewrite W. apply concat_blank. eapply Forall_impl; [|exact F]. exact line_blank.
  Qed.
  (** a character that is no separator is in a part *)
  Lemma sep_cover a k c : 0 <= a <= k -> k < e -> zget s k = Some c -> ~ In c blanks -> exists x, In x (leftover a e (found_spans (para_rx n) s a e)) /\ fst x <= k < snd x.
  Proof.
    intros Ha Hk Hc Nb. destruct (leftover_cover (found_spans (para_rx n) s a e) a e k ltac:(lia)) as [Q|Q]; [|exact Q]. exfalso. apply Nb.
    exact (match_blank s (para_rx n) a e k c He ltac:(lia) sep_blank Q Hc).
  Qed.
End Win.

(** ** the pipeline *)
Section Run.
  Variables (s : pystr) (n : nat) (trim : bool).
  Definition parts (a b : Z) : list tree := map (fun x => at_ s (fst x) (snd x) n_paragraph []) (leftover a b (found_spans (para_rx n) s a b)).
  Lemma split_stage t k d a b : para_prog n trim t = Itor (TSplit 2 None RNone true (Some n_paragraph)) [] PostNone -> 0 <= a <= b -> b <= zlen s ->
    produces (fun x => drain (traverse (S (S k)) (para_prog n trim) t x)) (lf s d a b) (parts a b).
  Proof.
    intros E Ha Hb. pose proof (found_ordered (para_rx n) s a b ltac:(lia)) as O. fold (found_spans (para_rx n) s a b) in O.
    replace (parts a b) with (concat (map (fun x => [lf s (Some n_paragraph) (fst x) (snd x)]) (leftover a b (found_spans (para_rx n) s a b)))).
    2: { unfold parts. induction (leftover a b (found_spans (para_rx n) s a b)) as [|x l IH]; [reflexivity|]. cbn [map concat app]. f_equal. exact IH. }
    refine (split_produces (para_prog n trim) t 2 RNone (Some n_paragraph) [] re_para (nfinditer re_para (para_rx n)) (fun _ _ => None) whole_only k s a b (FI s a b d None) (map (fun x => lf s None (fst x) (snd x)) (found_spans (para_rx n) s a b)) _ E (or_introl eq_refl) eq_refl Logic.I eq_refl eq_refl eq_refl eq_refl (whole_all C0 [] [] true s false (or_introl eq_refl) re_para (para_rx n) a b ok_para ltac:(lia) Hb) (wholes_fit s _ _ _ O) ltac:(lia) _).
    rewrite split_cut. induction (leftover a b (found_spans (para_rx n) s a b)) as [|x l IH]; [constructor|]. cbn [map]. constructor; [|exact IH].
    intros h y Hf Oy. exists h, [y]. cbv beta. rewrite flow_nil. split; [reflexivity|]. split; [exact Hf|]. split; [lia|]. split; [constructor; [exact Oy|constructor]|]. split; [constructor; [intros []|constructor]|]. split; [constructor; [auto|constructor]|auto].
  Qed.
  (** a call: the argument is cloned first *)
  Lemma run_gives_parts a b ts : (forall d, produces (fun x => drain (traverse 4 (para_prog n trim) 0 x)) (lf s d a b) ts) -> para_gives n trim s a b ts.
  Proof.
    intros Pr h x d W A Lx R. unfold para_run, call. destruct (clone_plain h x W A Lx) as (t & h1 & Ec & R1 & R2 & Ep & _ & _ & W1 & A1). destruct (clone_same h x W A Lx) as (h1' & Ec' & X1 & L1 & _). unfold clone_of in Ec'. rewrite Ec in Ec'. injection Ec' as <-.
    assert (Et : t = lf s d a b) by exact (rep_fun _ _ _ _ R1 R). subst t. destruct (Pr d h1 (length h) (conj W1 A1) (conj R2 (conj Ep L1))) as (h2 & l & E2 & [W2 A2] & X2 & O2 & N2 & L2).
    exists h2, l. split; [rewrite drain_act; unfold clone_of; rewrite Ec; exact E2|]. split; [exact (extends_trans _ _ _ X1 X2)|]. split; [exact W2|]. split; [exact A2|].
    split; [clear - O2; induction O2 as [|t y ts l O F IH]; constructor; [apply O|exact IH]|]. split; [exact N2|]. apply Forall_forall. intros c Hc. rewrite Forall_forall in L2. specialize (L2 c Hc). split; [lia|]. destruct (Forall2_in_r _ _ _ c O2 Hc) as (u & _ & (_ & Q & _)). exact Q.
  Qed.
End Run.
Lemma para_plain n s a b : 0 <= a <= b -> b <= zlen s -> para_gives n false s a b (parts s n a b).
Proof. intros Ha Hb. apply run_gives_parts. intros d. exact (split_stage s n false 0 2 d a b eq_refl Ha Hb). Qed.

(** ** trimming *)
Lemma strip_vf f i cs : f_vf (deref i (str_strip f i cs)) = f_vf i.
Proof.
  unfold str_strip. destruct (str_lstrip f i cs) as [|j] eqn:E; [unfold str_rstrip; destruct (_ =? _); reflexivity|]. cbn [deref].
  assert (Ej : f_vf j = f_vf i) by (unfold str_lstrip in E; destruct (_ =? _); [discriminate E|]; injection E as <-; reflexivity). rewrite <- Ej. unfold str_rstrip. destruct (_ =? _); reflexivity.
Qed.
Definition cut_ws (s : pystr) (a b a' b' : Z) : Prop := a <= a' <= b' /\ b' <= b /\ zsub s a' b' = py_strip (fun _ => false) (zsub s a b) (Some trimmable_ws).
Lemma para_trimmed n s a b : 0 <= a <= b -> b <= zlen s -> exists a' b', cut_ws s a b a' b' /\ para_gives n true s a b (parts s n a' b').
Proof.
  intros Ha Hb.
  assert (St : forall d, fwf (FI s a b d None)) by (intros d; split; cbn; lia).
  assert (One : forall d, exists d' , deref (FI s a b d None) (str_strip (fun _ => false) (FI s a b d None) (Some trimmable_ws)) = FI s (f_start (deref (FI s a b d None) (str_strip (fun _ => false) (FI s a b d None) (Some trimmable_ws)))) (f_stop (deref (FI s a b d None) (str_strip (fun _ => false) (FI s a b d None) (Some trimmable_ws)))) d' None).
  { intros d. destruct (strip_thm (fun _ => false) _ (Some trimmable_ws) (St d)) as ((Q & _) & _); [discriminate|]. pose proof (strip_vf (fun _ => false) (FI s a b d None) (Some trimmable_ws)) as V. destruct (deref _ _) as [x1 x2 x3 x4 x5]. cbn in *. subst. exists x4. reflexivity. }
  assert (Same : forall d, f_start (deref (FI s a b d None) (str_strip (fun _ => false) (FI s a b d None) (Some trimmable_ws))) = f_start (deref (FI s a b None None) (str_strip (fun _ => false) (FI s a b None None) (Some trimmable_ws))) /\ f_stop (deref (FI s a b d None) (str_strip (fun _ => false) (FI s a b d None) (Some trimmable_ws))) = f_stop (deref (FI s a b None None) (str_strip (fun _ => false) (FI s a b None None) (Some trimmable_ws)))).
  { intros d. unfold str_strip, str_lstrip, f_c_in. cbn [f_str f_start f_stop]. destruct (_ =? _); unfold str_rstrip, f_c_in; cbn [f_str f_start f_stop clone_f deref]; destruct (_ =? _); cbn; auto. }
  destruct (strip_thm (fun _ => false) _ (Some trimmable_ws) (St None)) as ((Q1 & Q2 & Q3) & T & _); [discriminate|].
  set (a' := f_start (deref (FI s a b None None) (str_strip (fun _ => false) (FI s a b None None) (Some trimmable_ws)))) in *. set (b' := f_stop (deref (FI s a b None None) (str_strip (fun _ => false) (FI s a b None None) (Some trimmable_ws)))) in *.
  cbn [f_start f_stop f_str] in Q1, Q2, Q3. exists a', b'. split; [split; [lia|split; [lia|]]|].
  { unfold ito_str in T. rewrite Q1 in T. cbn [f_start f_stop f_str] in T. fold a' b' in T. rewrite !py_slice_in in T by lia. exact T. }
  apply run_gives_parts. intros d h x Hf Ow. destruct (One d) as (d' & Ed). destruct (Same d) as [S1 S2]. rewrite S1, S2 in Ed. fold a' b' in Ed.
  assert (Ef : n_f (nd h x) = FI s a b d None) by (destruct Ow as (R & _ & _); rewrite (rep_f _ _ _ R); reflexivity).
  assert (Step : exists h1 j, (match str_strip (fun _ => false) (n_f (nd h x)) (Some trimmable_ws) with RSelf => (h, Ok x) | RNew f => new_node h f end) = (h1, Ok j) /\ fine h1 /\ extends h h1 /\ own h1 (lf s d' a' b') j).
  { rewrite Ef. destruct (str_strip (fun _ => false) (FI s a b d None) (Some trimmable_ws)) as [|f]; cbn [deref] in Ed.
    - exists h, x. split; [reflexivity|]. split; [exact Hf|]. split; [apply extends_refl|]. unfold lf. rewrite <- Ed. exact Ow.
    - subst f. destruct (own_new h (FI s a' b' d' None) Hf) as (Hf' & X & O); [split; cbn; lia|]. unfold new_node. eexists _, (length h). split; [reflexivity|]. split; [exact Hf'|]. split; [exact X|exact O]. }
  destruct Step as (h1 & j & E1 & Hf1 & X1 & O1). destruct (split_stage s n true 1 1 d' a' b' eq_refl ltac:(lia) ltac:(lia) h1 j Hf1 O1) as (h2 & l & E2 & Hf2 & X2 & O2 & N2 & L2).
  exists h2, l. split; [|split; [exact Hf2|]; split; [exact (extends_trans _ _ _ X1 X2)|]; split; [exact O2|]; split; [exact N2|]; destruct X1; eapply Forall_impl; [|exact L2]; cbn beta; intros c Q; lia].
  rewrite traverse_plain by reflexivity. cbn [para_prog it_cons it_tr transform_of]. unfold strip_wrap.
  rewrite (reach_for _ _ _ _ _ (reach_act _ (fun j => Yield j Stop) h h1 j E1)). cbn [for_each]. rewrite flow_recurse by reflexivity. cbn [c_itor].
  assert (G : forall g t0 st, for_each (fun y => drain (flow t0 [] y)) st g = drain st g) by (intros g t0 st; rewrite <- drain_sfor; apply drain_plain).
  rewrite G. cbv beta in E2. rewrite E2. rewrite app_nil_r. reflexivity.
Qed.

(** ** the ends of a stripped text *)
Lemma mem_in c cs : mem_char c cs = true <-> In c cs.
Proof. unfold mem_char. rewrite existsb_exists. split; [intros (x & H & E); apply Z.eqb_eq in E; subst; exact H|intros H; exists c; split; [exact H|apply Z.eqb_refl]]. Qed.
Lemma drop_hd (p : Z -> bool) : forall l x r, drop_while p l = x :: r -> p x = false.
Proof. induction l as [|y l IH]; intros x r E; cbn in E; [discriminate E|]. destruct (p y) eqn:Ey; [exact (IH _ _ E)|]. injection E as <- _. exact Ey. Qed.
Lemma drop_suffix (p : Z -> bool) : forall l, exists m, l = m ++ drop_while p l.
Proof. induction l as [|y l [m IH]]; [exists []; reflexivity|]. cbn. destruct (p y); [exists (y :: m); cbn; f_equal; exact IH|exists []; reflexivity]. Qed.
Lemma strip_first cs u x r : py_strip (fun _ => false) u (Some cs) = x :: r -> ~ In x cs.
Proof.
  intros E H. unfold py_strip, py_rstrip, py_lstrip in E. cbn [strip_set] in E. destruct (drop_suffix (fun c => mem_char c cs) (rev (drop_while (fun c => mem_char c cs) u))) as [m Hm].
  apply (f_equal (@rev Z)) in Hm. rewrite rev_involutive, rev_app_distr, E in Hm. cbn [app] in Hm. apply drop_hd in Hm. cbv beta in Hm. apply mem_in in H. congruence.
Qed.
Lemma strip_last cs u r x : py_strip (fun _ => false) u (Some cs) = r ++ [x] -> ~ In x cs.
Proof.
  intros E H. unfold py_strip, py_rstrip, py_lstrip in E. cbn [strip_set] in E. apply (f_equal (@rev Z)) in E. rewrite rev_involutive, rev_app_distr in E. cbn [rev app] in E. apply drop_hd in E. cbv beta in E. apply mem_in in H. congruence.
Qed.
Lemma blanks_trimmable c : In c blanks -> In c trimmable_ws.
Proof. unfold blanks, trimmable_ws. intros H. apply in_or_app. right. apply in_or_app. apply in_app_or in H. tauto. Qed.
Lemma cut_first s a b a' b' : 0 <= a -> b <= zlen s -> cut_ws s a b a' b' -> a' < b' -> forall c, zget s a' = Some c -> ~ In c trimmable_ws.
Proof. intros H0 H1 (H2 & H3 & E) L c Hc. rewrite (zsub_step s a' b' c) in E by (try lia; exact Hc). symmetry in E. exact (strip_first _ _ _ _ E). Qed.
Lemma cut_last s a b a' b' : 0 <= a -> b <= zlen s -> cut_ws s a b a' b' -> a' < b' -> forall c, zget s (b' - 1) = Some c -> ~ In c trimmable_ws.
Proof.
  intros H0 H1 (H2 & H3 & E) L c Hc. rewrite <- (zsub_app_split s a' (b' - 1) b') in E by lia. replace b' with (b' - 1 + 1) in E at 3 by lia. rewrite (zsub_single s (b' - 1) c Hc) in E. symmetry in E. exact (strip_last _ _ _ _ E).
Qed.
