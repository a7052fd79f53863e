(** Facts for Table.v: the pipeline. *)
From Verif Require Import SpecTable SpecXml PyFacts HeapFacts HeapFacts2 HeapFacts3 HeapFacts4 CombinFacts CombinFacts2 CombinFacts3 CombinFacts4 ArborFacts ArborFacts2 ArborFacts3 ArborFacts4 XmlFacts5 XmlFacts6
  NlpFacts NlpFacts2 NlpFacts3 NlpFacts4 NlpFacts5 NlpFacts7 NlpFacts9 TableFacts TableFacts2 TableFacts3 TableFacts4 TableFacts5 TableFacts6.
From Coq Require Import Sorted.

(** the match m of a style gives the tree t *)
Definition stands (st : style) (s : pystr) (e : Z) (m : span * list (pystr * span)) (t : tree) : Prop :=
  exists ind l, reads st s e (fst (fst m)) ind l /\ snd (fst m) = fst (fst m) + zlen ind + zlen (text_of (chips ind l)) /\
    t = at_ s (fst (fst m) + zlen ind) (snd (fst m)) t_table (itos_at s (fst (fst m) + zlen ind) (chips ind l)).
Section Found.
  Variables (st : style) (s : pystr) (a b : Z).
  Hypothesis Hab : 0 <= a <= b.
  Hypothesis Hb : b <= zlen s.
  Hypothesis Ok_ : style_ok st.
  Lemma style_fwd i w : 0 <= i <= b -> In w (zways (build_rx st) s b (i, [])) -> i < fst w.
  Proof.
    intros Hi Hw. destruct (ways_read st s b Hb Ok_ i w Hi Hw) as (ind & l & (Lo & _) & ->). cbn [fst]. pose proof (layout_len st ind l Lo). pose proof (zlen_nonneg ind). lia.
  Qed.
  Lemma one_found m : In m (zfound (build_rx st) s a b) -> exists t, gives default_desc (re_keys (style_re st) table_keys) (to_match (style_re st) s m) t /\ stands st s b m t.
  Proof.
    intros Hm. destruct (zfind_in _ s b style_fwd _ a m ltac:(lia) Hm) as (B & w & ws & E & E1 & E2). destruct (ways_read st s b Hb Ok_ (fst (fst m)) w ltac:(lia) ltac:(rewrite E; left; reflexivity)) as (ind & l & R & ->).
    pose proof (read_gives st s b (fst (fst m)) ind l (fst m) Hb R) as G. destruct m as [[i j] c]. cbn [fst snd] in *. subst c j.
    eexists. split; [exact G|]. exists ind, l. split; [exact R|]. split; reflexivity.
  Qed.
  Lemma found_trees : exists ts, Forall2 (gives default_desc (re_keys (style_re st) table_keys)) (zfinditer (style_re st) (build_rx st) s a b) ts /\ Forall2 (stands st s b) (zfound (build_rx st) s a b) ts.
  Proof.
    pose proof one_found as H. unfold zfinditer. revert H. induction (zfound (build_rx st) s a b) as [|m l IH]; intros H; [exists []; split; constructor|]. destruct (H m (or_introl eq_refl)) as (t & G & S). destruct (IH (fun m Hm => H m (or_intror Hm))) as (ts & G' & S'). exists (t :: ts). split; constructor; assumption.
  Qed.
End Found.
Lemma stands_table st s e m t : 0 <= fst (fst m) -> stands st s e m t -> exists ind, is_table st s e ind t /\ fst (fst m) = t_start t - zlen ind /\ snd (fst m) = t_stop t /\ t_string t = s /\ (st_equi st = false -> ind = [] /\ line_begins s (t_start t)).
Proof.
  destruct m as [[i j] c]. unfold stands. cbn [fst snd]. intros H0 (ind & l & (Lo & Fi & Hb & Wi & W & LE) & -> & ->). exists ind. unfold is_table, at_, t_start, t_stop, t_string. cbn [t_f f_start f_stop f_str]. pose proof (zlen_nonneg ind) as Li. pose proof (zlen_nonneg (text_of (chips ind l))) as Lt. destruct W as (W1 & W2 & W3).
  split; [|split; [lia|]; split; [reflexivity|]; split; [reflexivity|]].
  - exists l. split; [exact Lo|]. split; [exact W3|]. split; [reflexivity|]. split; [lia|]. split; [exact W2|]. split; [exact LE|]. split; [|split; [exact Fi|]].
    + unfold ends_in, written. rewrite Z.add_simpl_r. destruct Wi as (_ & _ & Wi). split; [exact H0|]. split; [lia|exact Wi].
    + intros Q. rewrite Q in Hb. tauto.
  - intros Q. rewrite Q in Hb. destruct Hb as [-> Hb]. change (zlen (@nil Z)) with 0. rewrite Z.add_0_r. auto.
Qed.
Lemma stands_before st s e : forall ms ts, Forall2 (stands st s e) ms ts -> Forall (fun m : span * list (pystr * span) => 0 <= fst (fst m)) ms -> StronglySorted (fun x y : span * list (pystr * span) => snd (fst x) <= fst (fst y)) ms -> StronglySorted t_before ts.
Proof.
  intros ms ts F. induction F as [|m t ms ts S F IH]; intros P Q; [constructor|]. inversion P as [|? ? P1 P2]; subst. inversion Q as [|? ? Q1 Q2]; subst. constructor; [exact (IH P2 Q1)|]. apply Forall_forall. intros u Hu.
  destruct (Forall2_in_r _ _ _ _ F Hu) as (m' & Hm' & S'). rewrite Forall_forall in P2, Q2. specialize (P2 _ Hm'). specialize (Q2 _ Hm').
  destruct S as (ind & l & (Lo & _) & E & ->). destruct S' as (ind' & l' & (Lo' & _) & E' & ->). unfold t_before, at_, t_start, t_stop. cbn [t_f f_start f_stop]. pose proof (zlen_nonneg ind'). pose proof (zlen_nonneg ind). pose proof (layout_len st ind l Lo). pose proof (layout_len st ind' l' Lo'). lia.
Qed.
