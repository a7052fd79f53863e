(** Facts for Table.v: the tables found in chunks; every table is met. *)
From Verif Require Import SpecTable SpecXml PyFacts HeapFacts4 CombinFacts CombinFacts2 XmlFacts5 NlpFacts NlpFacts2 NlpFacts7 NlpFacts9 TableFacts TableFacts2 TableFacts4 TableFacts5 TableFacts6 TableFacts7 TableFacts8 TableFacts9 TableFacts10.
From Coq Require Import Sorted.

Definition line_edge (s : pystr) (e p : Z) : Prop := line_begins s p \/ line_ends s e p.
Lemma chain_edge s e i g c : e <= zlen s -> written s e i g -> KI i g c -> forall x w, chain (zways line_body s e) x w -> snd x = c -> 0 <= fst x <= e -> line_edge s e (fst x) -> line_edge s e (fst w).
Proof.
  intros He W K x w C. induction C as [x St|x y w Hy Ly C IH]; intros Ex Hx Hl; [exact Hl|]. destruct x as [p c']. cbn [fst snd] in *. subst c'. destruct (body_sound s e He i g c W K p y Hx Hy) as (k & _ & (_ & Bk & _) & Ey & D). apply IH; [exact Ey| |].
  - pose proof (zlen_nonneg g). destruct D as [(-> & _ & D)|(-> & _)]; lia.
  - destruct D as [(-> & D & _)|(-> & [D|[_ D]])]; [left; right; rewrite Z.add_simpl_r; exact D|right; left; exact D|right; right; exact D].
Qed.
Lemma chunk_edge s e a m : e <= zlen s -> 0 <= a -> In m (zfound chunk_rx s a e) -> line_edge s e (snd (fst m)).
Proof.
  intros He Ha Hm. destruct (zfind_in _ s e (chunk_fwd s e He) _ a m Ha Hm) as (B & w & ws & E & E1 & E2). destruct (chunk_head s e He (fst (fst m)) w ws ltac:(lia) E) as (g & k & w' & _ & Wg & (_ & Bk & _) & Gk & Lk & C & Ew & _). rewrite <- E1, <- Ew. pose proof (zlen_nonneg g).
  refine (chain_edge s e (fst (fst m)) g _ He Wg (last_snoc t_indent [] _ _) _ _ C eq_refl _ _); cbn [fst]; [lia|]. left. right. rewrite Z.add_simpl_r. exact Gk.
Qed.
Section Equi.
  Variables (st : style) (s : pystr) (a b : Z).
  Hypothesis Hab : 0 <= a <= b.
  Hypothesis Hb : b <= zlen s.
  Hypothesis Ok_ : style_ok st.
  Lemma equi_trees : exists tss, Forall2 (fun m ts => Forall2 (gives default_desc (re_keys (style_re st) table_keys)) (zfinditer (style_re st) (build_rx st) s (fst (fst m)) (snd (fst m))) ts) (zfound chunk_rx s a b) tss /\
    Forall2 (fun m ts => Forall2 (stands st s (snd (fst m))) (zfound (build_rx st) s (fst (fst m)) (snd (fst m))) ts) (zfound chunk_rx s a b) tss.
  Proof.
    assert (H : forall m, In m (zfound chunk_rx s a b) -> 0 <= fst (fst m) <= snd (fst m) /\ snd (fst m) <= zlen s) by (intros m Hm; destruct (chunk_gives s b Hb a m (proj1 Hab) Hm) as (B & B' & _); lia).
    revert H. induction (zfound chunk_rx s a b) as [|m l IH]; intros H; [exists []; split; constructor|]. destruct (IH (fun m Hm => H m (or_intror Hm))) as (tss & G & S). destruct (H m (or_introl eq_refl)) as [B B']. destruct (found_trees st s (fst (fst m)) (snd (fst m)) B B' Ok_) as (ts & G1 & S1). exists (ts :: tss). split; constructor; assumption.
  Qed.
  (** one chunk's tables *)
  Lemma chunk_tables m ts : In m (zfound chunk_rx s a b) -> Forall2 (stands st s (snd (fst m))) (zfound (build_rx st) s (fst (fst m)) (snd (fst m))) ts ->
    Forall (fun t => exists ind, is_table st s (snd (fst m)) ind t /\ fst (fst m) + zlen ind <= t_start t) ts /\ StronglySorted t_before ts.
  Proof.
    intros Hm F. destruct (chunk_gives s b Hb a m (proj1 Hab) Hm) as (B & B' & _). destruct m as [[c d] cs]. cbn [fst snd] in *. pose proof (style_fwd st s d ltac:(lia) Ok_) as Fw. split.
    - apply Forall_forall. intros t Ht. destruct (Forall2_in_r _ _ _ _ F Ht) as (m' & Hm' & S). destruct (zfind_in _ s d Fw _ c m' ltac:(lia) Hm') as (Bm & _). destruct m' as [[p q] cs']. cbn [fst snd] in *. destruct (stands_table st s d ((p, q), cs') t ltac:(cbn [fst]; lia) S) as (ind & T & E & _). cbn [fst snd] in *. exists ind. split; [exact T|]. lia.
    - apply (stands_before st s d _ _ F); [|apply (zfind_sorted _ s d Fw); lia]. apply Forall_forall. intros m' Hm'. destruct (zfind_in _ s d Fw _ c m' ltac:(lia) Hm') as (Bm & _). destruct m' as [[p q] cs']. cbn [fst snd] in *. lia.
  Qed.
  Lemma table_span e ind t : is_table st s e ind t -> t_start t < t_stop t <= e.
  Proof.
    intros (l & Lo & E & _ & B0 & B1 & _). split; [|exact B1]. pose proof (layout_len st ind l Lo) as L. rewrite <- E in L. destruct (Z.lt_ge_cases (t_start t) (t_stop t)) as [Q|Q]; [exact Q|]. rewrite zsub_nil in L by lia. change (zlen (@nil Z)) with 0 in L. lia.
  Qed.
  Lemma all_sorted : forall ms tss, StronglySorted (fun x y : span * list (pystr * span) => snd (fst x) <= fst (fst y)) ms -> (forall m, In m ms -> fst (fst m) <= snd (fst m)) ->
    Forall2 (fun m ts => Forall (fun t => exists ind, is_table st s (snd (fst m)) ind t /\ fst (fst m) + zlen ind <= t_start t) ts /\ StronglySorted t_before ts) ms tss -> StronglySorted t_before (concat tss).
  Proof.
    intros ms tss S Le F. induction F as [|m ts ms tss [Fm Sm] F IH]; [constructor|]. inversion S as [|? ? S1 S2]; subst. specialize (IH S1 (fun x Hx => Le x (or_intror Hx))). cbn [concat].
    assert (Q : forall t u, In t ts -> In u (concat tss) -> t_before t u).
    { intros t u Ht Hu. rewrite Forall_forall in Fm. destruct (Fm t Ht) as (ind & T & _). apply in_concat in Hu. destruct Hu as (us & Hus & Hu). destruct (Forall2_in_r _ _ _ _ F Hus) as (m' & Hm' & Fm' & _). rewrite Forall_forall in Fm'. destruct (Fm' u Hu) as (ind' & T' & B'). rewrite Forall_forall in S2. specialize (S2 _ Hm').
      pose proof (table_span _ _ _ T) as X. pose proof (table_span _ _ _ T') as X'. pose proof (zlen_nonneg ind') as Y. destruct m as [[c d] cs], m' as [[c' d'] cs']. cbn [fst snd] in *. unfold t_before. lia. }
    clear Fm. induction Sm as [|t ts Sm IHm Ft]; [exact IH|]. cbn [app]. constructor; [apply IHm; intros t' u Ht'; apply Q; right; exact Ht'|]. apply Forall_app. split; [exact Ft|]. apply Forall_forall. intros u Hu. exact (Q t u (or_introl eq_refl) Hu).
  Qed.
  (** a table with even lines, below lines that are not blank, is met *)
  Lemma layout_nl ind l : layout_ok st l -> In 10 (text_of (chips ind l)).
  Proof.
    intros (_ & _ & _ & _ & L & _). unfold chips. rewrite !text_app.
    assert (P : forall p ps, In 10 (text_of (lines_of ind t_row p ++ ps))) by (intros p ps; left; reflexivity).
    destruct (st_end st).
    - destruct L as (u & x & E & _). rewrite E. cbn [opt_list]. pose proof (P (u, x) []) as Q. rewrite app_nil_r in Q. do 4 (apply in_or_app; right). apply in_or_app. left. exact Q.
    - destruct L as [N _]. destruct (ly_rows l) as [|p ps]; [congruence|]. do 3 (apply in_or_app; right). apply in_or_app. left. exact (P p _).
  Qed.
  Lemma equi_covers tss ind l i : st_equi st = true -> Forall2 (fun m ts => Forall2 (stands st s (snd (fst m))) (zfound (build_rx st) s (fst (fst m)) (snd (fst m))) ts) (zfound chunk_rx s a b) tss ->
    a <= i -> line_begins s i -> Forall (fun c => c = 32 \/ c = 9) ind -> layout_ok st l -> written s b i (ind ++ text_of (chips ind l)) -> line_ends s b (i + zlen ind + zlen (text_of (chips ind l))) -> even_lines ind (text_of (chips ind l)) ->
    (forall p, a <= p < i -> line_begins s p -> inked s p) -> exists t d ind', In t (concat tss) /\ d <= b /\ is_table st s d ind' t /\ t_start t - zlen ind' <= i < t_stop t.
  Proof.
    intros Eq F Hi Lb Bi Lo W LE (us & Eu & Gu) Nk. set (tx := text_of (chips ind l)) in *. pose proof (zlen_nonneg ind) as Li. pose proof (layout_len st ind l Lo) as Lt. fold tx in Lt.
    assert (Gu' : Forall good_line us) by exact Gu. pose proof (written_end _ _ _ _ W) as Be. rewrite zlen_app in Be.
    assert (Us : exists u u' us', us = u :: u' :: us').
    { destruct us as [|u [|u' us']]; [cbn in Eu; apply (f_equal (@length Z)) in Eu; rewrite !app_length in Eu; cbn in Eu; lia| |eauto]. exfalso. cbn [map concat] in Eu. rewrite app_nil_r in Eu. apply app_inv_head, app_inj_tail in Eu. destruct Eu as [Et _]. destruct (Forall_inv Gu) as (x & v & Ex & N1 & _ & N2). rewrite Ex in Et. pose proof (layout_nl ind l Lo) as Q. fold tx in Q. rewrite Et in Q. destruct Q as [Q|Q]; [apply N1; subst x; cbn; auto|exact (N2 Q)]. }
    destruct Us as (u & u' & us' & Eus). rewrite app_assoc in Eu. rewrite <- (Z.add_assoc i), <- zlen_app in LE.
    destruct (even_lines_at s b ind Hb us i (ind ++ tx) ltac:(rewrite Eus; discriminate) Eu ltac:(lia) W LE) as [La Le].
    pose proof (chunk_exists s b Hb ind i u u' us' Bi ltac:(lia) Lb ltac:(rewrite <- Eus; exact La) ltac:(rewrite <- Eus; exact Gu')) as Ne.
    destruct (zfind_all chunk_rx s b (chunk_fwd s b Hb) (S (S (Z.to_nat (b - a)))) a i ltac:(lia) ltac:(lia) Ne ltac:(lia)) as (m & Hm & Bm). fold (zfound chunk_rx s a b) in Hm.
    destruct (chunk_gives s b Hb a m (proj1 Hab) Hm) as (B1 & B2 & Lm & _). destruct (zfind_in _ s b (chunk_fwd s b Hb) _ a m (proj1 Hab) Hm) as (_ & w & ws & Ew & E1 & _).
    pose proof (chunk_holds s b Hb ind i us (fst (fst m)) w ws Bi ltac:(lia) ltac:(lia) Lm Lb ltac:(rewrite Eus; discriminate) La Gu' ltac:(intros q Hq; apply Nk; lia) Ew ltac:(lia)) as Hd. rewrite E1, Le, zlen_app in Hd.
    clear Ew. destruct m as [[c d] cs]. cbn [fst snd] in *.
    assert (R : reads st s d i ind l).
    { apply (written_app s b Hb) in W; [|lia]. destruct W as [(W1 & W2 & W3) (W4 & W5 & W6)]. split; [exact Lo|]. split; [exact Bi|]. rewrite Eq. split; [exact Logic.I|]. fold tx. split; [split; [lia|]; split; [lia|exact W3]|]. split; [split; [lia|]; split; [lia|exact W6]|].
      rewrite zlen_app, Z.add_assoc in LE. destruct LE as [LE|LE]; [left; lia|right; exact LE]. }
    pose proof (read_ways st s d ltac:(lia) Ok_ i ind l ltac:(lia) R) as Hw.
    destruct (Forall2_in_l _ _ _ _ F Hm) as (ts & Hts & Fts).
    destruct (zfind_all (build_rx st) s d (style_fwd st s d ltac:(lia) Ok_) (S (S (Z.to_nat (d - c)))) c i ltac:(lia) ltac:(lia) ltac:(intros Q; rewrite Q in Hw; destruct Hw) ltac:(lia)) as (m' & Hm' & Bm').
    destruct (Forall2_in_l _ _ _ _ Fts Hm') as (t & Ht & S). destruct (zfind_in _ s d (style_fwd st s d ltac:(lia) Ok_) _ c m' ltac:(lia) Hm') as (Bm1 & _). destruct m' as [[p q] cs']. cbn [fst snd] in *. destruct (stands_table st s d ((p, q), cs') t ltac:(cbn [fst]; lia) S) as (ind' & T & E2 & E3 & _). cbn [fst snd] in *. exists t, d, ind'. split; [apply in_concat; exists ts; auto|]. split; [lia|]. split; [exact T|]. lia.
  Qed.
End Equi.
