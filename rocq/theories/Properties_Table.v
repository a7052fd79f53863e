(** Properties of pawpaw/table: StyledTable, TableStyle, styles.py. *)
From Verif Require Import SpecTable SpecXml PyFacts HeapFacts HeapFacts2 HeapFacts4 CombinFacts CombinFacts2 XmlFacts5 NlpFacts NlpFacts2 NlpFacts7 NlpFacts9 TableFacts TableFacts2 TableFacts4 TableFacts5 TableFacts6 TableFacts7 TableFacts8 TableFacts9 TableFacts10 TableFacts11 TableFacts12 TableFacts13 Properties_Heap.
From Coq Require Import Sorted.

(** the trees found are determined *)
Theorem finds_once st s a b ts ts' : 0 <= a <= b -> b <= zlen s -> finds_tables st s a b ts -> finds_tables st s a b ts' -> ts = ts'.
Proof.
  intros Hab Hb F F'. set (h := [Nd (FI s a b None None) None []]).
  assert (Nk : forall i, n_kids (nd h i) = [] /\ n_par (nd h i) = None) by (intros [|[|i]]; split; reflexivity).
  assert (W : hwf h).
  { split.
    - intros [|[|i]]; [exact (conj Hab Hb)| |]; (vm_compute; repeat split; discriminate).
    - intros p c H. rewrite (proj1 (Nk p)) in H. destruct H.
    - intros p c H. rewrite (proj2 (Nk c)) in H. discriminate H.
    - intros p. rewrite (proj1 (Nk p)). constructor. }
  assert (A : acyclic h). { intros i Q. inversion Q as [? H|? ? H]; rewrite (proj2 (Nk _)) in H; discriminate H. }
  destruct (F h 0%nat W A ltac:(cbn; lia) eq_refl eq_refl eq_refl) as (h1 & l1 & E1 & _ & _ & _ & R1 & _). destruct (F' h 0%nat W A ltac:(cbn; lia) eq_refl eq_refl eq_refl) as (h2 & l2 & E2 & _ & _ & _ & R2 & _). rewrite E1 in E2. injection E2 as <- <-.
  clear - R1 R2. revert ts' R2. induction R1 as [|t i ts l R R1 IH]; intros ts' R2; inversion R2; subst; [reflexivity|]. f_equal; [exact (rep_fun _ _ _ _ R H2)|apply IH; assumption].
Qed.

(** C95: every Ito that a StyledTable yields spans a table of its style, its children are the captions, the
    header row and the rows as laid out, and the tables come in document order without overlap; for a style without
    equi_distant_indent, each also begins at the start of a line *)
Theorem C95_plain st s a b : style_ok st -> st_equi st = false -> 0 <= a <= b -> b <= zlen s ->
  exists ts, finds_tables st s a b ts /\ Forall (fun t => is_table st s b [] t /\ a <= t_start t /\ line_begins s (t_start t)) ts /\ StronglySorted t_before ts.
Proof.
  intros Ok_ Eq Hab Hb. destruct (found_trees st s a b Hab Hb Ok_) as (ts & G & Sd). exists ts. split; [exact (plain_finds st s a b ts Hab Hb Eq G)|]. pose proof (style_fwd st s b Hb Ok_) as Fw. split.
  - apply Forall_forall. intros t Ht. destruct (Forall2_in_r _ _ _ _ Sd Ht) as (m & Hm & Sm). destruct (zfind_in _ s b Fw _ a m ltac:(lia) Hm) as (Bm & _). destruct m as [[p q] cs]. cbn [fst snd] in *. destruct (stands_table st s b ((p, q), cs) t ltac:(cbn [fst]; lia) Sm) as (ind & T & E & _ & _ & Q). destruct (Q Eq) as [-> Lb]. change (zlen (@nil Z)) with 0 in E. cbn [fst] in E. split; [exact T|]. split; [lia|exact Lb].
  - apply (stands_before st s b _ _ Sd); [|apply (zfind_sorted _ s b Fw); lia]. apply Forall_forall. intros m Hm. destruct (zfind_in _ s b Fw _ a m ltac:(lia) Hm) as (Bm & _). destruct m as [[p q] cs]. cbn [fst snd] in *. lia.
Qed.
(** the same with equi_distant_indent, but that the table begins at the start of a line (up to its indentation):
    it lies within lines c to d *)
Theorem C95_indented_partial st s a b : style_ok st -> st_equi st = true -> 0 <= a <= b -> b <= zlen s ->
  exists ts, finds_tables st s a b ts /\ StronglySorted t_before ts /\
    Forall (fun t => exists c d ind, a <= c /\ line_begins s c /\ d <= b /\ (line_begins s d \/ line_ends s b d) /\ is_table st s d ind t /\ c + zlen ind <= t_start t) ts.
Proof.
  intros Ok_ Eq Hab Hb. destruct (equi_trees st s a b Hab Hb Ok_) as (tss & G & Sd). exists (concat tss). split; [exact (chunked_finds st s a b tss Hab Hb Eq G)|].
  pose proof (zfind_sorted _ s b (chunk_fwd s b Hb) (S (S (Z.to_nat (b - a)))) a (proj1 Hab)) as Sm. fold (zfound chunk_rx s a b) in Sm. split.
  - refine (all_sorted st s (zfound chunk_rx s a b) tss Sm _ _).
    + intros m Hm. destruct (chunk_gives s b Hb a m (proj1 Hab) Hm) as (B & _). lia.
    + pose proof (fun m ts => chunk_tables st s a b Hab Hb Ok_ m ts) as Q. clear - Sd Q. induction Sd as [|m ts ms tss Sm Sd IH]; [constructor|]. constructor; [apply Q; [left; reflexivity|exact Sm]|]. apply IH. intros m' ts' Hm'. apply Q. right. exact Hm'.
  - apply Forall_forall. intros t Ht. apply in_concat in Ht. destruct Ht as (ts & Hts & Ht). destruct (Forall2_in_r _ _ _ _ Sd Hts) as (m & Hm & Sts). destruct (chunk_tables st s a b Hab Hb Ok_ m ts Hm Sts) as [F _]. rewrite Forall_forall in F. destruct (F t Ht) as (ind & T & L). destruct (chunk_gives s b Hb a m (proj1 Hab) Hm) as (B1 & B2 & Lb & _).
    exists (fst (fst m)), (snd (fst m)), ind. split; [exact (proj1 B1)|]. split; [exact Lb|]. split; [exact B2|]. split; [exact (chunk_edge s b a m Hb (proj1 Hab) Hm)|]. split; [exact T|exact L].
Qed.
Definition sheet (l : list pystr) : pystr := flat_map (fun u => u ++ [10]) l.
Definition on (s : pystr) : heap := [Nd (FI s 0 (zlen s) None None) None []].
(** what is found in s: span, descriptor, spans of the children *)
Definition sees (st : style) (s : pystr) : list (span * option pystr * list span) * option exn :=
  let '(h, (l, e)) := find_tables st (on s) 0 in (map (fun i => (h_start h i, h_stop h i, f_desc (n_f (nd h i)), map (fun k => (h_start h k, h_stop h k)) (n_kids (nd h i)))) l, e).
(** a table in the middle of a line (table.py:40 drops the look-behind of table.py:37) *)
Definition midline := sheet [lit "x-----"; lit "| a |"; lit "-----"].
Theorem C95_begins_refuted : sees type_2 midline = ([((1, 18), Some table_desc, [(7, 12)])], None) /\ ~ line_begins midline 1.
Proof. split; [vm_compute; reflexivity|]. intros [H|H]; [discriminate H|vm_compute in H; discriminate H]. Qed.

(** a table of each style, with a header row and two lines per row *)
Definition inventory := sheet [lit "Stock"; lit "---------"; lit "| A | B |"; lit "|---|---|"; lit "| a | b |"; lit "| c | d |"; lit "|---|---|"; lit "| e | f |"; lit "---------"; lit "end"].
Example C95_case : style_ok type_2 /\ st_equi type_2 = true /\ st_equi type_1 = false /\ style_ok type_1 /\ sees type_2 inventory = ([((6, 85), Some table_desc, [(16, 25); (36, 55); (66, 75)])], None).
Proof. split; [repeat split|]. split; [reflexivity|]. split; [reflexivity|]. split; [repeat split|]. vm_compute. reflexivity. Qed.

(** C96: no table is missed: where a table of a style without equi_distant_indent begins a line, a table is found
    that begins there or spans that place *)
Theorem C96_plain st s a b : style_ok st -> st_equi st = false -> 0 <= a <= b -> b <= zlen s ->
  exists ts, finds_tables st s a b ts /\ forall i l, a <= i -> line_begins s i -> layout_ok st l -> written s b i (text_of (chips [] l)) -> line_ends s b (i + zlen (text_of (chips [] l))) -> exists t, In t ts /\ t_start t <= i < t_stop t.
Proof.
  intros Ok_ Eq Hab Hb. destruct (found_trees st s a b Hab Hb Ok_) as (ts & G & Sd). exists ts. split; [exact (plain_finds st s a b ts Hab Hb Eq G)|]. intros i l Hi Lb Lo W LE. pose proof (style_fwd st s b Hb Ok_) as Fw. pose proof (written_le _ _ _ _ W) as Bi.
  assert (R : reads st s b i [] l). { split; [exact Lo|]. split; [constructor|]. rewrite Eq. split; [auto|]. change (zlen (@nil Z)) with 0. rewrite Z.add_0_r. split; [apply written_nil; lia|auto]. }
  pose proof (read_ways st s b Hb Ok_ i [] l ltac:(lia) R) as Hw.
  destruct (zfind_all (build_rx st) s b Fw (S (S (Z.to_nat (b - a)))) a i ltac:(lia) ltac:(lia) ltac:(intros Q; rewrite Q in Hw; destruct Hw) ltac:(lia)) as (m & Hm & Bm).
  destruct (Forall2_in_l _ _ _ _ Sd Hm) as (t & Ht & St). destruct (zfind_in _ s b Fw _ a m ltac:(lia) Hm) as (Bm1 & _). destruct m as [[p q] cs]. cbn [fst snd] in *. destruct (stands_table st s b ((p, q), cs) t ltac:(cbn [fst]; lia) St) as (ind & T & E & E' & _ & Q). destruct (Q Eq) as [-> _]. change (zlen (@nil Z)) with 0 in E. cbn [fst snd] in *. exists t. split; [exact Ht|lia].
Qed.
(** with equi_distant_indent: a table whose lines all have its indentation and at least two characters more, when no line
    above it is blank *)
Theorem C96_indented_partial st s a b : style_ok st -> st_equi st = true -> 0 <= a <= b -> b <= zlen s ->
  exists ts, finds_tables st s a b ts /\ forall i ind l, a <= i -> line_begins s i -> Forall (fun c => c = 32 \/ c = 9) ind -> layout_ok st l -> written s b i (ind ++ text_of (chips ind l)) -> line_ends s b (i + zlen ind + zlen (text_of (chips ind l))) ->
    even_lines ind (text_of (chips ind l)) -> (forall p, a <= p < i -> line_begins s p -> inked s p) -> exists t d ind', In t ts /\ d <= b /\ is_table st s d ind' t /\ t_start t - zlen ind' <= i < t_stop t.
Proof.
  intros Ok_ Eq Hab Hb. destruct (equi_trees st s a b Hab Hb Ok_) as (tss & G & Sd). exists (concat tss). split; [exact (chunked_finds st s a b tss Hab Hb Eq G)|].
  intros i ind l Hi Lb Bi Lo W LE Ev Nk. exact (equi_covers st s a b Hab Hb Ok_ tss ind l i Eq Sd Hi Lb Bi Lo W LE Ev Nk).
Qed.
(** an empty line above an indented table hides it: in table.py:33 the character after the indentation may be a newline *)
Definition hidden := sheet [lit "Text:"; []; lit "  -----"; lit "  | a |"; lit "  -----"].
Definition small := Lay None (lit "-----") None [] (Some (lit "| a |", lit "-----")) None.
Lemma dashes n : (2 <= n)%nat -> lang edge_rx (repeat 45 n).
Proof. intros H. exists (repeat [45] n). split; [clear H; induction n as [|n IH]; [reflexivity|]; cbn; f_equal; exact IH|]. rewrite repeat_length. split; [|auto]. apply Forall_forall. intros v Hv. apply repeat_spec in Hv. subst v. split; [discriminate|reflexivity]. Qed.
Lemma small_ok : layout_ok type_2 small.
Proof. split; [exact Logic.I|]. split; [exact (dashes 5 ltac:(lia))|]. split; [exact Logic.I|]. split; [constructor|]. split; [|reflexivity]. exists (lit "| a |"), (lit "-----"). split; [reflexivity|]. split; [discriminate|exact (dashes 5 ltac:(lia))]. Qed.
Lemma type_2_ok : style_ok type_2. Proof. repeat split. Qed.
Lemma type_1_ok : style_ok type_1. Proof. repeat split. Qed.
Lemma small_even : even_lines [32; 32] (text_of (chips [32; 32] small)).
Proof.
  exists [lit "-----"; lit "| a |"; lit "-----"]. split; [reflexivity|].
  repeat (apply Forall_cons; [eexists; eexists; split; [reflexivity|]; split; [vm_compute; lia|split; [discriminate|vm_compute; lia]]|]). constructor.
Qed.
Theorem C96_blank_refuted : exists i ind l, line_begins hidden i /\ layout_ok type_2 l /\ written hidden (zlen hidden) i (ind ++ text_of (chips ind l)) /\ line_ends hidden (zlen hidden) (i + zlen ind + zlen (text_of (chips ind l))) /\ even_lines ind (text_of (chips ind l)) /\
  sees type_2 hidden = ([], None).
Proof.
  exists 7, [32; 32], small. split; [right; reflexivity|]. split; [exact small_ok|]. split; [split; [lia|]; split; [vm_compute; discriminate|reflexivity]|]. split; [right; reflexivity|]. split; [exact small_even|]. vm_compute. reflexivity.
Qed.
(** nor is one with a line of one character *)
Definition thin := Lay None (lit "--") None [] (Some (lit "x", lit "--")) None.
Theorem C96_short_refuted : exists i l, layout_ok type_2 l /\ sheet [lit "Text:"; lit "--"; lit "x"; lit "--"] = lit "Text:" ++ [10] ++ text_of (chips [] l) ++ [10] /\ line_begins (sheet [lit "Text:"; lit "--"; lit "x"; lit "--"]) i /\
  written (sheet [lit "Text:"; lit "--"; lit "x"; lit "--"]) (zlen (sheet [lit "Text:"; lit "--"; lit "x"; lit "--"])) i (text_of (chips [] l)) /\ sees type_2 (sheet [lit "Text:"; lit "--"; lit "x"; lit "--"]) = ([], None) /\
  sees type_2 (sheet [lit "Text:"; lit "--"; lit "xy"; lit "--"]) = ([((6, 14), Some table_desc, [(9, 11)])], None).
Proof.
  exists 6, thin. split; [|split; [vm_compute; reflexivity|]; split; [right; reflexivity|]; split; [split; [lia|]; split; [vm_compute; discriminate|reflexivity]|split; vm_compute; reflexivity]].
  split; [exact Logic.I|]. split; [exact (dashes 2 ltac:(lia))|]. split; [exact Logic.I|]. split; [constructor|]. split; [|reflexivity]. exists (lit "x"), (lit "--"). split; [reflexivity|]. split; [discriminate|exact (dashes 2 ltac:(lia))].
Qed.
(** without the empty line it is found, with its indentation *)
Definition shown := sheet [lit "Text:"; lit "  -----"; lit "  | a |"; lit "  -----"].
Example C96_case : style_ok type_2 /\ line_begins shown 6 /\ layout_ok type_2 small /\ written shown (zlen shown) 6 ([32; 32] ++ text_of (chips [32; 32] small)) /\ line_ends shown (zlen shown) 29 /\ even_lines [32; 32] (text_of (chips [32; 32] small)) /\
  (forall p, 0 <= p < 6 -> line_begins shown p -> inked shown p) /\ sees type_2 shown = ([((8, 29), Some table_desc, [(16, 21)])], None).
Proof.
  split; [exact type_2_ok|]. split; [right; reflexivity|]. split; [exact small_ok|]. split; [split; [lia|]; split; [vm_compute; discriminate|reflexivity]|]. split; [right; reflexivity|]. split; [exact small_even|]. split; [|vm_compute; reflexivity].
  intros p Hp [->|H]; [exists [], 84; split; [split; [lia|]; split; [vm_compute; discriminate|reflexivity]|]; split; [constructor|vm_compute; lia]|]. exfalso. assert (Q : p = 0 \/ p = 1 \/ p = 2 \/ p = 3 \/ p = 4 \/ p = 5) by lia. destruct Q as [->|[->|[->|[->|[->| ->]]]]]; vm_compute in H; discriminate H.
Qed.

(** C97: rows end at separator lines: in the tables found, a row Ito never reaches past a line that
    separates rows.  (Styles without table_end_pat and post_caption_pat, such as TYPE_1.) *)
Theorem C97_rows_partial st s a b : style_ok st -> st_end st = None -> st_post st = None -> 0 <= a <= b -> b <= zlen s ->
  exists ts, finds_tables st s a b ts /\ Forall (fun t => exists d ind, d <= b /\ (st_equi st = false -> d = b) /\ is_table st s d ind t /\ rows_cut_at st s d ind t) ts.
Proof.
  intros Ok_ Ne Np Hab Hb.
  assert (Q : forall c d, 0 <= c <= d -> d <= b -> exists ts, Forall2 (gives default_desc (re_keys (style_re st) table_keys)) (zfinditer (style_re st) (build_rx st) s c d) ts /\ Forall (fun t => exists ind, is_table st s d ind t /\ rows_cut_at st s d ind t) ts).
  { intros c d Hcd Hd. pose proof (fun m => cut_found st s c d m Hcd ltac:(lia) Ok_ Ne Np) as H. unfold zfinditer. revert H. induction (zfound (build_rx st) s c d) as [|m l IH]; intros H; [exists []; split; constructor|]. destruct (IH (fun m Hm => H m (or_intror Hm))) as (ts & G & F). destruct (H m (or_introl eq_refl)) as (t & ind & Gt & Tt & Rt). exists (t :: ts). split; constructor; eauto. }
  destruct (st_equi st) eqn:Eq.
  - assert (H : forall m, In m (zfound chunk_rx s a b) -> 0 <= fst (fst m) <= snd (fst m) /\ snd (fst m) <= b) by (intros m Hm; destruct (chunk_gives s b Hb a m (proj1 Hab) Hm) as (B & B' & _); lia).
    assert (R : exists tss, Forall2 (fun m ts => Forall2 (gives default_desc (re_keys (style_re st) table_keys)) (zfinditer (style_re st) (build_rx st) s (fst (fst m)) (snd (fst m))) ts) (zfound chunk_rx s a b) tss /\ Forall (fun t => exists d ind, d <= b /\ is_table st s d ind t /\ rows_cut_at st s d ind t) (concat tss)).
    { revert H. induction (zfound chunk_rx s a b) as [|m l IH]; intros H; [exists []; split; constructor|]. destruct (IH (fun m Hm => H m (or_intror Hm))) as (tss & G & F). destruct (H m (or_introl eq_refl)) as [B B']. destruct (Q (fst (fst m)) (snd (fst m)) B B') as (ts & G1 & F1). exists (ts :: tss). split; [constructor; assumption|]. cbn [concat]. apply Forall_app. split; [|exact F]. eapply Forall_impl; [|exact F1]. cbn beta. intros t (ind & T & C). exists (snd (fst m)), ind. auto. }
    destruct R as (tss & G & F). exists (concat tss). split; [exact (chunked_finds st s a b tss Hab Hb Eq G)|]. eapply Forall_impl; [|exact F]. cbn beta. intros t (d & ind & B & T & C). exists d, ind. split; [exact B|]. split; [discriminate|]. auto.
  - destruct (Q a b Hab ltac:(lia)) as (ts & G & F). exists ts. split; [exact (plain_finds st s a b ts Hab Hb Eq G)|]. eapply Forall_impl; [|exact F]. cbn beta. intros t (ind & T & C). exists b, ind. split; [lia|]. auto.
Qed.
(** For every style: no row Ito holds a separator line with a line of the row below it.  (A separator line directly above
    the table's end may be the last line of a row: refuted below.) *)
Theorem C97_inside_partial st s a b : style_ok st -> 0 <= a <= b -> b <= zlen s ->
  exists ts, finds_tables st s a b ts /\ Forall (fun t => exists d ind, d <= b /\ (st_equi st = false -> d = b) /\ is_table st s d ind t /\ rows_undivided st s d ind t) ts.
Proof.
  intros Ok_ Hab Hb.
  assert (Q : forall c d, 0 <= c <= d -> d <= b -> exists ts, Forall2 (gives default_desc (re_keys (style_re st) table_keys)) (zfinditer (style_re st) (build_rx st) s c d) ts /\ Forall (fun t => exists ind, is_table st s d ind t /\ rows_undivided st s d ind t) ts).
  { intros c d Hcd Hd. pose proof (fun m => inner_found st s c d m Hcd ltac:(lia) Ok_) as H. unfold zfinditer. revert H. induction (zfound (build_rx st) s c d) as [|m l IH]; intros H; [exists []; split; constructor|]. destruct (IH (fun m Hm => H m (or_intror Hm))) as (ts & G & F). destruct (H m (or_introl eq_refl)) as (t & ind & Gt & Tt & Rt). exists (t :: ts). split; constructor; eauto. }
  destruct (st_equi st) eqn:Eq.
  - assert (H : forall m, In m (zfound chunk_rx s a b) -> 0 <= fst (fst m) <= snd (fst m) /\ snd (fst m) <= b) by (intros m Hm; destruct (chunk_gives s b Hb a m (proj1 Hab) Hm) as (B & B' & _); lia).
    assert (R : exists tss, Forall2 (fun m ts => Forall2 (gives default_desc (re_keys (style_re st) table_keys)) (zfinditer (style_re st) (build_rx st) s (fst (fst m)) (snd (fst m))) ts) (zfound chunk_rx s a b) tss /\ Forall (fun t => exists d ind, d <= b /\ is_table st s d ind t /\ rows_undivided st s d ind t) (concat tss)).
    { revert H. induction (zfound chunk_rx s a b) as [|m l IH]; intros H; [exists []; split; constructor|]. destruct (IH (fun m Hm => H m (or_intror Hm))) as (tss & G & F). destruct (H m (or_introl eq_refl)) as [B B']. destruct (Q (fst (fst m)) (snd (fst m)) B B') as (ts & G1 & F1). exists (ts :: tss). split; [constructor; assumption|]. cbn [concat]. apply Forall_app. split; [|exact F]. eapply Forall_impl; [|exact F1]. cbn beta. intros t (ind & T & C). exists (snd (fst m)), ind. auto. }
    destruct R as (tss & G & F). exists (concat tss). split; [exact (chunked_finds st s a b tss Hab Hb Eq G)|]. eapply Forall_impl; [|exact F]. cbn beta. intros t (d & ind & B & T & C). exists d, ind. split; [exact B|]. split; [discriminate|]. auto.
  - destruct (Q a b Hab ltac:(lia)) as (ts & G & F). exists ts. split; [exact (plain_finds st s a b ts Hab Hb Eq G)|]. eapply Forall_impl; [|exact F]. cbn beta. intros t (ind & T & C). exists b, ind. split; [lia|]. auto.
Qed.
(** TYPE_2: the separator above the lower edge belongs to the row *)
Theorem C97_above_end_refuted : lang (st_sep type_2) (lit "|-|") /\ sees type_2 (sheet [lit "---"; lit "|a|"; lit "|-|"; lit "---"]) = ([((0, 15), Some table_desc, [(4, 11)])], None) /\ zsub (sheet [lit "---"; lit "|a|"; lit "|-|"; lit "---"]) 4 11 = lit "|a|" ++ [10] ++ lit "|-|".
Proof.
  split; [|split; vm_compute; reflexivity]. exists (lit "|"), (lit "-|"). split; [reflexivity|]. split; [reflexivity|]. exists [lit "-|"]. split; [reflexivity|]. split; [|split; [cbn; lia|exact Logic.I]]. constructor; [|constructor]. split; [discriminate|].
  exists (lit "-"), (lit "|"). split; [reflexivity|]. split; [|reflexivity]. exists [lit "-"]. split; [reflexivity|]. split; [|split; [cbn; lia|exact Logic.I]]. constructor; [split; [discriminate|reflexivity]|constructor].
Qed.
(** and where a line follows, it does not *)
Example C97_inside_case : style_ok type_2 /\ sees type_2 (sheet [lit "---"; lit "|a|"; lit "|-|"; lit "|b|"; lit "|-|"; lit "|c|"; lit "---"]) = ([((0, 27), Some table_desc, [(4, 7); (12, 15); (20, 23)])], None).
Proof. split; [exact type_2_ok|]. vm_compute. reflexivity. Qed.
(** two tables with a text between: one table is found, a row of which is the text (with TYPE_1; and so with TYPE_2) *)
Definition row_1 : pystr := lit "a | b".
Definition rule_1 : pystr := lit "--+--".
Definition twice := sheet [rule_1; row_1; rule_1; lit "Prose."; rule_1; row_1; rule_1].
Definition brief := Lay None rule_1 None [(row_1, rule_1)] None None.
Lemma rule_1_lang : lang rule_rx rule_1.
Proof.
  exists (lit "--"), (lit "+--"). split; [reflexivity|]. split; [exact (dashes 2 ltac:(lia))|]. exists [lit "+--"]. split; [reflexivity|]. split; [|split; [cbn; lia|exact Logic.I]]. constructor; [|constructor]. split; [discriminate|]. exists (lit "+"), (lit "--"). split; [reflexivity|]. split; [reflexivity|].
  exists [lit "-"; lit "-"]. split; [reflexivity|]. split; [|split; [cbn; lia|exact Logic.I]]. constructor; [split; [discriminate|reflexivity]|]. constructor; [split; [discriminate|reflexivity]|constructor].
Qed.
Lemma brief_ok : layout_ok type_1 brief.
Proof. split; [exact Logic.I|]. split; [exact rule_1_lang|]. split; [exact Logic.I|]. split; [constructor; [split; [discriminate|exact rule_1_lang]|constructor]|]. split; [|reflexivity]. split; [discriminate|reflexivity]. Qed.
Theorem C97_merged_refuted : layout_ok type_1 brief /\ twice = text_of (chips [] brief) ++ lit (String (Ascii.ascii_of_nat 10) "Prose.") ++ [10] ++ text_of (chips [] brief) ++ [10] /\
  sees type_1 twice = ([((0, 42), Some table_desc, [(6, 11); (18, 24); (31, 36)])], None).
Proof. split; [exact brief_ok|]. split; [reflexivity|]. vm_compute. reflexivity. Qed.
(** alone, each is found as it is *)
Definition once := sheet [lit "Prose."; rule_1; row_1; rule_1; row_1; rule_1; lit "more"].
Example C97_case : style_ok type_1 /\ sees type_1 once = ([((7, 36), Some table_desc, [(13, 18); (25, 30)])], None).
Proof. split; [exact type_1_ok|]. vm_compute. reflexivity. Qed.
