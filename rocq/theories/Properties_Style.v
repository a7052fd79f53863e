(** Properties of the predefined table styles. *)
From Verif Require Import PyFacts HeapFacts HeapFacts2 HeapFacts4 TableFacts StyleFacts Properties_Table SpecStyle.

Lemma alone_ok s a b : 0 <= a <= b -> b <= zlen s -> hwf [Nd (FI s a b None None) None []] /\ acyclic [Nd (FI s a b None None) None []].
Proof.
  intros Hab Hb. split; [apply (hwf_new []); [exact hwf_nil|split; assumption]|].
  intros i H. assert (Q : forall x y, ~ anc [Nd (FI s a b None None) None []] x y); [|exact (Q _ _ H)]. clear. intros x y H. destruct y as [|[|y]]; inversion H; cbn in *; discriminate.
Qed.
Lemma finds_det st s a b ts ts' : 0 <= a <= b -> b <= zlen s -> finds_tables st s a b ts -> finds_tables st s a b ts' -> ts = ts'.
Proof.
  intros Hab Hb F F'. destruct (alone_ok s a b Hab Hb) as [W A]. destruct (F _ 0%nat W A ltac:(cbn; lia) eq_refl eq_refl eq_refl) as (h & l & E & _ & _ & _ & R & _). destruct (F' _ 0%nat W A ltac:(cbn; lia) eq_refl eq_refl eq_refl) as (h' & l' & E' & _ & _ & _ & R' & _).
  rewrite E in E'. injection E' as <- <-. clear - R R'. revert ts' R'. induction R as [|t n ts l H R IH]; intros ts' R'; inversion R'; subst; [reflexivity|]. f_equal; [eapply rep_fun; eassumption|apply IH; assumption].
Qed.

Lemma grid_stop s e t ind top rows : 0 <= t_start t -> t_stop t <= e -> e <= zlen s -> top <> [] -> zsub s (t_start t) (t_stop t) = grid_text ind top rows -> t_stop t = t_start t + zlen (grid_text ind top rows).
Proof.
  intros H1 H2 H3 N E. destruct (Z_le_gt_dec (t_stop t) (t_start t)) as [L|L].
  - exfalso. rewrite zsub_nil in E by exact L. unfold grid_text in E. destruct top; [congruence|discriminate E].
  - pose proof (f_equal zlen E) as Q. rewrite zsub_len in Q by lia. lia.
Qed.
Lemma rows_desc s ind rows : forall i r, In r (rows_itos s ind i rows) -> f_desc (t_f r) = Some row_desc.
Proof. induction rows as [|p rows IH]; intros i r H; [destruct H|]. destruct H as [<-|H]; [reflexivity|exact (IH _ _ H)]. Qed.
Lemma rule_some u : plus_rule u -> u <> [].
Proof. intros (n & ns & L & _ & _ & ->). destruct n; [lia|discriminate]. Qed.
Lemma edge_some u : edge u -> u <> [].
Proof. intros (n & L & ->). destruct n; [lia|discriminate]. Qed.

(** C103: TYPE_1 finds the tables that are drawn as its documentation shows: every Ito it yields is one, with its rows as
    children, from the start of a line to the end of one; no row goes past a line of the grid; and where such a table begins a
    line, an Ito spans that place *)
Theorem C103_type_1 : forall s a b, 0 <= a <= b -> b <= zlen s -> exists ts, finds_tables type_1 s a b ts /\ StronglySorted t_before ts /\
  Forall (fun t => exists top rows, grid_1 top rows /\ zsub s (t_start t) (t_stop t) = grid_text [] top rows /\ t = grid_tree s [] (t_start t) top rows /\
    a <= t_start t /\ t_stop t <= b /\ line_begins s (t_start t) /\ line_ends s b (t_stop t) /\
    Forall (fun r => forall k x, t_start r < k < t_stop r -> plus_rule x -> written s b k ([10] ++ x) -> ~ line_ends s b (k + zlen ([10] ++ x))) (t_kids t)) ts /\
  forall i top rows, a <= i -> line_begins s i -> grid_1 top rows -> written s b i (grid_text [] top rows) -> line_ends s b (i + zlen (grid_text [] top rows)) ->
    exists t, In t ts /\ t_start t <= i < t_stop t.
Proof.
  intros s a b Hab Hb. destruct (C95_plain type_1 s a b type_1_ok eq_refl Hab Hb) as (ts & F1 & Q1 & S1). destruct (C96_plain type_1 s a b type_1_ok eq_refl Hab Hb) as (ts2 & F2 & Q2). destruct (C97_rows_partial type_1 s a b type_1_ok eq_refl eq_refl Hab Hb) as (ts3 & F3 & Q3).
  rewrite <- (finds_det _ _ _ _ _ _ Hab Hb F1 F2) in *. rewrite <- (finds_det _ _ _ _ _ _ Hab Hb F1 F3) in *. clear ts2 F2 ts3 F3. exists ts. split; [exact F1|]. split; [exact S1|]. split.
  - apply Forall_forall. intros t Ht. rewrite Forall_forall in Q1, Q3. destruct (Q1 t Ht) as ((l & Lo & Et & E & B1 & B2 & LE & _ & _ & _) & Ba & Lb). destruct (Q3 t Ht) as (d & ind & _ & Ed & (l' & Lo' & _ & E' & _ & _ & _ & _ & _ & En) & Rc). rewrite (Ed eq_refl) in *. specialize (En eq_refl). subst ind.
    apply lay_1 in Lo. destruct Lo as (top & rows & G & ->). rewrite plain_text in Et. unfold with_last in Et. cbn [opt_list] in Et. rewrite app_nil_r in Et. exists top, rows. split; [exact G|]. split; [exact Et|].
    assert (Et' : t_stop t = t_start t + zlen (grid_text [] top rows)) by exact (grid_stop s b t [] top rows B1 B2 Hb (rule_some top (proj1 G)) Et).
    split. { rewrite E at 1. unfold grid_tree. rewrite <- Et'. f_equal. rewrite plain_itos. unfold with_last. cbn [opt_list]. rewrite app_nil_r. reflexivity. }
    split; [exact Ba|]. split; [exact B2|]. split; [exact Lb|]. split; [exact LE|].
    apply Forall_forall. intros r Hr k x Hk Px W. unfold rows_cut_at in Rc. rewrite Forall_forall in Rc. refine (Rc r Hr _ k x Hk W _); [|apply rule_lang; exact Px].
    rewrite E in Hr. cbn [t_kids at_] in Hr. rewrite plain_itos in Hr. exact (rows_desc _ _ _ _ _ Hr).
  - intros i top rows Hi Lb G W LE. refine (Q2 i (plain_lay top rows None) Hi Lb _ _ _); [apply lay_1; eauto| |]; rewrite plain_text; unfold with_last; cbn [opt_list]; rewrite app_nil_r; assumption.
Qed.
Lemma rule_2_4 : plus_rule (lit "--+----").
Proof. exists 2%nat, [4%nat]. split; [lia|]. split; [discriminate|]. split; [constructor; [lia|constructor]|reflexivity]. Qed.
(** a text with such a table: what is found *)
Definition ledger := sheet [lit "Ledger"; lit "--+----"; lit "a | 17"; lit "b | 18"; lit "--+----"; lit "c | 19"; lit "--+----"; lit "--+----"].
Example C103_case : grid_1 (lit "--+----") [(lit "a | 17" ++ [10] ++ lit "b | 18", lit "--+----"); (lit "c | 19", lit "--+----")] /\
  sees type_1 ledger = ([((7, 51), Some (lit "table"), [(15, 28); (37, 43)])], None).
Proof.
  split; [|vm_compute; reflexivity]. split; [exact rule_2_4|]. split; [discriminate|]. constructor; [split; [discriminate|exact rule_2_4]|]. constructor; [split; [discriminate|exact rule_2_4]|constructor].
Qed.

(** C104: TYPE_2 the same, with an indentation that all lines share; each table found lies in lines c to d.  Not proved, as it
    is false: that it begins at the start of a line (but for the indentation), and that none is missed below blank lines or
    with lines of one character *)
Theorem C104_type_2_partial : forall s a b, 0 <= a <= b -> b <= zlen s -> exists ts, finds_tables type_2 s a b ts /\ StronglySorted t_before ts /\
  Forall (fun t => exists c d ind top rows, grid_2 top rows /\ zsub s (t_start t) (t_stop t) = grid_text ind top rows /\ t = grid_tree s ind (t_start t) top rows /\
    Forall (fun x => x = 32 \/ x = 9) ind /\ ends_in s (t_start t) ind /\ a <= c /\ c + zlen ind <= t_start t /\ t_stop t <= d /\ d <= b /\
    line_begins s c /\ (line_begins s d \/ line_ends s b d) /\ line_ends s d (t_stop t)) ts /\
  forall i ind top rows, a <= i -> line_begins s i -> Forall (fun x => x = 32 \/ x = 9) ind -> grid_2 top rows ->
    written s b i (ind ++ grid_text ind top rows) -> line_ends s b (i + zlen ind + zlen (grid_text ind top rows)) ->
    even_lines ind (grid_text ind top rows) -> (forall p, a <= p < i -> line_begins s p -> inked s p) -> exists t ind', In t ts /\ ends_in s (t_start t) ind' /\ t_start t - zlen ind' <= i < t_stop t.
Proof.
  intros s a b Hab Hb. destruct (C95_indented_partial type_2 s a b type_2_ok eq_refl Hab Hb) as (ts & F1 & S1 & Q1). destruct (C96_indented_partial type_2 s a b type_2_ok eq_refl Hab Hb) as (ts2 & F2 & Q2).
  rewrite <- (finds_det _ _ _ _ _ _ Hab Hb F1 F2) in *. clear ts2 F2. exists ts. split; [exact F1|]. split; [exact S1|]. split.
  - apply Forall_forall. intros t Ht. rewrite Forall_forall in Q1. destruct (Q1 t Ht) as (c & d & ind & Ba & Lc & Bd & Ld & (l & Lo & Et & E & B1 & B2 & LE & En & Bi & _) & Bc).
    apply lay_2 in Lo. destruct Lo as (top & r & u & x & G1 & G2 & Nu & G3 & ->). rewrite plain_text in Et. unfold with_last in Et. cbn [opt_list] in Et. exists c, d, ind, top, (r ++ [(u, x)]).
    split; [split; [exact G1|]; exists r, u, x; auto|]. split; [exact Et|].
    assert (Et' : t_stop t = t_start t + zlen (grid_text ind top (r ++ [(u, x)]))) by exact (grid_stop s d t ind top _ B1 B2 ltac:(lia) (edge_some top G1) Et).
    split. { rewrite E at 1. unfold grid_tree. rewrite <- Et'. f_equal. rewrite plain_itos. reflexivity. }
    repeat (split; [assumption|]). assumption.
  - intros i ind top rows Hi Lb Bi (G1 & r & u & x & -> & G2 & Nu & G3) W LE Ev Nk.
    assert (T : text_of (chips ind (plain_lay top r (Some (u, x)))) = grid_text ind top (r ++ [(u, x)])) by apply plain_text.
    destruct (Q2 i ind (plain_lay top r (Some (u, x))) Hi Lb Bi) as (t & d & ind' & Ht & _ & (l & _ & _ & _ & _ & _ & _ & En & _) & B); [apply lay_2; exists top, r, u, x; auto|rewrite T; exact W|rewrite T; exact LE|rewrite T; exact Ev|exact Nk|].
    exists t, ind'. auto.
Qed.
Lemma dashes_5 : edge (lit "-----").
Proof. exists 5%nat. split; [lia|reflexivity]. Qed.
(** found in the middle of a line; not found below a blank line; not found with a line of one character *)
Theorem C104_begins_refuted : sees type_2 (sheet [lit "x-----"; lit "| a |"; lit "-----"]) = ([((1, 18), Some (lit "table"), [(7, 12)])], None).
Proof. vm_compute. reflexivity. Qed.
Theorem C104_hidden_refuted : grid_2 (lit "-----") [(lit "| a |", lit "-----")] /\
  sheet [lit "Text:"; []; lit "  -----"; lit "  | a |"; lit "  -----"] = lit "Text:" ++ [10; 10; 32; 32] ++ grid_text [32; 32] (lit "-----") [(lit "| a |", lit "-----")] ++ [10] /\
  sees type_2 (sheet [lit "Text:"; []; lit "  -----"; lit "  | a |"; lit "  -----"]) = ([], None).
Proof. split; [split; [exact dashes_5|]; exists [], (lit "| a |"), (lit "-----"); split; [reflexivity|]; split; [constructor|]; split; [discriminate|exact dashes_5]|]. split; vm_compute; reflexivity. Qed.
Theorem C104_short_refuted : grid_2 (lit "--") [(lit "x", lit "--")] /\
  sheet [lit "Text:"; lit "--"; lit "x"; lit "--"] = lit "Text:" ++ [10] ++ grid_text [] (lit "--") [(lit "x", lit "--")] ++ [10] /\
  sees type_2 (sheet [lit "Text:"; lit "--"; lit "x"; lit "--"]) = ([], None).
Proof.
  assert (D : edge (lit "--")) by (exists 2%nat; split; [lia|reflexivity]).
  split; [split; [exact D|]; exists [], (lit "x"), (lit "--"); split; [reflexivity|]; split; [constructor|]; split; [discriminate|exact D]|]. split; vm_compute; reflexivity.
Qed.
Lemma bars_1 : bar_rule (lit "|---|").
Proof. exists [3%nat]. split; [discriminate|]. split; [constructor; [lia|constructor]|reflexivity]. Qed.
Definition stock := sheet [lit "Stock"; lit " -----"; lit " | A |"; lit " |---|"; lit " | a |"; lit " -----"; lit "end"].
Example C104_case : grid_2 (lit "-----") [(lit "| A |", lit "|---|"); (lit "| a |", lit "-----")] /\ sees type_2 stock = ([((7, 40), Some (lit "table"), [(14, 19); (28, 33)])], None).
Proof.
  split; [|vm_compute; reflexivity]. split; [exact dashes_5|]. exists [(lit "| A |", lit "|---|")], (lit "| a |"), (lit "-----"). split; [reflexivity|]. split; [constructor; [split; [discriminate|exact bars_1]|constructor]|]. split; [discriminate|exact dashes_5].
Qed.
Print Assumptions C103_type_1.
Print Assumptions C103_case.
Print Assumptions C104_type_2_partial.
Print Assumptions C104_begins_refuted.
Print Assumptions C104_hidden_refuted.
Print Assumptions C104_case.
