(** Properties of nlp.py. *)
From Verif Require Import Properties_Heap Properties_Xml PyFacts HeapFacts4 NlpFacts6 NlpFacts9 NlpFacts10 NlpFacts13 NlpFacts15.
From Verif Require Import Nlp SpecNlp NlpDoc NlpConf.

(** t is what SimpleNlp(number).from_text(text) gives, whatever else there is; number as set *)
Definition nlp_gives (C : classes) (point sep : pystr) (optional : bool) (text : pystr) (t : tree) : Prop :=
  gives_tree (fun h => from_text C (number_rx C point sep optional) false h text) t.
Lemma gives_doc C point sep optional text t : nlp_gives C point sep optional text t -> is_document C point sep optional text t.
Proof. intros G. destruct (from_text_gives C point sep optional false text (or_introl eq_refl)) as (t' & D & G'). rewrite (gives_tree_one _ _ _ G G'). exact D. Qed.
Lemma gives_twf f t : gives_tree f t -> twf t.
Proof. intros G. destruct (G [] HeapFacts2.hwf_nil HeapFacts3.acyclic_nil) as (h & r & _ & _ & W & _ & R & _). exact (rep_twf h W t r R). Qed.

(** A text, its classes. *)
Definition lower_or_digit (c : Z) : bool := upper_az c || lower_az c || range 48 57 c || (c =? 95).
Definition ascii_classes : classes := Classes lower_or_digit (range 48 57) (fun c => mem_char c [9; 10; 11; 12; 13; 32]).
Lemma ascii_sane : sane ascii_classes.
Proof.
  split.
  - apply Forall_forall. assert (E : forallb (fun c => negb (lower_or_digit c)) (white_chars ++ end_chars) = true) by by_vm. rewrite forallb_forall in E. apply Forall_forall. intros c Hc. apply E in Hc. apply negb_true_iff. exact Hc.
  - intros c H. cbn in *. unfold lower_or_digit. rewrite H, !orb_true_r. reflexivity.
Qed.
Lemma ascii_marks : sane_marks ascii_classes (lit ".") (lit ",").
Proof.
  exists 46, [], 44, []. split; [reflexivity|]. split; [reflexivity|]. split; [|split; vm_compute; intuition discriminate].
  assert (E : forallb (fun c => negb (range 48 57 c)) ([46; 44] ++ lit "-+" ++ exp_marks) = true) by by_vm. rewrite forallb_forall in E. intros c Hc. apply E in Hc. apply negb_true_iff. exact Hc.
Qed.
Definition nl : pystr := [10].
(** two paragraphs; Dr. ends no sentence *)
Definition novel : pystr := lit "Dr. Doe paid -1,250.50 dollars. It's well-known!" ++ nl ++ nl ++ lit "Chapter 2".
Definition pieces (h : heap) (ts : list nat) : list (pystr * Z * Z) := map (fun i => (match f_desc (n_f (nd h i)) with Some d => d | None => [] end, h_start h i, h_stop h i)) ts.
Definition read_novel := from_text ascii_classes (number_rx ascii_classes (lit ".") (lit ",") true) false [] novel.

(** ** C88 the tree of SimpleNlp *)
Theorem C88_tree : forall C point sep optional text, exists t, nlp_gives C point sep optional text t /\ outline text t.
Proof.
  intros C point sep optional text. destruct (from_text_gives C point sep optional false text (or_introl eq_refl)) as (t & D & G). exists t. split; [exact G|]. exact (doc_outline C point sep optional text t D (gives_twf _ t G)).
Qed.
(** there is but one such tree *)
Theorem C88_one : forall C point sep optional text t t', nlp_gives C point sep optional text t -> nlp_gives C point sep optional text t' -> t = t'.
Proof. intros C point sep optional text t t'. apply gives_tree_one. Qed.
Definition in_novel {A} (f : heap -> nat -> A) : option A := match read_novel with (h, Ok r) => Some (f h r) | _ => None end.
Example C88_case : in_novel (fun h r => map (fun p => (pieces h [p], pieces h (n_kids (nd h p)))) (n_kids (nd h r))) = Some
    [([(paragraph_desc, 0, 48)], [(sentence_desc, 0, 31); (sentence_desc, 32, 48)]); ([(paragraph_desc, 50, 59)], [(sentence_desc, 50, 59)])].
Proof. by_vm. Qed.

(** ** C89 words and numbers cover the text *)
(** in order, without overlap; every character of a word or number is in one *)
Theorem C89_tokens : forall C point sep optional text t, nlp_gives C point sep optional text t ->
  StronglySorted t_before (all_tokens t) /\
  (sane C -> forall k c, zget text k = Some c -> cls_w C c = true -> exists u, In u (all_tokens t) /\ takes_in u k).
Proof.
  intros C point sep optional text t G. pose proof (gives_doc _ _ _ _ _ _ G) as D. split; [exact (tokens_sorted C point sep optional text t D (gives_twf _ t G))|]. intros S k c. exact (all_covered C point sep optional text t k c D S).
Qed.
(** a word consists of word characters, joined by a quotation mark or by a hyphen; it goes on as far as it can: only a number can cut it short *)
Theorem C89_words : forall C point sep optional text t q u, nlp_gives C point sep optional text t -> In q (sentences t) -> In u (t_kids q) -> desc_is word_desc u = true ->
  word_text C (zsub text (t_start u) (t_stop u)) /\
  forall j c, joint C j -> cls_w C c = true -> written text (t_stop q) (t_stop u) (j ++ [c]) ->
    exists v, In v (t_kids q) /\ desc_is number_desc v = true /\ t_stop u <= t_start v < t_stop u + zlen (j ++ [c]).
Proof. intros C point sep optional text t q u G. exact (word_facts C point sep optional text t q u (gives_doc _ _ _ _ _ _ G)). Qed.
(** outside the sentences there is white space only *)
Theorem C89_outside : forall C point sep optional text t k c, nlp_gives C point sep optional text t -> zget text k = Some c ->
  (exists q, In q (sentences t) /\ takes_in q k) \/ In c (white_chars ++ end_chars).
Proof.
  intros C point sep optional text t k c G Hc. destruct (in_dec Z.eq_dec c (white_chars ++ end_chars)) as [H|H]; [right; exact H|left]. exact (in_sentence C point sep optional text t k c (gives_doc _ _ _ _ _ _ G) Hc H).
Qed.
Example C89_case : in_novel (fun h r => map (fun x => zsub novel (snd (fst x)) (snd x)) (pieces h (flat_map (fun p => flat_map (fun q => n_kids (nd h q)) (n_kids (nd h p))) (n_kids (nd h r))))) =
    Some (map lit ["Dr"; "Doe"; "paid"; "-1,250.50"; "dollars"; "It's"; "well-known"; "Chapter"; "2"]%string).
Proof. by_vm. Qed.

(** ** C90 paragraphs *)
Theorem C90_paragraphs : forall C point sep optional text t, text <> [] -> nlp_gives C point sep optional text t -> paragraphs_of text (paragraphs t).
Proof. intros C point sep optional text t Hs G. exact (doc_paras C point sep optional text t (gives_doc _ _ _ _ _ _ G) Hs). Qed.
(** the empty text is one empty paragraph *)
Theorem C90_empty : forall C point sep optional t, nlp_gives C point sep optional [] t -> map t_f (paragraphs t) = [FI [] 0 0 (Some paragraph_desc) None].
Proof.
  intros C point sep optional t G. pose proof (gives_doc _ _ _ _ _ _ G) as D. rewrite (doc_paragraphs _ _ _ _ _ t D). destruct D as (ps & F & ->). cbn [t_kids at_].
  assert (E : leftover 0 (zlen (@nil Z)) (found_spans (para_rx 2) [] 0 (zlen (@nil Z))) = [(0, 0)]) by reflexivity. rewrite E in F. inversion F as [|? p ? l (ss & _ & ->) F']; subst. inversion F'; subst. reflexivity.
Qed.
(** three line ends, with blanks among them, divide; one does not *)
Example C90_case : lines_over (lit "a" ++ nl ++ lit " " ++ nl ++ nl ++ lit " b") 1 5 /\ ~ lines_at (lit "a" ++ nl ++ lit "b") 1.
Proof.
  split.
  - exists (nl ++ lit " " ++ nl ++ nl). split; [exists [nl; lit " " ++ nl; nl]; split; [cbn; lia|split; [reflexivity|]]|].
    + assert (L : forall w, Forall (fun x => In x white_chars) w -> empty_line (w ++ nl)) by (intros w Hw; exists w, 10; split; [reflexivity|split; [exact Hw|left; reflexivity]]).
      constructor; [apply (L []); constructor|]. constructor; [apply (L (lit " ")); constructor; [vm_compute; tauto|constructor]|]. constructor; [apply (L []); constructor|constructor].
    + split; [split; [lia|split; [vm_compute; discriminate|reflexivity]]|]. split; [reflexivity|]. intros (v & (w & c & -> & Hw & Hc) & (_ & Hl & Hv)). change (zlen (lit "a" ++ nl ++ lit " " ++ nl ++ nl ++ lit " b")) with 7 in Hl.
      rewrite zlen_app, zlen_cons in Hl. change (zlen (@nil Z)) with 0 in Hl. destruct w as [|x [|y w]]; [| |rewrite !zlen_cons in Hl; pose proof (zlen_nonneg w); lia].
      * vm_compute in Hv. injection Hv as <-. vm_compute in Hc. intuition discriminate.
      * vm_compute in Hv. injection Hv as <- <-. vm_compute in Hc. intuition discriminate.
  - intros (u & (ls & Ln & -> & F) & (_ & Hl & Hv)). destruct ls as [|x [|y ls]]; [cbn in Ln; lia|cbn in Ln; lia|]. inversion F as [|? ? (w & c & -> & Hw & Hc) F']; subst. inversion F' as [|? ? (w' & c' & -> & Hw' & Hc') _]; subst.
    change (zlen (lit "a" ++ nl ++ lit "b")) with 3 in Hl. cbn [concat] in Hl, Hv. rewrite !zlen_app, !zlen_cons in Hl. change (zlen (@nil Z)) with 0 in Hl. pose proof (zlen_nonneg w). pose proof (zlen_nonneg w'). pose proof (zlen_nonneg (concat ls)).
    destruct w; [|rewrite zlen_cons in Hl; pose proof (zlen_nonneg w); lia]. destruct w'; [|rewrite zlen_cons in Hl; pose proof (zlen_nonneg w'); lia]. destruct (concat ls); [|rewrite zlen_cons in Hl; pose proof (zlen_nonneg l); lia].
    vm_compute in Hv. injection Hv as <- <-. vm_compute in Hc'. intuition discriminate.
Qed.

(** ** C91 numbers *)
(** every number is a numeral, with its parts as children *)
Theorem C91_numbers : forall C point sep optional text t q v, nlp_gives C point sep optional text t -> In q (sentences t) -> In v (t_kids q) -> desc_is number_desc v = true ->
  exists n, numeral_ok C point sep optional n /\ written text (t_stop q) (t_start v) (nu_text n) /\ v = num_tree text (t_start v) n.
Proof. intros C point sep optional text t q v G Hq Hv D. destruct (number_nodes C point sep optional text t q v (gives_doc _ _ _ _ _ _ G) Hq Hv D) as (_ & n & H1 & H2 & H3 & _). exists n. auto. Qed.
(** the longest one that begins there *)
Theorem C91_longest : forall C point sep optional text t q v n, nlp_gives C point sep optional text t -> sane_marks C point sep -> In q (sentences t) -> In v (t_kids q) -> desc_is number_desc v = true ->
  numeral_ok C point sep optional n -> written text (t_stop q) (t_start v) (nu_text n) -> t_start v + zlen (nu_text n) <= t_stop v.
Proof. intros C point sep optional text t q v n G. exact (numbers_longest C point sep optional text t q v n (gives_doc _ _ _ _ _ _ G)). Qed.
(** and no numeral is missed: where one is written in a sentence, there is a number *)
Theorem C91_all : forall C point sep optional text t q n i, nlp_gives C point sep optional text t -> In q (sentences t) -> numeral_ok C point sep optional n -> t_start q <= i -> written text (t_stop q) i (nu_text n) ->
  exists v, In v (t_kids q) /\ desc_is number_desc v = true /\ takes_in v i.
Proof. intros C point sep optional text t q n i G. exact (numbers_all C point sep optional text t q n i (gives_doc _ _ _ _ _ _ G)). Qed.
(** so that no digit is in a word, when separators are optional *)
Theorem C91_digits : forall C point sep text t q u k c, nlp_gives C point sep true text t -> In q (sentences t) -> In u (t_kids q) -> desc_is word_desc u = true -> takes_in u k -> zget text k = Some c -> cls_d C c = false.
Proof.
  intros C point sep text t q u k c G Hq Hu D Hk Hc. pose proof (gives_doc _ _ _ _ _ _ G) as Gd. destruct (cls_d C c) eqn:Ed; [exfalso|reflexivity]. destruct (sent_of C point sep true text t q Gd Hq) as (y & nums & B1 & B2 & _).
  assert (Tq : takes_in q k). { pose proof (gives_twf _ _ G) as W. assert (Wq : twf q). { rewrite (doc_sentences _ _ _ _ _ t Gd) in Hq. destruct (kids_le [t]) as [S1 W1]; [constructor; constructor|constructor; [exact W|constructor]|]. cbn [flat_map] in S1, W1. rewrite app_nil_r in S1, W1. destruct (kids_le _ S1 W1) as [_ W2]. rewrite Forall_forall in W2. apply W2. exact Hq. }
    destruct q as [f ts]. apply twf_unfold in Wq. destruct Wq as (_ & _ & Q & _). rewrite Forall_forall in Q. specialize (Q u Hu). unfold t_fits, takes_in in *. lia. }
  destruct (digit_number C point sep true text t q k c Gd eq_refl Hq Tq Hc Ed) as (v & Hv & Dv & Tv). pose proof (tokens_sorted C point sep true text t Gd (gives_twf _ t G)) as SS.
  assert (In_t : forall x, In x (t_kids q) -> In x (all_tokens t)) by (intros x Hx; rewrite (doc_tokens _ _ _ _ _ t Gd); rewrite (doc_sentences _ _ _ _ _ t Gd) in Hq; apply in_flat_map; exists q; auto).
  assert (N : u <> v). { intros ->. destruct (number_nodes C point sep true text t q v Gd Hq Hv Dv) as (_ & n & _ & E & _). rewrite E in D. discriminate D. }
  assert (A : u = v \/ t_before u v \/ t_before v u).
  { clear - SS In_t Hu Hv. pose proof (In_t u Hu) as Iu. pose proof (In_t v Hv) as Iv. clear In_t. induction SS as [|x l SS IH F]; [destruct Iu|]. rewrite Forall_forall in F. destruct Iu as [<-|Iu]; destruct Iv as [<-|Iv]; auto. }
  unfold t_before, takes_in in *. destruct A as [A|A]; [contradiction|]. lia.
Qed.
Example C91_case : exists n, numeral_ok ascii_classes (lit ".") (lit ",") true n /\ nu_text n = lit "-1,250.50" /\
  num_tree novel 13 n = at_ novel 13 22 number_desc [at_ novel 13 14 sign_desc []; at_ novel 14 19 integer_desc []; at_ novel 19 22 decimal_desc []].
Proof.
  exists (Num (lit "-") (lit "1,250") (lit ".50") [] [] []). split; [|split; reflexivity]. split; [right; left; reflexivity|]. split; [|left; auto]. left. split.
  - left. exists (lit "1"), (lit ",250"). split; [reflexivity|]. split; [split; [discriminate|by_parts]|]. split; [vm_compute; discriminate|]. apply (G_one ascii_classes (lit ",") (lit "250")); [split; [discriminate|by_parts]|reflexivity].
  - right. exists (lit "50"). split; [reflexivity|]. split; [discriminate|by_parts].
Qed.

(** ** C92 sentences *)
Theorem C92_sentences : forall C point sep optional text t, text <> [] -> nlp_gives C point sep optional text t -> Forall (sentences_of C text) (paragraphs t).
Proof. intros C point sep optional text t Hs G. exact (doc_sents C point sep optional text t (gives_doc _ _ _ _ _ _ G) Hs). Qed.
(** a sentence ends after dollars. in novel, none after Dr. *)
Example C92_case : break_at ascii_classes novel 48 31 /\ ~ break_at ascii_classes novel 48 3.
Proof.
  split.
  - apply (NlpFacts12.break_p ascii_classes novel 48 ltac:(vm_compute; discriminate) 31 ltac:(lia)). vm_compute. discriminate.
  - intros H. apply (NlpFacts12.break_p ascii_classes novel 48 ltac:(vm_compute; discriminate) 3 ltac:(lia)) in H. apply H. by_vm.
Qed.
(** the exceptions hold for the last rule alone: a title before a frequent first word, or before two white spaces, does end a
    sentence; carriage return and line feed can count as two *)
Example C92_titles : let parts s := match from_text ascii_classes (number_rx ascii_classes (lit ".") (lit ",") true) false [] s with
    (h, Ok r) => map (fun x => zsub s (snd (fst x)) (snd x)) (pieces h (flat_map (fun p => n_kids (nd h p)) (n_kids (nd h r)))) | _ => [] end in
  parts (lit "Dr. Doe") = [lit "Dr. Doe"] /\ parts (lit "Dr. Who is here") = [lit "Dr."; lit "Who is here"] /\
  parts (lit "Dr.  Doe") = [lit "Dr."; lit "Doe"] /\ parts (lit "Dr." ++ nl ++ lit "Doe") = [lit "Dr." ++ nl ++ lit "Doe"] /\ parts (lit "Dr." ++ [13; 10] ++ lit "Doe") = [lit "Dr."; lit "Doe"].
Proof. by_vm. Qed.

(** ** C93 settings *)
(** what a Number is set to, and what it finds, are in step *)
Definition in_step (C : classes) (o : number_obj) : Prop := no_re o = Some (number_rx C (no_point o) (no_sep o) (no_optional o)).
Definition sep_setting (sp : Z -> bool) (x : setting) : Prop := exists v, x = SetSep v /\ v <> [] /\ forallb sp v = false.
Fixpoint last_sep (d : pystr) (xs : list setting) : pystr := match xs with [] => d | SetSep v :: r => last_sep v r | _ :: r => last_sep d r end.
Lemma set_all_seps C sp : forall xs o, Forall (sep_setting sp) xs -> set_all C sp o xs = (NumObj (no_point o) (last_sep (no_sep o) xs) (no_optional o) (no_pats o) (no_re o), Ok tt).
Proof.
  induction xs as [|x xs IH]; intros o F; [destruct o; reflexivity|]. inversion F as [|? ? (v & -> & Hv & Hs) F']; subst. cbn [set_all set1]. unfold set_sep. destruct v as [|c v]; [contradiction|]. rewrite Hs. rewrite IH by exact F'. reflexivity.
Qed.
(** keyword arguments: thousands_sep alone can be given; then it is used *)
Theorem C93_number_partial : forall C sp lp ls kwargs, (exists o, new_number C sp lp ls kwargs = Ok o) <-> Forall (sep_setting sp) kwargs.
Proof.
  intros C sp lp ls kwargs. split.
  - intros (o & E). unfold new_number in E. set (o0 := NumObj lp _ true None None) in E. assert (P : no_pats o0 = None) by reflexivity. clearbody o0. revert o0 P E. induction kwargs as [|x xs IH]; intros o0 P E; [constructor|].
    cbn [set_all] in E. destruct x as [v|v|v]; cbn [set1] in E.
    + exfalso. unfold set_point, build_num in E. cbn [no_pats] in E. rewrite P in E. discriminate E.
    + unfold set_sep in E. destruct v as [|c v]; [discriminate E|]. destruct (forallb sp (c :: v)) eqn:Ev; [discriminate E|]. constructor; [exists (c :: v); split; [reflexivity|]; split; [discriminate|exact Ev]|]. apply (IH _) in E; [exact E|exact P].
    + exfalso. unfold set_optional, build_num in E. cbn [no_pats] in E. rewrite P in E. discriminate E.
  - intros F. unfold new_number. rewrite set_all_seps by exact F. eexists. reflexivity.
Qed.
Theorem C93_kwargs_partial : forall C sp lp ls kwargs o, new_number C sp lp ls kwargs = Ok o ->
  in_step C o /\ no_point o = lp /\ no_optional o = true /\ no_sep o = last_sep (match ls with [] => lit "," | _ => ls end) kwargs.
Proof.
  intros C sp lp ls kwargs o E. pose proof (proj1 (C93_number_partial C sp lp ls kwargs) (ex_intro _ o E)) as F. unfold new_number in E. rewrite set_all_seps in E by exact F. cbn in E. injection E as <-. repeat split; reflexivity.
Qed.
(** what is set later has no effect on what is found *)
Theorem C93_setters_partial : forall C sp xs o, no_re (assign_all C sp o xs) = no_re o.
Proof.
  intros C sp. induction xs as [|x xs IH]; intros o; [reflexivity|]. cbn [assign_all]. rewrite IH. destruct x as [v|v|v]; cbn [set1]; [reflexivity| |reflexivity]. unfold set_sep. destruct (match v with [] => true | _ :: _ => forallb sp v end); reflexivity.
Qed.
(** so that settings and findings fall out of step; and no other arguments are accepted *)
Definition comma_number : number_obj := assign_all ascii_classes (cls_s ascii_classes) (match new_number ascii_classes (cls_s ascii_classes) (lit ".") [] [] with Ok o => o | Err _ => NumObj [] [] true None None end) [SetSep (lit "."); SetPoint (lit ",")].
Definition found_numbers (r : out nat) (s : pystr) : list pystr := match r with (h, Ok d) => map (fun i => zsub s (h_start h i) (h_stop h i)) (filter (fun i => match f_desc (n_f (nd h i)) with Some x => eqb_str x number_desc | None => false end) (seq 0 (length h))) | _ => [] end.
Theorem C93_setters_refuted : no_point comma_number = lit "," /\ no_sep comma_number = lit "." /\
  found_numbers (nlp_from_text ascii_classes (Some comma_number) false [] (lit "1.250,5")) (lit "1.250,5") = [lit "1.250"; lit "5"] /\
  found_numbers (from_text ascii_classes (number_rx ascii_classes (no_point comma_number) (no_sep comma_number) (no_optional comma_number)) false [] (lit "1.250,5")) (lit "1.250,5") = [lit "1.250,5"].
Proof. by_vm. Qed.
Theorem C93_kwargs_refuted : forall C sp lp ls v b, new_number C sp lp ls [SetPoint v] = Err AttributeError /\ new_number C sp lp ls [SetOptional b] = Err AttributeError.
Proof. intros. split; reflexivity. Qed.
(** chars: a text without digits is read as without it, no character nodes are made; one with numbers is not read *)
Lemma F2_det {A B} (R : A -> B -> Prop) l : (forall x y y', In x l -> R x y -> R x y' -> y = y') -> forall a b, Forall2 R l a -> Forall2 R l b -> a = b.
Proof.
  intros H a b F. revert b. induction F as [|x y l a Hx F IH]; intros b F'; inversion F' as [|? y' ? b' Hx' F'']; subst; [reflexivity|]. f_equal; [exact (H x y y' (or_introl eq_refl) Hx Hx')|]. apply IH; [|exact F'']. intros u v v' Hu. apply H. right. exact Hu.
Qed.
Lemma document_det C point sep optional text t t' : Forall (fun c => cls_d C c = false) text -> is_document C point sep optional text t -> is_document C point sep optional text t' -> t = t'.
Proof.
  intros F (ps & Fp & ->) (ps' & Fp' & ->). pose proof (zlen_nonneg text) as L. f_equal. refine (F2_det _ _ _ _ _ Fp Fp'). intros x p p' Hx (ss & Fs & ->) (ss' & Fs' & ->). f_equal.
  destruct (cutin C point sep optional text _ 0 (zlen text) x (NlpFacts.found_ordered _ text 0 (zlen text) L) Hx) as [B1 B2]. refine (F2_det _ _ _ _ _ Fs Fs'). intros y q q' Hy (ns & Fn & ->) (ns' & Fn' & ->). f_equal.
  destruct (cutin C point sep optional text _ (fst x) (snd x) y (NlpFacts.found_ordered _ text (fst x) (snd x) ltac:(lia)) Hy) as [B3 B4]. rewrite (no_digits C point sep optional text F) in Fn, Fn' by lia. inversion Fn; inversion Fn'; subst. reflexivity.
Qed.
Theorem C93_chars_partial : forall C point sep optional text, Forall (fun c => cls_d C c = false) text ->
  exists t, nlp_gives C point sep optional text t /\ gives_tree (fun h => from_text C (number_rx C point sep optional) true h text) t /\ outline text t.
Proof.
  intros C point sep optional text F. destruct (from_text_gives C point sep optional false text (or_introl eq_refl)) as (t & D & G). destruct (from_text_gives C point sep optional true text (or_intror (no_digits C point sep optional text F))) as (t' & D' & G').
  rewrite <- (document_det C point sep optional text t t' F D D') in G'. exists t. split; [exact G|]. split; [exact G'|]. exact (doc_outline C point sep optional text t D (gives_twf _ t G)).
Qed.
Theorem C93_chars_refuted : snd (from_text ascii_classes (number_rx ascii_classes (lit ".") (lit ",") true) true [] (lit "in 42 days")) = Err ValueError.
Proof. by_vm. Qed.
(** Paragraph: after any change of min_separators, the boundaries are the texts of that many empty lines *)
Theorem C93_paragraph : forall o n s i j, 0 <= i <= zlen s ->
  (exists c, In (j, c) (nways (po_re (set_least o n)) s (zlen s) i)) <-> exists u, empty_lines n u /\ written s (zlen s) i u /\ j = i + zlen u.
Proof. intros o n s i j Hi. exact (plain_para s n i j Hi). Qed.
Example C93_case : exists o, new_number ascii_classes (cls_s ascii_classes) (lit ".") [] [SetSep (lit "'")] = Ok o /\ no_sep o = lit "'" /\
  found_numbers (nlp_from_text ascii_classes (Some o) false [] (lit "1'250.5")) (lit "1'250.5") = [lit "1'250.5"].
Proof. eexists. split; [reflexivity|]. by_vm. Qed.

Print Assumptions C88_tree.
Print Assumptions C88_one.
Print Assumptions C89_tokens.
Print Assumptions C89_words.
Print Assumptions C89_outside.
Print Assumptions C90_paragraphs.
Print Assumptions C90_empty.
Print Assumptions C91_numbers.
Print Assumptions C91_longest.
Print Assumptions C91_all.
Print Assumptions C91_digits.
Print Assumptions C92_sentences.
Print Assumptions C93_number_partial.
Print Assumptions C93_kwargs_partial.
Print Assumptions C93_setters_partial.
Print Assumptions C93_setters_refuted.
Print Assumptions C93_kwargs_refuted.
Print Assumptions C93_chars_partial.
Print Assumptions C93_chars_refuted.
Print Assumptions C93_paragraph.
