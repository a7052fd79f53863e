(** Specification vocabulary for Nlp.v. *)
From Verif Require Export Nlp SpecXml.

(** ** the descriptors, characters and words the documentation of nlp.py lists, written out here again so that
    the statements do not rest on the constants of the model *)
Definition document_desc := lit "Document".
Definition paragraph_desc := lit "paragraph".
Definition sentence_desc := lit "sentence".
Definition word_desc := lit "word".
Definition number_desc := lit "number".
Definition sign_desc := lit "sign".
Definition integer_desc := lit "integer".
Definition decimal_desc := lit "decimal".
Definition exponent_desc := lit "exponent".
(** line feed, next line, line separator, paragraph separator *)
Definition end_chars : pystr := [10; 133; 8232; 8233].
(** tab, form feed, carriage return, space, no-break space; the spaces U+2000 to U+200B; U+202F, U+205F, U+3000 *)
Definition white_chars : pystr := [9; 12; 13; 32; 160] ++ map (fun k => 8192 + Z.of_nat k) (seq 0 12) ++ [8239; 8287; 12288].
(** a space of a sentence: CR LF, LF, or a white space character *)
Definition space_texts : list pystr := [13; 10] :: [10] :: map (fun c => [c]) white_chars.
(** apostrophe, grave and acute accent, U+2018 to U+201B, the heavy single marks *)
Definition quote_marks : pystr := lit "'`" ++ [180; 8216; 8217; 8218; 8219; 10075; 10076; 10079].
Definition double_marks : pystr := [34; 8220; 8221; 8222; 8223; 10077; 10078; 10080].
Definition opening_marks : pystr := quote_marks ++ double_marks ++ lit "([{".
Definition closing_marks : pystr := quote_marks ++ double_marks ++ lit ")]}".
Definition starters : list pystr := map lit ["A"; "How"; "In"; "It"; "The"; "There"; "This"; "What"; "When"; "Where"; "Who"; "Why"]%string.
Definition numeric_abbreviations : list pystr := map lit ["c."; "ca."; "ed."; "illus."; "no."; "p."; "pp."; "ver."; "vol."]%string.
Definition abbreviations : list pystr := map lit
  ["Ald."; "Asst."; "Dr."; "Drs."; "ed."; "e.g."; "Fr."; "Gov."; "Hon."; "ibid."; "i.e."; "illus."; "Insp."; "Messrs."; "Mlle."; "Mmes.";
   "Mr."; "Mrs."; "Ms."; "Msgr."; "Mt."; "pub."; "pseud."; "Pres."; "Prof."; "qtd."; "Rep."; "Reps."; "Rev."; "Sen."; "Sens."; "St.";
   "vis."; "v."; "vs."; "Lt."; "Capt."; "Cpt."; "Maj."; "Cmdr."; "Col."; "Brig."; "Gen."; "Adm."; "Pvt."; "Pfc."; "Spc."; "Cpl."; "Sgt."]%string.

(** ** numerals *)
(** the parts of a numeral: sign, integer, decimals, what comes before the sign of the exponent, that
    sign, the digits of the exponent *)
Record numeral := Num { nu_sign : pystr; nu_int : pystr; nu_dec : pystr; nu_mark : pystr; nu_esign : pystr; nu_exp : pystr }.
Definition nu_exponent (n : numeral) : pystr := nu_mark n ++ nu_esign n ++ nu_exp n.
Definition nu_text (n : numeral) : pystr := nu_sign n ++ nu_int n ++ nu_dec n ++ nu_exponent n.
Section Grammar.
  Variables (C : classes) (point sep : pystr) (optional : bool).
  Definition digits (u : pystr) : Prop := u <> [] /\ Forall (fun c => cls_d C c = true) u.
  (** groups of three digits, each behind a separator *)
  Inductive groups : pystr -> Prop :=
  | G_one u : digits u -> zlen u = 3 -> groups (sep ++ u)
  | G_more u v : digits u -> zlen u = 3 -> groups v -> groups (sep ++ u ++ v).
  Definition integer_text (u : pystr) : Prop :=
    (exists v g, u = v ++ g /\ digits v /\ zlen v <= 3 /\ groups g) \/ (optional = true /\ digits u).
  Definition decimal_text (u : pystr) : Prop := exists v, u = point ++ v /\ digits v.
  Definition sign_text (u : pystr) : Prop := u = lit "-" \/ u = lit "+".
  Definition space_opt (u : pystr) : Prop := u = [] \/ u = lit " ".
  (** E, or x10^ with optional spaces *)
  Definition mark_text (u : pystr) : Prop :=
    u = lit "E" \/ u = lit "e" \/
    exists p x q r, u = p ++ x ++ q ++ lit "10^" ++ r /\ space_opt p /\ space_opt q /\ space_opt r /\ (x = lit "X" \/ x = lit "x" \/ x = [10005]).
  Definition numeral_ok (n : numeral) : Prop :=
    (nu_sign n = [] \/ sign_text (nu_sign n)) /\
    ((integer_text (nu_int n) /\ (nu_dec n = [] \/ decimal_text (nu_dec n))) \/ (nu_int n = [] /\ decimal_text (nu_dec n))) /\
    ((nu_mark n = [] /\ nu_esign n = [] /\ nu_exp n = []) \/
     (mark_text (nu_mark n) /\ (nu_esign n = [] \/ sign_text (nu_esign n)) /\ digits (nu_exp n))).
End Grammar.
(** a part of the text, when not empty *)
Definition part_at (s : pystr) (a b : Z) (d : pystr) (ks : list tree) : list tree := if a <? b then [at_ s a b d ks] else [].
(** the tree of the numeral n at position a of s *)
Definition num_tree (s : pystr) (a : Z) (n : numeral) : tree :=
  let i := a + zlen (nu_sign n) in
  let d := i + zlen (nu_int n) in
  let e := d + zlen (nu_dec n) in
  let x := e + zlen (nu_mark n) in
  let b := e + zlen (nu_exponent n) in
  at_ s a b number_desc
    (part_at s a i sign_desc [] ++ part_at s i d integer_desc [] ++ part_at s d e decimal_desc [] ++
     part_at s e b exponent_desc (part_at s x (x + zlen (nu_esign n)) sign_desc [])).

(** ** the nodes of a tree *)
Fixpoint all_nodes (t : tree) : list tree := let (_, ts) := t in t :: flat_map all_nodes ts.
Definition desc_is (d : pystr) (t : tree) : bool := match f_desc (t_f t) with Some x => eqb_str x d | None => false end.
(** the nodes with the descriptor d, from left to right *)
Definition with_desc (d : pystr) (t : tree) : list tree := filter (desc_is d) (all_nodes t).
(** the words and numbers *)
Definition all_tokens (t : tree) : list tree := filter (fun u => desc_is word_desc u || desc_is number_desc u) (all_nodes t).
(** position k is in the Ito u *)
Definition takes_in (u : tree) (k : Z) : Prop := t_start u <= k < t_stop u.
(** the text u stands at position i of s, before e *)
Definition written (s : pystr) (e i : Z) (u : pystr) : Prop := 0 <= i /\ i + zlen u <= e /\ zsub s i (i + zlen u) = u.
(** the character classes of the regex module, as far as needed: white space is not \w, digits are *)
Definition sane (C : classes) : Prop :=
  (forall c, In c (white_chars ++ end_chars) -> cls_w C c = false) /\ (forall c, cls_d C c = true -> cls_w C c = true).
(** the marks of numerals *)
Definition exp_marks : pystr := lit "EeXx " ++ [10005].
Definition sane_marks (C : classes) (point sep : pystr) : Prop :=
  exists p pr q qr, point = p :: pr /\ sep = q :: qr /\ (forall c, In c ([p; q] ++ lit "-+" ++ exp_marks) -> cls_d C c = false) /\
    ~ In p (q :: lit "-+" ++ exp_marks) /\ ~ In q exp_marks.
(** ** words: characters of the class \w, a quotation mark or a hyphen (and spaces) between them *)
Section Words.
  Variable C : classes.
  Definition joint (j : pystr) : Prop :=
    j = [] \/ (exists q, In q quote_marks /\ j = [q]) \/ (exists sp, Forall (fun c => cls_s C c = true) sp /\ j = lit "-" ++ sp).
  Inductive word_text : pystr -> Prop :=
  | WT_one c : cls_w C c = true -> word_text [c]
  | WT_more u j c : word_text u -> joint j -> cls_w C c = true -> word_text (u ++ j ++ [c]).
End Words.
(** ** paragraphs: white space and a line end *)
Definition empty_line (u : pystr) : Prop := exists w c, u = w ++ [c] /\ Forall (fun x => In x white_chars) w /\ In c end_chars.
(** at least n of them *)
Definition empty_lines (n : nat) (u : pystr) : Prop := exists ls, (n <= length ls)%nat /\ u = concat ls /\ Forall empty_line ls.
(** ** sentences *)
(** . or ... (three or more) or the ellipsis, or exclamation and question marks *)
Definition terminator_text (u : pystr) : Prop :=
  u = lit "." \/ (exists n, (3 <= n)%nat /\ u = repeat 46 n) \/ u = [8230] \/ (u <> [] /\ Forall (fun c => In c (lit "!?")) u).
(** the text up to position i ends with a word character, a terminator and closing marks *)
Definition sentence_ends (C : classes) (s : pystr) (i : Z) : Prop :=
  exists c u v, cls_w C c = true /\ terminator_text u /\ Forall (fun x => In x closing_marks) v /\ written s i (i - zlen (c :: u ++ v)) (c :: u ++ v).
(** the text up to position i ends with u *)
Definition ends_in (s : pystr) (i : Z) (u : pystr) : Prop := written s i (i - zlen u) u.
Definition capital (c : Z) : Prop := 65 <= c <= 90.
Definition small (c : Z) : Prop := 97 <= c <= 122.
Definition space (u : pystr) : Prop := In u space_texts.
Definition opening (p : pystr) : Prop := Forall (fun x => In x opening_marks) p.
(** where the catch-all rule does not break, although white space and a capital or a digit follow: after an
    abbreviation; after one that a number follows (p. 3); after an initial within a name (John Q. Public);
    after U.S. before Government *)
Definition excepted (C : classes) (s : pystr) (e i : Z) : Prop :=
  (exists a, In a abbreviations /\ ends_in s i a) \/
  (exists a u d, In a numeric_abbreviations /\ ends_in s i a /\ space u /\ cls_d C d = true /\ written s e i (u ++ [d])) \/
  (exists c r u d u' c' d', capital c /\ r <> [] /\ Forall small r /\ space u /\ capital d /\ ends_in s i (c :: r ++ u ++ [d; 46]) /\
     space u' /\ capital c' /\ small d' /\ written s e i (u' ++ [c'; d'])) \/
  (exists u, ends_in s i (lit "U.S.") /\ space u /\ written s e i (u ++ lit "Government")).
(** a sentence of the paragraph that ends at e ends at i: a word character, a terminator and closing marks
    before; behind, either the end of the paragraph (white space aside), or white space twice, or white
    space and a word that often begins a sentence, or white space and a capital or digit, without exception *)
Definition break_at (C : classes) (s : pystr) (e i : Z) : Prop :=
  sentence_ends C s i /\
  ((exists us, Forall space us /\ written s e i (concat us) /\ i + zlen (concat us) = e) \/
   (exists u v, space u /\ space v /\ written s e i (u ++ v)) \/
   (exists u p w v, space u /\ opening p /\ In w starters /\ space v /\ written s e i (u ++ p ++ w ++ v)) \/
   (exists u p c, space u /\ opening p /\ (capital c \/ cls_d C c = true) /\ written s e i (u ++ p ++ [c]) /\ ~ excepted C s e i)).
(** ** a text from a to b laid out in parts: each part goes on to the first place where it can break; what the
    rules for separators say is skipped there *)
Section Laid.
  Variables (brk : Z -> Prop) (skip : Z -> Z -> Prop) (b : Z).
  Inductive laid : Z -> list tree -> Prop :=
  | L_done : laid b []
  | L_last a q : t_start q = a -> t_stop q = b -> a < b -> (forall i, a <= i < b -> ~ brk i) -> laid a [q]
  | L_next a q j r : t_start q = a -> a < t_stop q -> (forall i, a <= i < t_stop q -> ~ brk i) -> brk (t_stop q) -> skip (t_stop q) j -> laid j r -> laid a (q :: r).
End Laid.
(** paragraphs: two empty lines begin at i; all empty lines from i on, to j *)
Definition lines_at (s : pystr) (i : Z) : Prop := exists u, empty_lines 2 u /\ written s (zlen s) i u.
Definition lines_over (s : pystr) (i j : Z) : Prop :=
  exists u, empty_lines 2 u /\ written s (zlen s) i u /\ j = i + zlen u /\ ~ exists v, empty_line v /\ written s (zlen s) j v.
Definition paragraphs_of (s : pystr) (ps : list tree) : Prop :=
  exists a, (a = 0 /\ ~ lines_at s 0 \/ lines_at s 0 /\ lines_over s 0 a) /\ laid (lines_at s) (lines_over s) (zlen s) a ps.
(** sentences: white space from i to j *)
Definition spaces_over (s : pystr) (e i j : Z) : Prop :=
  exists us, Forall space us /\ written s e i (concat us) /\ j = i + zlen (concat us) /\ (us = [] -> i = e).
Definition sentences_of (C : classes) (s : pystr) (p : tree) : Prop :=
  laid (break_at C s (t_stop p)) (spaces_over s (t_stop p)) (t_stop p) (t_start p) (t_kids p).
(** ** the nodes of a document *)
Definition paragraphs (t : tree) : list tree := with_desc paragraph_desc t.
Definition sentences (t : tree) : list tree := with_desc sentence_desc t.
Definition word_nodes (t : tree) : list tree := with_desc word_desc t.
Definition numbers (t : tree) : list tree := with_desc number_desc t.
(** a document over the text s: paragraphs, in them sentences, in these words and numbers; words have no
    children *)
Definition outline (s : pystr) (t : tree) : Prop :=
  t_f t = FI s 0 (zlen s) (Some document_desc) None /\ twf t /\
  Forall (fun p => desc_is paragraph_desc p = true /\
    Forall (fun q => desc_is sentence_desc q = true /\
      Forall (fun u => desc_is word_desc u = true /\ t_kids u = [] \/ desc_is number_desc u = true) (t_kids q)) (t_kids p)) (t_kids t).
