(** Model of pawpaw/nlp/nlp.py: the regular expressions of Paragraph, Sentence, Number and SimpleNlp,
    and the pipeline they are put into.
    The character classes \w, \d, \s of the regex module are arguments. *)
From Verif Require Export Xml SpecArbor.

(** -- regular expressions with look-around ------------------------------------------------
    (a third-party module, modelled as far as the patterns of nlp.py use it; the engine of Xml.v
    has no counted repetition and cannot look back) *)
Inductive nrx :=
| NCls (p : Z -> bool)                                (* one character of a class *)
| NStr (l : pystr)                                    (* a literal *)
| NSet (ls : list pystr)                              (* \L<name>: one of the strings of a list *)
| NSeq (a b : nrx)
| NAlt (a b : nrx)
| NRep (least : nat) (most : option nat) (a : nrx)    (* a{least,most}, greedy; a+ is a{1,}, a? is a{0,1} *)
| NGrp (k : pystr) (a : nrx)                          (* (?P<k>a) *)
| NAhead (a : nrx)                                    (* (?=a) *)
| NBehind (want : bool) (a : nrx)                     (* (?<=a) when want, else (?<!a) *)
| NEnd.                                               (* $ without MULTILINE *)
(** where a way to match ends, with the groups it captured *)
Definition way := (Z * list (pystr * span))%type.
Definition then_ (ws : list way) (f : Z -> list way) : list way :=
  flat_map (fun w => map (fun v => (fst v, snd w ++ snd v)) (f (fst w))) ws.
(** the character at i, in the text that ends at e *)
Definition char_is (p : Z -> bool) (s : pystr) (e i : Z) : bool :=
  (i <? e) && match nth_error s (Z.to_nat i) with Some c => p c | None => false end.
(** s has l at i, before e *)
Definition str_at (l s : pystr) (e i : Z) : bool := (i + zlen l <=? e) && eqb_str (zsub s i (i + zlen l)) l.
(** repetition: as often as possible first.  (A round that matches nothing is left out: the
    patterns here repeat none that can.) *)
Fixpoint rep_ways (f : Z -> list way) (fuel least : nat) (most : option nat) (i : Z) : list way :=
  match fuel with
  | O => []
  | S n =>
    match most with
    | Some O => []
    | _ => then_ (filter (fun w => i <? fst w) (f i)) (rep_ways f n (pred least) (option_map pred most))
    end ++ match least with O => [(i, [])] | S _ => [] end
  end.
(** the ways to match r at position i of s, as if s ended at e, in the order in which the engine
    tries them.  A list of strings is tried in the order written (that order is of no
    consequence for what is proved).  Groups captured by a look-around are left out: the one such
    group, in Sentence, has no name and is never asked for. *)
Fixpoint nways (r : nrx) (s : pystr) (e i : Z) : list way :=
  match r with
  | NCls p => if char_is p s e i then [(i + 1, [])] else []
  | NStr l => if str_at l s e i then [(i + zlen l, [])] else []
  | NSet ls => flat_map (fun l => if str_at l s e i then [(i + zlen l, [])] else []) ls
  | NSeq a b => then_ (nways a s e i) (nways b s e)
  | NAlt a b => nways a s e i ++ nways b s e i
  | NRep least most a => rep_ways (nways a s e) (S (Z.to_nat (e - i))) least most i
  | NGrp k a => map (fun w => (fst w, snd w ++ [(k, (i, fst w))])) (nways a s e i)
  | NAhead a => match nways a s e i with [] => [] | _ :: _ => [(i, [])] end
  | NBehind want a =>
    let found := existsb (fun j => existsb (fun w => fst w =? i) (nways a s e (Z.of_nat j))) (seq 0 (S (Z.to_nat i))) in
    if eqb found want then [(i, [])] else []
  | NEnd => if (i =? e) || ((i + 1 =? e) && char_is (Z.eqb 10) s e i) then [(i, [])] else []
  end.
(** the matches finditer finds: leftmost first, the next one searched from where the last one ended,
    one further when it was empty.  (Sentence can match the empty string, at the end only, where
    the search is over anyway.) *)
Fixpoint nfind (fuel : nat) (r : nrx) (s : pystr) (e i : Z) : list (span * list (pystr * span)) :=
  match fuel with
  | O => []
  | S n =>
    if e <? i then []
    else match nways r s e i with
         | w :: _ => ((i, fst w), snd w) :: nfind n r s e (if i <? fst w then fst w else i + 1)
         | [] => nfind n r s e (i + 1)
         end
  end.
Definition found (r : nrx) (s : pystr) (a b : Z) : list (span * list (pystr * span)) := nfind (S (S (Z.to_nat (b - a)))) r s b a.
(** ito.py:944-952  regex_finditer: re.finditer(string, pos=start, endpos=stop) *)
Definition nfinditer (re : pattern) (r : nrx) (s : pystr) (a b : Z) : list rmatch := map (to_match re s) (found r s a b).

Definition NOpt := NRep 0 (Some 1%nat).
Definition NPlus := NRep 1 None.
Definition NStar := NRep 0 None.
Definition NSeqs (l : list nrx) : nrx := fold_right NSeq (NStr []) l.
Definition NAlts (l : list nrx) : nrx := fold_right NAlt (NSet []) l.
Definition NChars (l : pystr) : nrx := NSet (map (fun c => [c]) l).

(** -- characters and words ------------------------------------------------------------------ *)
(** the classes \w, \d, \s *)
Record classes := Classes { cls_w : Z -> bool; cls_d : Z -> bool; cls_s : Z -> bool }.
Definition among (cs : pystr) (c : Z) : bool := existsb (Z.eqb c) cs.
Definition range (a b c : Z) : bool := (a <=? c) && (c <=? b).
Definition upper_az : Z -> bool := range 65 90.
Definition lower_az : Z -> bool := range 97 122.
(** nlp.py:10-13  byte_order_controls *)
Definition bom_chars : pystr := [65279; 65534].
(** nlp.py:15-20  unicode_white_space_eol *)
Definition eol_chars : pystr := [10; 133; 8232; 8233].
(** nlp.py:22-47  unicode_white_space_other *)
Definition ws_chars : pystr := [9; 12; 13; 32; 160; 8192; 8193; 8194; 8195; 8196; 8197; 8198; 8199; 8200; 8201; 8202; 8203; 8239; 8287; 12288].
(** nlp.py:49-64  unicode_single_quote_marks *)
Definition single_quotes : pystr := [39; 96; 180; 8216; 8217; 8218; 8219; 10075; 10076; 10079].
(** nlp.py:66-79  unicode_double_quote_marks *)
Definition double_quotes : pystr := [34; 8220; 8221; 8222; 8223; 10077; 10078; 10080].
(** nlp.py:105-107  trimmable_ws *)
Definition trimmable_ws : pystr := bom_chars ++ eol_chars ++ ws_chars.

Definition n_number := lit "number".
Definition n_sign := lit "sign".
Definition n_integer := lit "integer".
Definition n_decimal := lit "decimal".
Definition n_exponent := lit "exponent".
Definition n_word := lit "word".
Definition n_char := lit "char".
Definition n_paragraph := lit "paragraph".
Definition n_sentence := lit "sentence".
Definition n_document := lit "Document".

Section Patterns.
  Variable C : classes.
  Let w := NCls (cls_w C).
  Let d := NCls (cls_d C).

  (** nlp.py:257-258  Paragraph._build_re, min_separators given; the separators are
      unicode_white_space_eol (254; the setter of separators always raises) *)
  Definition para_rx (least : nat) : nrx := NRep least None (NSeq (NStar (NCls (among ws_chars))) (NChars eol_chars)).

  (** nlp.py:122-125  _sign_pat, _sci_exp_pat *)
  Definition sign_rx : nrx := NGrp n_sign (NCls (among (lit "-+"))).
  Definition exp_e_rx : nrx := NSeqs [NCls (among (lit "Ee")); NOpt sign_rx; NPlus d].
  Definition exp_x10_rx : nrx :=
    NSeqs [NOpt (NStr (lit " ")); NCls (among (lit "Xx" ++ [10005])); NOpt (NStr (lit " ")); NStr (lit "10^"); NOpt (NStr (lit " ")); NOpt sign_rx; NPlus d].
  Definition exponent_rx : nrx := NGrp n_exponent (NAlt exp_e_rx exp_x10_rx).
  (** nlp.py:127-132  build_integer_pat *)
  Definition integer_rx (sep : pystr) (optional : bool) : nrx :=
    let grouped := NSeq (NRep 1 (Some 3%nat) d) (NPlus (NSeq (NStr sep) (NRep 3 (Some 3%nat) d))) in
    NGrp n_integer (if optional then NAlt grouped (NPlus d) else grouped).
  (** nlp.py:134-135  build_decimal_pat *)
  Definition decimal_rx (point : pystr) : nrx := NGrp n_decimal (NSeq (NStr point) (NPlus d)).
  (** nlp.py:137-143  build_num_pat_re *)
  Definition number_rx (point sep : pystr) (optional : bool) : nrx :=
    NGrp n_number (NSeqs [NOpt sign_rx;
                          NAlt (NSeq (integer_rx sep optional) (NOpt (decimal_rx point))) (decimal_rx point);
                          NOpt exponent_rx]).

  (** nlp.py:315-317, 326-328  the prefix and suffix characters of sentences *)
  Definition prefix_chars : pystr := single_quotes ++ double_quotes ++ lit "([{".
  Definition suffix_chars : pystr := single_quotes ++ double_quotes ++ lit ")]}".
  (** nlp.py:319-324  _terminators *)
  Definition terminators : nrx :=
    NAlts [NStr (lit "."); NRep 3 None (NStr (lit ".")); NStr [8230]; NPlus (NCls (among (lit "!?")))].
  (** nlp.py:331-344  _hf_start_words *)
  Definition hf_starts : list pystr := map lit ["A"; "How"; "In"; "It"; "The"; "There"; "This"; "What"; "When"; "Where"; "Who"; "Why"]%string.
  (** nlp.py:347-357  _numeric_abbrs *)
  Definition num_abbrs : list pystr := map lit ["c."; "ca."; "ed."; "illus."; "no."; "p."; "pp."; "ver."; "vol."]%string.
  (** nlp.py:360-422  _ignores *)
  Definition ignores : list pystr := map lit
    ["Ald."; "Asst."; "Dr."; "Drs."; "ed."; "e.g."; "Fr."; "Gov."; "Hon."; "ibid."; "i.e."; "illus."; "Insp."; "Messrs."; "Mlle."; "Mmes."; "Mr."; "Mrs."; "Ms."; "Msgr."; "Mt."; "pub."; "pseud."; "Pres."; "Prof."; "qtd."; "Rep."; "Reps."; "Rev."; "Sen."; "Sens."; "St."; "vis."; "v."; "vs.";
     "Lt."; "Capt."; "Cpt."; "Maj."; "Cmdr."; "Col."; "Brig."; "Gen."; "Adm.";
     "Pvt."; "Pfc."; "Spc."; "Cpl."; "Sgt."]%string.
  (** nlp.py:424-425  _sen_ws *)
  Definition sen_ws : list pystr := [[13; 10]; [10]] ++ map (fun c => [c]) ws_chars.
  (** nlp.py:427-432  _exceptions *)
  Definition exceptions : list nrx :=
    [NBehind false (NSet ignores);
     NBehind false (NSeq (NSet num_abbrs) (NAhead (NSeq (NSet sen_ws) d)));
     NBehind false (NSeqs [NCls upper_az; NPlus (NCls lower_az); NSet sen_ws; NCls upper_az; NStr (lit ".");
                           NAhead (NSeqs [NSet sen_ws; NCls upper_az; NPlus (NCls lower_az)])]);
     NBehind false (NSeq (NStr (lit "U.S.")) (NAhead (NSeq (NSet sen_ws) (NStr (lit "Government")))))].
  (** nlp.py:434-449  _rules *)
  Definition rules : list nrx :=
    [NSeq (NStar (NSet sen_ws)) NEnd;
     NRep 2 None (NSet sen_ws);
     NSeq (NSet sen_ws) (NAhead (NSeqs [NStar (NChars prefix_chars); NSet hf_starts; NSet sen_ws]));
     NSeqs (exceptions ++ [NSet sen_ws; NAhead (NSeq (NStar (NChars prefix_chars)) (NCls (fun c => upper_az c || cls_d C c)))])].
  (** nlp.py:451-462  Sentence._re *)
  Definition sentence_rx : nrx :=
    NSeq (NBehind true (NSeqs [w; terminators; NStar (NChars suffix_chars)])) (NAlts rules).

  (** nlp.py:473, 488-490  the word pattern of SimpleNlp *)
  Definition word_rx : nrx :=
    NGrp n_word (NSeq w (NStar (NSeq (NOpt (NAlt (NChars single_quotes) (NSeq (NStr (lit "-")) (NStar (NCls (cls_s C)))))) w))).
  (** nlp.py:495 *)
  Definition char_rx : nrx := NGrp n_char w.
End Patterns.

(** the compiled patterns: groups and their names (a name used twice is one group) *)
Definition re_para : pattern := RE 0 [].
Definition re_sentence : pattern := RE 1 [].
Definition re_number : pattern := RE 5 [(n_number, 1%nat); (n_sign, 2%nat); (n_integer, 3%nat); (n_decimal, 4%nat); (n_exponent, 5%nat)].
Definition re_word : pattern := RE 1 [(n_word, 1%nat)].
Definition re_char : pattern := RE 1 [(n_char, 1%nat)].

(** -- the pipeline ------------------------------------------------------------------------------ *)
(** split.py:72-78  the Extract that Split makes of a regex *)
Definition split_itor (re : pattern) (r : nrx) : itorator :=
  Itor (TExtract re (nfinditer re r) None (Some (fun _ _ => None)) (GFPred (fun _ k => match k with KInt 0 => true | _ => false end))) [] PostNone.
(** extract.py:13-20  Extract(re) *)
Definition extract_itor (re : pattern) (r : nrx) : itorator :=
  Itor (TExtract re (nfinditer re r) None (Some default_desc) default_filter) [] PostNone.
Definition always : cpred := PFun (fun _ _ => Ok true).
Definition no_desc : cpred := PFun (fun h i => Ok (match f_desc (n_f (nd h i)) with None => true | Some _ => false end)).
(** nlp.py:475-499  SimpleNlp.__init__: 0 is the itorator of Paragraph (299-302), 2 that of Sentence
    (468-469), 4 that of Number (218-223), 6 words, 7 characters.  [num] is the regex of the
    argument number. *)
Definition nlp_prog (C : classes) (num : nrx) (chars : bool) : prog := fun t =>
  match t with
  | 0%nat => Itor (TSplit 1 None RNone true (Some n_paragraph)) [Con CAdd always 2] PostNone
  | 1%nat => split_itor re_para (para_rx 2)
  | 2%nat => Itor (TSplit 3 None RNone true (Some n_sentence)) [Con CAdd always 4] PostNone
  | 3%nat => split_itor re_sentence (sentence_rx C)
  | 4%nat => Itor (TSplit 5 None RAll true None) (Con Delegate no_desc 6 :: if chars then [Con CAdd always 7] else []) PostNone
  | 5%nat => extract_itor re_number num
  | 6%nat => extract_itor re_word (word_rx C)
  | _ => extract_itor re_char (char_rx C)
  end.
(** nlp.py:505-508  SimpleNlp.from_text; no itorator calls itself, so that a depth of 6 suffices *)
Definition from_text (C : classes) (num : nrx) (chars : bool) (h : heap) (text : pystr) : out nat :=
  obind (new_str h text None None (Some n_document)) (fun h1 doc =>
    match drain (call 6 (nlp_prog C num chars) 0 doc) h1 with
    | (h2, (l, None)) => obind (kids_add h2 doc l) (fun h3 _ => (h3, Ok doc))
    | (h2, (_, Some e)) => (h2, Err e)
    end).
