(** Model of pawpaw/table/table.py and table/styles/styles.py: the regular expression a StyledTable
    builds from a TableStyle, and its itorator. *)
From Verif Require Export Xml SpecArbor Nlp.

(** -- regular expressions with lazy repetition and references ------------------------------------
    (a third-party module, modelled as far as table.py uses it; the engine of Nlp.v has neither) *)
Inductive trx :=
| ZCls (p : Z -> bool)                                         (* one character of a class *)
| ZStr (l : pystr)                                             (* a literal *)
| ZSeq (a b : trx)
| ZAlt (a b : trx)
| ZRep (greedy : bool) (least : nat) (most : option nat) (a : trx)  (* a{least,most}, a{least,most}? *)
| ZGrp (k : pystr) (a : trx)                                   (* (?P<k>a) *)
| ZRef (k : pystr)                                             (* (?P=k) *)
| ZAhead (a : trx)                                             (* (?=a) *)
| ZLine                                                        (* (?<=^|\n) *)
| ZEnd.                                                        (* $ without MULTILINE *)
(** where the matcher is, with the groups captured so far (latest last) *)
Definition state := (Z * list (pystr * span))%type.
(** the text captured last by group k *)
Definition last_span (k : pystr) (c : list (pystr * span)) : option span :=
  match rev (named_spans k c) with x :: _ => Some x | [] => None end.
(** repetition, as often as possible first or as rarely as possible first.  (A round that matches
    nothing is left out: the patterns here repeat none that can.) *)
Fixpoint zrep (greedy : bool) (f : state -> list state) (fuel least : nat) (most : option nat) (x : state) : list state :=
  match fuel with
  | O => []
  | S n =>
    let more := match most with
                | Some O => []
                | _ => flat_map (zrep greedy f n (pred least) (option_map pred most)) (filter (fun y => fst x <? fst y) (f x))
                end in
    let stop := match least with O => [x] | S _ => [] end in
    if greedy then more ++ stop else stop ++ more
  end.
(** the ways to match r from a state on, in the string s taken to end at e, in the order in which the
    engine tries them; groups captured in a look-ahead are left out (there are none) *)
Fixpoint zways (r : trx) (s : pystr) (e : Z) (x : state) : list state :=
  match r with
  | ZCls p => if char_is p s e (fst x) then [(fst x + 1, snd x)] else []
  | ZStr l => if str_at l s e (fst x) then [(fst x + zlen l, snd x)] else []
  | ZSeq a b => flat_map (zways b s e) (zways a s e x)
  | ZAlt a b => zways a s e x ++ zways b s e x
  | ZRep g least most a => zrep g (zways a s e) (S (Z.to_nat (e - fst x))) least most x
  | ZGrp k a => map (fun y => (fst y, snd y ++ [(k, (fst x, fst y))])) (zways a s e x)
  | ZRef k => match last_span k (snd x) with
              | Some (a, b) => if str_at (zsub s a b) s e (fst x) then [(fst x + (b - a), snd x)] else []
              | None => []
              end
  | ZAhead a => match zways a s e x with [] => [] | _ :: _ => [x] end
  | ZLine => if (fst x =? 0) || char_is (Z.eqb 10) s e (fst x - 1) && (0 <? fst x) then [x] else []
  | ZEnd => if (fst x =? e) || ((fst x + 1 =? e) && char_is (Z.eqb 10) s e (fst x)) then [x] else []
  end.
(** the matches finditer finds: leftmost first, the next one searched from where the last one ended
    (one further when it was empty) *)
Fixpoint zfind (fuel : nat) (r : trx) (s : pystr) (e i : Z) : list (span * list (pystr * span)) :=
  match fuel with
  | O => []
  | S n =>
    if e <? i then []
    else match zways r s e (i, []) with
         | w :: _ => ((i, fst w), snd w) :: zfind n r s e (if i <? fst w then fst w else i + 1)
         | [] => zfind n r s e (i + 1)
         end
  end.
Definition zfound (r : trx) (s : pystr) (a b : Z) : list (span * list (pystr * span)) := zfind (S (S (Z.to_nat (b - a)))) r s b a.
(** ito.py:944-956  regex_finditer: re.finditer(string, pos=start, endpos=stop) *)
Definition zfinditer (re : pattern) (r : trx) (s : pystr) (a b : Z) : list rmatch := map (to_match re s) (zfound r s a b).
Definition ZSeqs (l : list trx) : trx := fold_right ZSeq (ZStr []) l.
Definition ZOpt := ZRep true 0 (Some 1%nat).
Definition ZStar := ZRep true 0 None.
Definition ZPlus := ZRep true 1 None.
(** +? *)
Definition ZPlusL := ZRep false 1 None.
(** . with DOTALL *)
Definition ZAny := ZCls (fun _ => true).

(** -- table.py ---------------------------------------------------------------------------------------- *)
Definition t_table := lit "table".
Definition t_indent := lit "indent".
Definition t_pre := lit "pre_caption".
Definition t_header := lit "header_row".
Definition t_row := lit "row".
Definition t_post := lit "post_caption".
Definition t_chunk := lit "chunk".
(** table.py:19-27  TableStyle.  The patterns are taken as parsed, each one put into the whole as if in
    parentheses (table.py:48-66 inserts the text as it is: a pattern with | outside parentheses
    is not covered). *)
Record style := Style { st_pre : option trx; st_start : trx; st_header : option trx; st_sep : trx; st_end : option trx; st_post : option trx; st_equi : bool }.
(** table.py:32  _pat_indent *)
Definition indent_rx : trx := ZStar (ZCls (among [32; 9])).
Definition nl_rx : trx := ZStr [10].
(** (?=$|\n) *)
Definition eol_rx : trx := ZAhead (ZAlt ZEnd nl_rx).
(** table.py:35-68  _build_re (with DOTALL).  Line 40 replaces the look-behind of line 37: re = ..., not re += ... *)
Definition build_rx (st : style) : trx :=
  let ind := if st_equi st then ZRef t_indent else ZStr [] in
  let below a := ZSeq nl_rx (ZSeq ind a) in
  let row := ZGrp t_row (ZPlusL ZAny) in
  let opt o f := match o with Some r => f r | None => ZStr [] end in
  ZSeqs [ if st_equi st then ZGrp t_indent indent_rx else ZLine;
          ZGrp t_table (ZSeqs [
            opt (st_pre st) (fun r => ZOpt (ZSeq (ZGrp t_pre r) (ZSeq nl_rx ind)));
            st_start st;
            opt (st_header st) (fun r => ZOpt (ZSeq (below (ZGrp t_header (ZPlusL ZAny))) (below r)));
            match st_end st with
            | None => ZPlus (ZSeq (below row) (below (st_sep st)))
            | Some r => ZSeqs [ZStar (ZSeq (below row) (below (st_sep st))); below row; below r]
            end;
            opt (st_post st) (fun r => ZSeq (below (ZGrp t_post r)) eol_rx) ]);
          eol_rx ].
(** the groups of that expression, in the order in which they open (the patterns of the style have none) *)
Definition style_names (st : style) : list pystr :=
  let opt {A} (o : option A) n := match o with Some _ => [n] | None => [] end in
  (if st_equi st then [t_indent] else []) ++ [t_table] ++ opt (st_pre st) t_pre ++ opt (st_header st) t_header ++ [t_row] ++ opt (st_post st) t_post.
Definition named_re (names : list pystr) : pattern := RE (length names) (combine names (seq 1 (length names))).
Definition style_re (st : style) : pattern := named_re (style_names st).
(** table.py:80  the group_filter of get_itor *)
Definition table_keys : gfilter := GFPred (fun _ k => match k with KStr n => existsb (eqb_str n) [t_pre; t_table; t_header; t_row; t_post] | KInt _ => false end).
(** table.py:80  itor_table *)
Definition table_itor (st : style) : itorator :=
  Itor (TExtract (style_re st) (zfinditer (style_re st) (build_rx st)) None (Some default_desc) table_keys) [] PostNone.
(** table.py:33  _re_equi_ident (with DOTALL) *)
Definition not_blank (c : Z) : bool := negb (among [32; 9] c).
Definition not_nl (c : Z) : bool := negb (c =? 10).
Definition chunk_rx : trx :=
  ZSeq ZLine (ZGrp t_chunk (ZSeqs [
    ZGrp t_indent indent_rx; ZCls not_blank; ZPlusL (ZCls not_nl); nl_rx;
    ZPlus (ZSeqs [ZRef t_indent; ZCls not_blank; ZPlusL (ZCls not_nl); ZAlt nl_rx ZEnd])])).
Definition chunk_re : pattern := named_re [t_chunk; t_indent].
(** table.py:79-87  get_itor: 0 is what it returns *)
Definition table_prog (st : style) : prog := fun t =>
  match t with
  | O => if st_equi st
         then Itor (TExtract chunk_re (zfinditer chunk_re chunk_rx) None (Some default_desc) (GFKeys [KStr t_chunk])) [Con Delegate (PDesc t_chunk) 1] PostNone
         else table_itor st
  | S _ => table_itor st
  end.
(** [*StyledTable(style).get_itor()(ito)] *)
Definition find_tables (st : style) (h : heap) (i : nat) : heap * gen nat := drain (call 3 (table_prog st) 0 i) h.

(** -- styles.py ---------------------------------------------------------------------------------------- *)
(** styles.py:28  (?:-{2,}(?:\+-+)+) *)
Definition dash_rx : trx := ZStr (lit "-").
Definition rule_rx : trx := ZSeq (ZRep true 2 None dash_rx) (ZPlus (ZSeq (ZStr (lit "+")) (ZPlus dash_rx))).
(** styles.py:28-33  TYPE_1 *)
Definition type_1 : style := Style None rule_rx None rule_rx None None false.
(** styles.py:47-53  TYPE_2: -{2,} above and below, \|(?:-+\|)+ between *)
Definition edge_rx : trx := ZRep true 2 None dash_rx.
Definition bar_rx : trx := ZSeq (ZStr (lit "|")) (ZPlus (ZSeq (ZPlus dash_rx) (ZStr (lit "|")))).
Definition type_2 : style := Style None edge_rx None bar_rx (Some edge_rx) None true.
