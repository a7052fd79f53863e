[
 {
  "file": "ItoStr",
  "def": "getitem_tail",
  "old": "(f_start i =? fst sp) && (f_stop i =? snd sp)",
  "new": "(f_start i =? fst sp)",
  "edit": "a prefix slice returns the whole Ito",
  "claim": "C04 slicing"
 },
 {
  "file": "ItoStr",
  "def": "getitem_int",
  "old": "(0 <=? key) && (key <? ito_len i)",
  "new": "(0 <=? key) && (key <=? ito_len i)",
  "edit": "index len accepted",
  "claim": "C05 int indexing"
 },
 {
  "file": "ItoStr",
  "def": "getitem_int",
  "old": "(- ito_len i <=? key) && (key <? 0)",
  "new": "(- ito_len i <? key) && (key <? 0)",
  "edit": "index -len refused",
  "claim": "C05 int indexing"
 },
 {
  "file": "ItoStr",
  "def": "str_count",
  "old": "Ok (py_count (f_str i) sub (Some (fst w)) (Some (snd w)))",
  "new": "Ok (py_count (f_str i) sub (Some (fst w)) None)",
  "edit": "counts beyond the Ito",
  "claim": "C06 count"
 },
 {
  "file": "ItoStr",
  "def": "str_index",
  "old": "do rv <- py_index_of (f_str i) sub (Some (fst w)) (Some (snd w));\n  Ok (rv - f_start i)",
  "new": "do rv <- py_index_of (f_str i) sub (Some (fst w)) (Some (snd w));\n  Ok rv",
  "edit": "index not shifted",
  "claim": "C06 index"
 },
 {
  "file": "ItoStr",
  "def": "str_rfind",
  "old": "let rv := py_rfind (f_str i) sub (Some (fst w)) (Some (snd w)) in\n  Ok (if rv =? -1 then rv else rv - f_start i)",
  "new": "let rv := py_rfind (f_str i) sub (Some (fst w)) (Some (snd w)) in\n  Ok (rv - f_start i)",
  "edit": "-1 shifted too",
  "claim": "C06 rfind"
 },
 {
  "file": "ItoStr",
  "def": "affix_reject",
  "old": "if ls <? st then true",
  "new": "if ls <=? st then true",
  "edit": "start = len refused",
  "claim": "C07 startswith"
 },
 {
  "file": "ItoStr",
  "def": "affix_reject",
  "old": "end_c <? start_c",
  "new": "end_c <=? start_c",
  "edit": "empty window refused",
  "claim": "C07 startswith"
 },
 {
  "file": "ItoStr",
  "def": "str_endswith",
  "old": "Ok (py_endswith (f_str i) p (Some (fst w)) (Some (snd w)))",
  "new": "Ok (py_endswith (f_str i) p None (Some (snd w)))",
  "edit": "looks before the Ito",
  "claim": "C07 endswith"
 },
 {
  "file": "ItoStr",
  "def": "str_eq",
  "old": "if ito_len i =? zlen v then",
  "new": "if ito_len i >=? zlen v then",
  "edit": "prefix taken for equality",
  "claim": "C07 str_eq"
 },
 {
  "file": "ItoStr",
  "def": "is_helper_all",
  "old": "else forallb (test_at i (fun c => pred [c])) (zrange (f_start i) (f_stop i)).",
  "new": "else forallb (test_at i (fun c => pred [c])) (zrange (f_start i) (f_stop i - 1)).",
  "edit": "last character not tested",
  "claim": "C08 is*"
 },
 {
  "file": "ItoStr",
  "def": "cased_loop",
  "old": "if test_at i low k then cased_loop i alpha low true ks' else false",
  "new": "if test_at i low k then cased_loop i alpha low true ks' else cased_loop i alpha low alphas ks'",
  "edit": "other case tolerated",
  "claim": "C08 islower"
 },
 {
  "file": "ItoStr",
  "def": "f_c_in",
  "old": "| None | Some [] => test_at i isspace k",
  "new": "| None => test_at i isspace k",
  "edit": "empty chars strips nothing",
  "claim": "C09 strip"
 },
 {
  "file": "ItoStr",
  "def": "up_while",
  "old": "(k <? stop) && f k",
  "new": "(k + 1 <? stop) && f k",
  "edit": "last character never stripped",
  "claim": "C09 strip"
 },
 {
  "file": "ItoStr",
  "def": "str_strip",
  "old": "| RNew j => RNew (deref j (str_rstrip isspace j chars))",
  "new": "| RNew j => RNew j",
  "edit": "right end not stripped",
  "claim": "C09 strip"
 },
 {
  "file": "ItoStr",
  "def": "split_loop",
  "old": "do r <- split_loop n self sep (j + zlen sep) (m - 1);",
  "new": "do r <- split_loop n self sep (j + 1) (m - 1);",
  "edit": "separator of several characters skipped by one",
  "claim": "C11 split"
 },
 {
  "file": "ItoStr",
  "def": "str_split",
  "old": "[if snd r =? f_start self then RSelf\n                  else RNew (clone_f self (Some (snd r)) None None)]",
  "new": "[RSelf]",
  "edit": "the rest is the whole Ito",
  "claim": "C11 split"
 },
 {
  "file": "ItoStr",
  "def": "rsplit_loop",
  "old": "(clone_f self (Some (j + zlen sep)) (Some i) None :: rv)",
  "new": "(clone_f self (Some j) (Some i) None :: rv)",
  "edit": "separator kept",
  "claim": "C11 rsplit"
 },
 {
  "file": "ItoStr",
  "def": "nn_loop",
  "old": "else clone_f self (Some (i + 1)) (Some (nw + 1)) None in",
  "new": "else clone_f self (Some (i + 1)) (Some nw) None in",
  "edit": "last character lost going left",
  "claim": "C12 white space rsplit"
 },
 {
  "file": "ItoStr",
  "def": "wsplit_loop",
  "old": "| Some s => if m =? 0 then Ok ([], m)\n                else do r <- wsplit_loop n isspace self (f_stop s) (m - 1);",
  "new": "| Some s => if m =? 0 then Ok ([], m)\n                else do r <- wsplit_loop n isspace self (f_stop s) m;",
  "edit": "max split ignored",
  "claim": "C12 white space split"
 },
 {
  "file": "ItoStr",
  "def": "str_wsplit",
  "old": "let tail := deref c (str_lstrip isspace c None) in",
  "new": "let tail := c in",
  "edit": "tail not stripped",
  "claim": "C12 white space split"
 },
 {
  "file": "ItoStr",
  "def": "split_iter_loop",
  "old": "let stop := if keep then snd m else fst m in",
  "new": "let stop := if keep then fst m else snd m in",
  "edit": "keep reversed",
  "claim": "C15 split_iter"
 },
 {
  "file": "ItoStr",
  "def": "split_iter",
  "old": "else if i =? f_stop self then fst r ++ [clone_f self (Some i) (Some i) (Some desc)]",
  "new": "else if i =? f_stop self then fst r",
  "edit": "empty last piece lost",
  "claim": "C15 split_iter"
 },
 {
  "file": "ItoStr",
  "def": "linebreak_matches",
  "old": "(c =? 13) && (pos + 1 <? stop) &&",
  "new": "(c =? 13) &&",
  "edit": "CRLF across the end of the Ito",
  "claim": "C13 splitlines"
 },
 {
  "file": "ItoStr",
  "def": "str_splitlines",
  "old": "if ito_len l =? 0 then rev r else rv",
  "new": "rv",
  "edit": "empty last line kept",
  "claim": "C13 splitlines"
 },
 {
  "file": "ItoStr",
  "def": "str_removesuffix",
  "old": "do c <- ito_of_ito i None (Some (- zlen p)) (f_desc i)",
  "new": "do c <- ito_of_ito i None (Some (1 - zlen p)) (f_desc i)",
  "edit": "one character of the suffix kept",
  "claim": "C14 removesuffix"
 },
 {
  "file": "ItoStr",
  "def": "str_removeprefix",
  "old": "do c <- ito_of_ito i (Some (zlen p)) None (f_desc i)",
  "new": "do c <- ito_of_ito i (Some (zlen p)) None None",
  "edit": "desc lost",
  "claim": "C14 removeprefix"
 },
 {
  "file": "ItoStr",
  "def": "to_line_col",
  "old": "py_count (f_str i) eol (Some 0) (Some prior) + 2",
  "new": "py_count (f_str i) eol (Some 0) (Some prior) + 1",
  "edit": "line one too low",
  "claim": "C16 to_line_col"
 },
 {
  "file": "ItoStr",
  "def": "to_line_col",
  "old": "f_start i - (prior + zlen eol) + 1",
  "new": "f_start i - prior",
  "edit": "eol of several characters",
  "claim": "C16 to_line_col"
 },
 {
  "file": "ItoStr",
  "def": "to_line_col_re",
  "old": "1 + (f_start i - snd m)",
  "new": "f_start i - snd m",
  "edit": "column counted from 0",
  "claim": "C16 to_line_col"
 },
 {
  "file": "ItoStr",
  "def": "from_substrings",
  "old": "let r := from_substrings s k j subs' desc in",
  "new": "let r := from_substrings s (i' + 1) j subs' desc in",
  "edit": "substrings may overlap",
  "claim": "C32 from_substrings"
 },
 {
  "file": "Util",
  "def": "find_escapes",
  "old": "(escapes_loop (u_string u) e (zrange (fst sp) (snd sp)) false, None)",
  "new": "(escapes_loop (u_string u) e (zrange (fst sp + 1) (snd sp)) false, None)",
  "edit": "first character skipped",
  "claim": "C62 find_escapes"
 },
 {
  "file": "Util",
  "def": "usplit_loop",
  "old": "gyield p (usplit_loop u (i + 1) r err)",
  "new": "gyield p (usplit_loop u i r err)",
  "edit": "separator kept",
  "claim": "C39 split_unescaped"
 },
 {
  "file": "Util",
  "def": "bal_loop",
  "old": "| [p] => gyield (p, i + 1) (bal_loop s off l r t err [])",
  "new": "| [p] => gyield (p, i) (bal_loop s off l r t err [])",
  "edit": "closing character left out",
  "claim": "C40 find_balanced"
 },
 {
  "file": "Util",
  "def": "bal_loop 2",
  "old": "match lefts with [] => ([], None) | _ => graise ValueError end",
  "new": "([], None)",
  "edit": "unclosed accepted",
  "claim": "C40 find_balanced"
 },
 {
  "file": "Util",
  "def": "find_balanced",
  "old": "find_unescaped u [l; r] escape a b",
  "new": "find_unescaped u [l] escape a b",
  "edit": "closing characters not looked for",
  "claim": "C40 find_balanced"
 },
 {
  "file": "Util",
  "def": "descape_loop",
  "old": "| [] => if esc then Err ValueError else Ok rv",
  "new": "| [] => Ok rv",
  "edit": "lone escape accepted",
  "claim": "C38 descape"
 },
 {
  "file": "Format",
  "def": "first_alt",
  "old": "match strip_pre (name d) s with Some s' => Some (d, s')",
  "new": "match strip_pre (name d) s with Some s' => Some (d, s)",
  "edit": "name left in the text",
  "claim": "C68 directives"
 },
 {
  "file": "Format",
  "def": "conv_tail",
  "old": "let (x, r3) := digits E r2 in (Some (l, c, x), r3)",
  "new": "let (x, r3) := digits E r2 in (Some (x, c, l), r3)",
  "edit": "slices swapped",
  "claim": "C69 conversion slices"
 },
 {
  "file": "Format",
  "def": "width_tail",
  "old": "| (w, abbr) => (Some (p, w, abbr), [])",
  "new": "| (w, abbr) => (Some (p, w, []), abbr)",
  "edit": "abbreviation left as text",
  "claim": "C61 width"
 },
 {
  "file": "Format",
  "def": "fmt_item",
  "old": "| FInt DStart f => fe_int E (f_start i) f",
  "new": "| FInt DStart f => fe_int E (f_stop i) f",
  "edit": "start shows stop",
  "claim": "C68 %start"
 },
 {
  "file": "Format",
  "def": "fmt_matches",
  "old": "[(a, a + zlen seg - zlen rest, it)]",
  "new": "[(a, a + zlen seg, it)]",
  "edit": "text after the directive lost",
  "claim": "C68 compose"
 },
 {
  "file": "Format",
  "def": "fmt_replace",
  "old": "Ok (py_slice rv1 None (Some a) ++ sub ++ py_slice rv1 (Some b) None)",
  "new": "Ok (py_slice rv1 None (Some a) ++ sub)",
  "edit": "text after the directive lost",
  "claim": "C68 compose"
 },
 {
  "file": "Format",
  "def": "fmt_match",
  "old": "| 32 :: r => Some (FZws, r)",
  "new": "| 32 :: r => Some (FZws, s)",
  "edit": "space of the zero-width directive kept",
  "claim": "C68 zero-width"
 },
 {
  "file": "TypeMagic",
  "def": "any_res",
  "old": "do b <- f x; if b then Ok true else any_res f r",
  "new": "do b <- f x; if b then any_res f r else Ok false",
  "edit": "all instead of any",
  "claim": "C98 isinstance_ex"
 },
 {
  "file": "TypeMagic",
  "def": "issubclass_ex",
  "old": "any_res (fun x => any_res (fun y => py_issubclass sub x y) tou_types) cls_types",
  "new": "any_res (fun x => any_res (fun y => py_issubclass sub y x) tou_types) cls_types",
  "edit": "arguments swapped",
  "claim": "C98 issubclass_ex"
 },
 {
  "file": "TypeMagic",
  "def": "functoid_isinstance",
  "old": "else if negb (zlen (f_params f) =? zlen ps) then Ok false",
  "new": "else if zlen (f_params f) <? zlen ps then Ok false",
  "edit": "more parameters accepted",
  "claim": "C99 arity"
 },
 {
  "file": "TypeMagic",
  "def": "functoid_isinstance 2",
  "old": "do b <- hint_matches sub (f_ret f) r;\n               if negb b then Ok false\n               else if",
  "new": "if",
  "edit": "return hint not looked at",
  "claim": "C100 hinted functions"
 },
 {
  "file": "TypeMagic",
  "def": "all_match",
  "old": "if b then all_match sub r else Ok false",
  "new": "if b then Ok true else all_match sub r",
  "edit": "one parameter suffices",
  "claim": "C100 hinted functions"
 },
 {
  "file": "TypeMagic",
  "def": "pair_up",
  "old": "do (m, rest) <- pair_up E r (py_remove E v l); Ok ((p, v) :: m, rest)",
  "new": "do (m, rest) <- pair_up E r l; Ok ((p, v) :: m, rest)",
  "edit": "a value used twice",
  "claim": "C101 invoke_func"
 },
 {
  "file": "TypeMagic",
  "def": "bind_pos",
  "old": "| [] => if p_dflt p then do (m, rest) <- bind_pos r []; Ok ((p_name p, None) :: m, rest) else Err TypeError",
  "new": "| [] => do (m, rest) <- bind_pos r []; Ok ((p_name p, None) :: m, rest)",
  "edit": "missing argument accepted",
  "claim": "C101 invoke_func"
 },
 {
  "file": "TypeMagic",
  "def": "bind_only",
  "old": "do m <- bind_only r kw; Ok ((p_name p, Some v) :: m)",
  "new": "do m <- bind_only r kw; Ok ((p_name p, None) :: m)",
  "edit": "keyword value dropped",
  "claim": "C101 invoke_func"
 },
 {
  "file": "Table",
  "def": "build_rx",
  "old": "| None => ZPlus (ZSeq (below row) (below (st_sep st)))",
  "new": "| None => ZStar (ZSeq (below row) (below (st_sep st)))",
  "edit": "a table without rows",
  "claim": "C95 tables found are tables"
 },
 {
  "file": "Table",
  "def": "build_rx 2",
  "old": "below row; below r]",
  "new": "below r]",
  "edit": "end line right after a separator",
  "claim": "C97 tables end"
 },
 {
  "file": "Table",
  "def": "chunk_rx",
  "old": "ZCls not_blank; ZPlusL (ZCls not_nl); ZAlt nl_rx ZEnd",
  "new": "ZCls not_blank; ZPlusL (ZCls not_nl); nl_rx",
  "edit": "last line must end in a newline",
  "claim": "C96 no table missed"
 },
 {
  "file": "Table",
  "def": "table_keys",
  "old": "[t_pre; t_table; t_header; t_row; t_post]",
  "new": "[t_pre; t_table; t_header; t_row; t_post; t_indent]",
  "edit": "indent groups become nodes",
  "claim": "C95 tables"
 },
 {
  "file": "Table",
  "def": "rule_rx",
  "old": "ZSeq (ZRep true 2 None dash_rx)",
  "new": "ZSeq (ZRep true 1 None dash_rx)",
  "edit": "one dash begins a rule",
  "claim": "C103 TYPE_1"
 },
 {
  "file": "Table",
  "def": "edge_rx",
  "old": "Definition edge_rx : trx := ZRep true 2 None dash_rx.",
  "new": "Definition edge_rx : trx := ZRep true 3 None dash_rx.",
  "edit": "two dashes are no edge",
  "claim": "C104 TYPE_2"
 },
 {
  "file": "Table",
  "def": "bar_rx",
  "old": "ZPlus (ZSeq (ZPlus dash_rx) (ZStr (lit \"|\")))",
  "new": "ZPlus (ZSeq (ZStar dash_rx) (ZStr (lit \"|\")))",
  "edit": "bars without dashes",
  "claim": "C104 TYPE_2"
 },
 {
  "file": "Xml",
  "def": "char_offset_ex",
  "old": "let ch := ix_char st + zlen s - ev_col e in",
  "new": "let ch := ix_char st + zlen s in",
  "edit": "column not subtracted",
  "claim": "C80 offsets"
 },
 {
  "file": "Xml",
  "def": "index_tree",
  "old": "do b <- char_offset_ex c text (snd k) e;",
  "new": "do b <- char_offset_ex c text (snd a) e;",
  "edit": "state before the children used at the end",
  "claim": "C81 document tree"
 },
 {
  "file": "Xml",
  "def": "rx_tag",
  "old": "(RPlus (none_of (lit \" />=\")))",
  "new": "(RPlus (none_of (lit \" >=\")))",
  "edit": "slash taken into the name",
  "claim": "C82 start tags"
 },
 {
  "file": "Xml",
  "def": "rx_attribute",
  "old": "(RGrp d_value (RPlus (none_of [34])))",
  "new": "(RGrp d_value (RPlus (fun _ => true)))",
  "edit": "greedy value",
  "claim": "C82 attributes"
 },
 {
  "file": "Xml",
  "def": "rx_comment",
  "old": "(RSeq (RGrp d_value (RLazy any_char)) (RStr (lit \"-->\")))",
  "new": "(RSeq (RGrp d_value (RPlus any_char)) (RStr (lit \"-->\")))",
  "edit": "greedy comment",
  "claim": "C82 comments"
 },
 {
  "file": "Xml",
  "def": "find_text",
  "old": "ignore_empties && str_is_class isspace",
  "new": "str_is_class isspace",
  "edit": "white space always dropped",
  "claim": "C82 texts"
 },
 {
  "file": "Xml",
  "def": "make_end_tag",
  "old": "obind (kids_add h et ts) (fun h _ => (h, Ok et))))).",
  "new": "(h, Ok et)))).",
  "edit": "end tag without children",
  "claim": "C82 end tag"
 },
 {
  "file": "Xml",
  "def": "self_closing",
  "old": "(eqb_str w (lit \"/>\") || eqb_str w (lit \"?>\")) && childless",
  "new": "(eqb_str w (lit \"/>\") || eqb_str w (lit \"?>\"))",
  "edit": "parents taken for self-closing",
  "claim": "C81 tree"
 },
 {
  "file": "Xml",
  "def": "add_children",
  "old": "| Some lc => add_text h ito (h_stop h lc) (h_start h ci)\n             end) (fun h _ =>\n      add_children",
  "new": "| Some lc => (h, Ok tt)\n             end) (fun h _ =>\n      add_children",
  "edit": "text between children lost",
  "claim": "C81 tree"
 },
 {
  "file": "Xml",
  "def": "extract_element",
  "old": "| Some lc => add_text h ito (h_stop h lc) (h_start h et)",
  "new": "| Some lc => (h, Ok tt)",
  "edit": "text after the last child lost",
  "claim": "C81 tree"
 },
 {
  "file": "Box",
  "def": "reflect",
  "old": "rotate d ((dvalue surface - dvalue d) * 2)",
  "new": "rotate d (dvalue surface - dvalue d)",
  "edit": "reflection half way",
  "claim": "C74 reflect"
 },
 {
  "file": "Box",
  "def": "style_distance",
  "old": " + b2z (negb (path_eqb p p'))",
  "new": "",
  "edit": "arcs not told from segments",
  "claim": "C75 fuzzy lookup"
 },
 {
  "file": "Box",
  "def": "fuzzy_loop",
  "old": "if d <? s then",
  "new": "if d <=? s then",
  "edit": "the last of the closest",
  "claim": "C75 fuzzy"
 },
 {
  "file": "Box",
  "def": "center",
  "old": "rep_str [32] (pad / 2) ++ s ++ rep_str [32] (pad - pad / 2)",
  "new": "rep_str [32] (pad - pad / 2) ++ s ++ rep_str [32] (pad / 2)",
  "edit": "odd column to the left",
  "claim": "C77 boxed text"
 },
 {
  "file": "Box",
  "def": "from_lines",
  "old": "rep_str (bx_s b) (m + 2)",
  "new": "rep_str (bx_s b) (m + 1)",
  "edit": "bottom row short",
  "claim": "C77 boxed text"
 },
 {
  "file": "Box",
  "def": "ds_rotate",
  "old": "(rotate (fst x) degrees, snd x)",
  "new": "(rotate (fst x) (- degrees), snd x)",
  "edit": "turned the other way",
  "claim": "C76 rotate"
 },
 {
  "file": "Box",
  "def": "side_corner",
  "old": "let d := rotate DW (Z.of_nat i * 90) in",
  "new": "let d := rotate DE (Z.of_nat i * 90) in",
  "edit": "corner takes the other arm",
  "claim": "C78 from_sides"
 },
 {
  "file": "Box",
  "def": "instances",
  "old": "new_bdc 9516 (lit \"BOX DRAWINGS LIGHT DOWN AND HORIZONTAL\") [(DW, light); (DE, light); (DS, light)]",
  "new": "new_bdc 9516 (lit \"BOX DRAWINGS LIGHT DOWN AND HORIZONTAL\") [(DW, light); (DE, light); (DN, light)]",
  "edit": "a wrong arm in the table",
  "claim": "C75 unique"
 }
]