[
{
"file": "Pepo",
"def": "compact_dump",
"old": "Ok (times level ind ++ k ++ lit \": \" ++ t ++ ls ++ rest)",
"new": "Ok (times (S level) ind ++ k ++ lit \": \" ++ t ++ ls ++ rest)",
"edit": "one indentation too many",
"claim": "C71 indentation by depth"
},
{
"file": "Pepo",
"def": "compact_dump 2",
"old": "(combine (seq 1 (length (n_kids (nd h (snd ki))))) (n_kids (nd h (snd ki))))",
"new": "(combine (seq 0 (length (n_kids (nd h (snd ki))))) (n_kids (nd h (snd ki))))",
"edit": "children numbered from 0",
"claim": "C71 numbering"
},
{
"file": "Pepo",
"def": "compact_dumps",
"old": "(combine (seq 1 (length itos)) itos)",
"new": "(combine (seq 1 (length itos)) (rev itos))",
"edit": "Itos in reverse",
"claim": "C71 order"
},
{
"file": "Pepo",
"def": "tree_children",
"old": "do a <- cat2 (map_res (row t_tee t_vert) (removelast ks));",
"new": "do a <- cat2 (map_res (row t_elbow t_vert) (removelast ks));",
"edit": "elbow for all children",
"claim": "C72 tee for all but the last"
},
{
"file": "Pepo",
"def": "tree_children 2",
"old": "do b <- row t_elbow (lit \" \") (last ks 0%nat);",
"new": "do b <- row t_elbow t_vert (last ks 0%nat);",
"edit": "bar below the last child",
"claim": "C72 no bar below the last"
},
{
"file": "Pepo",
"def": "tree_children 3",
"old": "tree_children n E fstr ls ind h (prefix ++ bar ++ ind) c",
"new": "tree_children n E fstr ls ind h (prefix ++ bar) c",
"edit": "indentation not passed down",
"claim": "C72 indentation"
},
{
"file": "Pepo",
"def": "xml_escape",
"old": "py_replace_char 60 (lit \"&lt;\") (py_replace_char 62 (lit \"&gt;\") (py_replace_char 38 (lit \"&amp;\") s))",
"new": "py_replace_char 38 (lit \"&amp;\") (py_replace_char 60 (lit \"&lt;\") (py_replace_char 62 (lit \"&gt;\") s))",
"edit": "ampersand escaped last",
"claim": "C73 escaping is undone by a parser"
},
{
"file": "Pepo",
"def": "xml_dump",
"old": "lit \" stop=\"\"\" ++ int_str (f_stop f)",
"new": "lit \" stop=\"\"\" ++ int_str (f_stop f - 1)",
"edit": "stop inclusive",
"claim": "C73 spans shown"
},
{
"file": "Pepo",
"def": "xml_dump 2",
"old": "pad ++ lit \"<substring>\" ++ xml_escape (ito_str f)",
"new": "pad ++ lit \"<substring>\" ++ (ito_str f)",
"edit": "substring not escaped",
"claim": "C73 escaping"
},
{
"file": "Pepo",
"def": "json_esc",
"old": "else if c <? 32 then",
"new": "else if c <? 31 then",
"edit": "unit separator not escaped",
"claim": "C70 valid JSON"
},
{
"file": "Pepo",
"def": "json_esc 2",
"old": "if c =? 34 then lit \"\\\"\"\" else",
"new": "",
"edit": "quote not escaped",
"claim": "C70 valid JSON"
},
{
"file": "Pepo",
"def": "json_rows",
"old": "| x :: r => x ++ lit \",\" ++ ls ++ json_rows ls r end",
"new": "| x :: r => x ++ ls ++ json_rows ls r end",
"edit": "no comma between children",
"claim": "C70 valid JSON"
},
{
"file": "Pepo",
"def": "json_dump",
"old": "lit \"\"\"start\"\": \" ++ int_str (f_start f)",
"new": "lit \"\"\"start\"\": \" ++ int_str (f_stop f)",
"edit": "start shows stop",
"claim": "C70 values"
},
{
"file": "Pepo",
"def": "json_dumps",
"old": "json_items ls true ts",
"new": "json_items ls true (rev ts)",
"edit": "Itos in reverse",
"claim": "C70 order"
},
{
"file": "Pepo",
"def": "hex_char",
"old": "if n <? 10 then 48 + n else 87 + n",
"new": "if n <=? 10 then 48 + n else 87 + n",
"edit": "hex digit a wrong",
"claim": "C70 valid JSON"
},
{
"file": "Box",
"def": "distance",
"old": "| Some x => style_distance (snd t) (snd x) end",
"new": "| Some x => 0 end",
"edit": "styles ignored",
"claim": "C75 lookup by styles"
},
{
"file": "Box",
"def": "fuzzy_loop",
"old": "if d <? s then Some (d, b) else best",
"new": "if s <? d then Some (d, b) else best",
"edit": "worst match",
"claim": "C76 turned characters"
},
{
"file": "Box",
"def": "from_char",
"old": "find (fun b => eqb_str [b_char b] c) instances",
"new": "find (fun b => eqb_str [b_char b + 1] c) instances",
"edit": "off by one",
"claim": "C75 lookup by char"
},
{
"file": "Box",
"def": "from_direction_styles",
"old": "filter (fun b => (length (b_ds b) =? length targets)%nat) instances",
"new": "filter (fun b => (length (b_ds b) <=? length targets)%nat) instances",
"edit": "characters with fewer arms",
"claim": "C75 lookup"
},
{
"file": "Box",
"def": "center",
"old": "rep_str [32] (pad / 2) ++ s ++ rep_str [32] (pad - pad / 2)",
"new": "rep_str [32] (pad / 2) ++ s ++ rep_str [32] (pad / 2)",
"edit": "odd padding lost",
"claim": "C77 equal widths"
},
{
"file": "Box",
"def": "from_lines",
"old": "Ok ([bx_nw b ++ rep_str (bx_n b) (m + 2) ++ bx_ne b] ++",
"new": "Ok ([bx_nw b ++ rep_str (bx_n b) (m + 1) ++ bx_ne b] ++",
"edit": "top too short",
"claim": "C77 equal widths"
},
{
"file": "Box",
"def": "from_lines 2",
"old": "fold_left Nat.max r n",
"new": "fold_left Nat.min r n",
"edit": "narrowest line",
"claim": "C77 box around the widest line"
},
{
"file": "Box",
"def": "spread_sides",
"old": "do c <- bdc_reflect b (rotate (four side_dirs prior DN) 45);",
"new": "do c <- bdc_reflect b (rotate (four side_dirs prior DN) 90);",
"edit": "wrong mirror",
"claim": "C78 from one side"
},
{
"file": "Box",
"def": "side_corner",
"old": "let d := rotate DW (Z.of_nat i * 90) in",
"new": "let d := rotate DE (Z.of_nat i * 90) in",
"edit": "wrong arm",
"claim": "C78 corners"
},
{
"file": "Box",
"def": "from_sides",
"old": "Ok (Boxer [b_char c3] (side 0%nat) [b_char c0] (side 3%nat) (side 1%nat) [b_char c2] (side 2%nat) [b_char c1])",
"new": "Ok (Boxer [b_char c0] (side 0%nat) [b_char c3] (side 3%nat) (side 1%nat) [b_char c2] (side 2%nat) [b_char c1])",
"edit": "corners swapped",
"claim": "C78 corners"
},
{
"file": "Box",
"def": "spread_corners",
"old": "do c <- bdc_reflect b (snd (four corner_dirs prior (DN, DN)));",
"new": "do c <- bdc_reflect b (fst (four corner_dirs prior (DN, DN)));",
"edit": "wrong mirror",
"claim": "C79 from one corner"
},
{
"file": "Box",
"def": "from_corners",
"old": "(corner 0%nat) [b_char s0] (corner 1%nat) [b_char s3] [b_char s1] (corner 3%nat) [b_char s2] (corner 2%nat)",
"new": "(corner 0%nat) [b_char s0] (corner 1%nat) [b_char s1] [b_char s3] (corner 3%nat) [b_char s2] (corner 2%nat)",
"edit": "left and right swapped",
"claim": "C79 sides fit corners"
},
{
"file": "Box",
"def": "corner_link",
"old": "do ds1 <- o_rotate 180 (ds_get (b_ds x) (fst da));",
"new": "do ds1 <- o_rotate 180 (ds_get (b_ds x) (snd da));",
"edit": "wrong arm of the corner",
"claim": "C79 sides fit corners"
},
{
"file": "Box",
"def": "best_perm",
"old": "if s <? score then Some (p, score) else best",
"new": "if score <? s then Some (p, score) else best",
"edit": "worst order kept",
"claim": "C79 corners in any order"
},
{
"file": "Xml",
"def": "char_offset_ex",
"old": "if ix_line st <? ev_line e",
"new": "if ix_line st <=? ev_line e",
"edit": "offset advanced twice on a line",
"claim": "C80 offsets"
},
{
"file": "Xml",
"def": "char_offset_ex 2",
"old": "let ch := ix_char st + zlen s - ev_col e in",
"new": "let ch := ix_char st + zlen s in",
"edit": "column counted twice",
"claim": "C80 offsets"
},
{
"file": "Xml",
"def": "char_offset_ex 3",
"old": "(ix_byte st + zlen (cd_enc c (py_slice text (Some (ix_char st)) (Some ch))))",
"new": "(ix_byte st + zlen (py_slice text (Some (ix_char st)) (Some ch)))",
"edit": "characters taken for bytes",
"claim": "C80 offsets"
},
{
"file": "Xml",
"def": "char_offset_ex 4",
"old": "Ok (IX (ev_line e) ch",
"new": "Ok (IX (ix_line st) ch",
"edit": "line not remembered",
"claim": "C80 offsets"
},
{
"file": "Xml",
"def": "index_tree",
"old": "Ok (El (fst a) (fst b) (fst k), snd b)",
"new": "Ok (El (fst a) (fst b) (rev (fst k)), snd b)",
"edit": "children in reverse",
"claim": "C81 tree"
},
{
"file": "Xml",
"def": "rx_tag",
"old": "RGrp d_name (RPlus (none_of (lit \" />=\")))",
"new": "RGrp d_name (RPlus (none_of (lit \" >=\")))",
"edit": "slash part of the name",
"claim": "C82 tags"
},
{
"file": "Xml",
"def": "rx_tag 2",
"old": "RGrp d_namespace (RPlus (none_of (lit \" :\")))",
"new": "RGrp d_namespace (RPlus (none_of (lit \" \")))",
"edit": "colon in the prefix",
"claim": "C82 tags"
},
{
"file": "Xml",
"def": "rx_open",
"old": "ROpt (RCls (fun c => mem_char c (lit \"/?\")))",
"new": "ROpt (RCls (fun c => mem_char c (lit \"?\")))",
"edit": "end tags not recognised",
"claim": "C82 end tags"
},
{
"file": "Xml",
"def": "rx_attribute",
"old": "RGrp d_value (RPlus (none_of [34]))",
"new": "RGrp d_value (RPlus any_char)",
"edit": "value greedy",
"claim": "C82 attributes"
},
{
"file": "Xml",
"def": "rx_comment",
"old": "RStr (lit \"<!--\")",
"new": "RStr (lit \"<!-\")",
"edit": "comment begins too early",
"claim": "C82 comments"
},
{
"file": "Xml",
"def": "rx_pi",
"old": "RSeq (RGrp d_value (RLazy any_char)) (RStr (lit \"?>\"))",
"new": "RSeq (RGrp d_value (RLazy any_char)) (RStr (lit \">\"))",
"edit": "processing instruction ends at >",
"claim": "C82 processing instructions"
},
{
"file": "Xml",
"def": "find_text",
"old": "if (0 <? ito_len (n_f (nd h1 t))) && negb (ignore_empties && str_is_class isspace (n_f (nd h1 t)))",
"new": "if (0 <? ito_len (n_f (nd h1 t))) && negb (str_is_class isspace (n_f (nd h1 t)))",
"edit": "ignore_empties ignored",
"claim": "C82 blank texts"
},
{
"file": "Xml",
"def": "find_text 2",
"old": "if (0 <? ito_len (n_f (nd h1 t)))",
"new": "if (1 <? ito_len (n_f (nd h1 t)))",
"edit": "texts of one character dropped",
"claim": "C82 texts"
},
{
"file": "Xml",
"def": "make_start_tag",
"old": "obind (new_str h text (Some a) (Some (gt + 1)) (Some d_start_tag))",
"new": "obind (new_str h text (Some a) (Some gt) (Some d_start_tag))",
"edit": "start tag without >",
"claim": "C81 tags"
},
{
"file": "Xml",
"def": "make_end_tag",
"old": "obind (new_str h text (Some b) (Some (gt + 1)) (Some d_end_tag))",
"new": "obind (new_str h text (Some (b + 1)) (Some (gt + 1)) (Some d_end_tag))",
"edit": "end tag without <",
"claim": "C81 tags"
},
{
"file": "Xml",
"def": "self_closing",
"old": "eqb_str w (lit \"/>\") || eqb_str w (lit \"?>\")",
"new": "eqb_str w (lit \"?>\")",
"edit": "empty elements not recognised",
"claim": "C81 empty elements"
},
{
"file": "Xml",
"def": "self_closing 2",
"old": "(eqb_str w (lit \"/>\") || eqb_str w (lit \"?>\")) && childless",
"new": "(eqb_str w (lit \"/>\") || eqb_str w (lit \"?>\"))",
"edit": "an element ending in an empty child taken for empty",
"claim": "C81 elements"
},
{
"file": "Xml",
"def": "add_children",
"old": "| Some lc => add_text h ito (h_stop h lc) (h_start h ci)\n             end) (fun h _ =>\n      add_children",
"new": "| Some lc => (h, Ok tt)\n             end) (fun h _ =>\n      add_children",
"edit": "texts between children dropped",
"claim": "C82 texts"
},
{
"file": "Xml",
"def": "extract_element",
"old": "obind (add_text h ito (h_stop h st) (match fst fl with Some f => h_start h f | None => h_start h et end))",
"new": "obind (add_text h ito (h_stop h st) (h_start h et))",
"edit": "first text reaches over the children",
"claim": "C82 texts"
},
{
"file": "Xml",
"def": "extract_element 2",
"old": "obind (kids_add h ito [et]) (fun h _ => (h, Ok ito))",
"new": "(h, Ok ito)",
"edit": "end tag not added",
"claim": "C81 end tags"
},
{
"file": "Xml",
"def": "extract_element 3",
"old": "| Some lc => add_text h ito (h_stop h lc) (h_start h et)",
"new": "| Some lc => (h, Ok tt)",
"edit": "text behind the last child dropped",
"claim": "C82 texts"
},
{
"file": "XmlHelp",
"def": "get_local_name",
"old": "if 0 <=? i then py_slice tag (Some (i + 1)) None else tag",
"new": "if 0 <? i then py_slice tag (Some (i + 1)) None else tag",
"edit": "brace at position 0 overlooked",
"claim": "C85 split at the brace"
},
{
"file": "XmlHelp",
"def": "get_namespace",
"old": "Some (py_slice tag None (Some (i + 1)))",
"new": "Some (py_slice tag None (Some i))",
"edit": "closing brace lost",
"claim": "C85 split at the brace"
},
{
"file": "XmlHelp",
"def": "qn_from_src",
"old": "| [p; x] => Ok (Some p, x)",
"new": "| [p; x] => Ok (Some x, p)",
"edit": "prefix and local part swapped",
"claim": "C84 qualified names"
},
{
"file": "XmlHelp",
"def": "qn_str",
"old": "Some p => f_start p | None",
"new": "Some p => f_stop p | None",
"edit": "prefix lost",
"claim": "C84 str"
},
{
"file": "XmlHelp",
"def": "rx_et",
"old": "(RSeq (RLazy any_char) (RStr (lit \"}\")))",
"new": "(RSeq (RPlus any_char) (RStr (lit \"}\")))",
"edit": "greedy namespace",
"claim": "C85 Clark names"
},
{
"file": "XmlHelp",
"def": "reverse_find",
"old": "if test i then Ok (Some i)\n             else do p",
"new": "if false then Ok (Some i)\n             else do p",
"edit": "never tested",
"claim": "C86 reverse_find"
},
{
"file": "XmlHelp",
"def": "get_parent_element",
"old": "(lit \"...[d:element]\")",
"new": "(lit \"....[d:element]\")",
"edit": "root instead of nearest",
"claim": "C86 parent"
},
{
"file": "XmlHelp",
"def": "get_qualified_name",
"old": "eqb_str d d_start_tag || eqb_str d d_attribute",
"new": "eqb_str d d_start_tag",
"edit": "attributes refused",
"claim": "C84 attributes"
},
{
"file": "XmlHelp",
"def": "xmlns_text",
"old": "prefixb (lit \"xmlns:\") s && (6 <? zlen s)",
"new": "prefixb (lit \"xmlns:\") s && (7 <? zlen s)",
"edit": "prefixes of one letter overlooked",
"claim": "C87 declarations"
},
{
"file": "XmlHelp",
"def": "put",
"old": "if eqb_str k k' then (k', v) :: t else",
"new": "if eqb_str k k' then (k', v') :: t else",
"edit": "first declaration kept",
"claim": "C87 prefix map"
},
{
"file": "XmlHelp",
"def": "get_prefix_map",
"old": "put (str_opt h (snd (fst x))) (str_opt h (snd x)) d",
"new": "put (str_opt h (snd x)) (str_opt h (snd (fst x))) d",
"edit": "map inverted",
"claim": "C87 prefix map"
},
{
"file": "XmlHelp",
"def": "get_default_namespace",
"old": "match p with None => Ok None | Some p => get_default_namespace n h p end",
"new": "Ok None",
"edit": "outer declarations overlooked",
"claim": "C87 default namespace"
},
{
"file": "XmlHelp",
"def": "get_default_namespace 2",
"old": "Some _ => false | None => true end) l with",
"new": "Some _ => true | None => false end) l with",
"edit": "prefixed declaration taken",
"claim": "C87 default namespace"
},
{
"file": "Nlp",
"def": "para_rx",
"old": "NRep least None (NSeq (NStar (NCls (among ws_chars))) (NChars eol_chars))",
"new": "NRep least None (NChars eol_chars)",
"edit": "white space before line ends not skipped",
"claim": "C90 empty lines"
},
{
"file": "Nlp",
"def": "nlp_prog",
"old": "Itor (TSplit 1 None RNone true (Some n_paragraph))",
"new": "Itor (TSplit 1 None RAll true (Some n_paragraph))",
"edit": "separators kept",
"claim": "C90 paragraphs"
},
{
"file": "Nlp",
"def": "nlp_prog 2",
"old": "split_itor re_para (para_rx 2)",
"new": "split_itor re_para (para_rx 1)",
"edit": "one line end divides",
"claim": "C90 paragraphs"
},
{
"file": "Nlp",
"def": "nlp_prog 3",
"old": "Itor (TSplit 5 None RAll true None)",
"new": "Itor (TSplit 5 None RLeading true None)",
"edit": "numbers joined to what follows",
"claim": "C89 tokens"
},
{
"file": "Nlp",
"def": "no_desc",
"old": "None => true | Some _ => false end",
"new": "None => false | Some _ => true end",
"edit": "numbers taken for words",
"claim": "C91 numbers"
},
{
"file": "Nlp",
"def": "integer_rx",
"old": "if optional then NAlt grouped (NPlus d) else grouped",
"new": "if optional then NAlt (NPlus d) grouped else grouped",
"edit": "plain digits first",
"claim": "C91 longest numeral"
},
{
"file": "Nlp",
"def": "integer_rx 2",
"old": "NPlus (NSeq (NStr sep) (NRep 3 (Some 3%nat) d))",
"new": "NPlus (NSeq (NStr sep) (NRep 2 (Some 3%nat) d))",
"edit": "groups of two",
"claim": "C91 numerals"
},
{
"file": "Nlp",
"def": "decimal_rx",
"old": "NSeq (NStr point) (NPlus d)",
"new": "NSeq (NStr point) (NStar d)",
"edit": "point without digits",
"claim": "C91 numerals"
},
{
"file": "Nlp",
"def": "exp_e_rx",
"old": "NCls (among (lit \"Ee\")); NOpt sign_rx; NPlus d",
"new": "NCls (among (lit \"E\")); NOpt sign_rx; NPlus d",
"edit": "lower case e overlooked",
"claim": "C91 numerals"
},
{
"file": "Nlp",
"def": "number_rx",
"old": "NOpt exponent_rx]",
"new": "exponent_rx]",
"edit": "exponent required",
"claim": "C91 numerals"
},
{
"file": "Nlp",
"def": "word_rx",
"old": "NSeq (NStr (lit \"-\")) (NStar (NCls (cls_s C)))",
"new": "NStr (lit \"-\")",
"edit": "no space after a hyphen",
"claim": "C89 words"
},
{
"file": "Nlp",
"def": "word_rx 2",
"old": "NGrp n_word (NSeq w (NStar",
"new": "NGrp n_word (NSeq w (NOpt",
"edit": "words of two characters",
"claim": "C89 words"
},
{
"file": "Nlp",
"def": "sentence_rx",
"old": "NBehind true (NSeqs [w; terminators; NStar (NChars suffix_chars)])",
"new": "NBehind true (NSeqs [w; terminators])",
"edit": "closing marks not allowed",
"claim": "C92 sentences"
},
{
"file": "Nlp",
"def": "terminators",
"old": "NRep 3 None (NStr (lit \".\"))",
"new": "NRep 2 None (NStr (lit \".\"))",
"edit": "two dots end a sentence",
"claim": "C92 terminators"
},
{
"file": "Nlp",
"def": "rules",
"old": "NRep 2 None (NSet sen_ws)",
"new": "NRep 3 None (NSet sen_ws)",
"edit": "three white spaces needed",
"claim": "C92 rules"
},
{
"file": "Nlp",
"def": "exceptions",
"old": "[NBehind false (NSet ignores);",
"new": "[NBehind true (NSet ignores);",
"edit": "break after titles only",
"claim": "C92 exceptions"
},
{
"file": "Nlp",
"def": "rules 2",
"old": "NCls (fun c => upper_az c || cls_d C c)",
"new": "NCls upper_az",
"edit": "no break before digits",
"claim": "C92 rules"
},
{
"file": "Nlp",
"def": "rep_ways",
"old": "match least with O => [(i, [])] | S _ => [] end",
"new": "[(i, [])]",
"edit": "least number ignored",
"claim": "C90 paragraphs"
},
{
"file": "NlpConf",
"def": "set_sep",
"old": "if match v with [] => true | _ :: _ => forallb sp v end",
"new": "if forallb sp v && match v with [] => false | _ => true end",
"edit": "empty separator accepted",
"claim": "C93 settings"
},
{
"file": "NlpConf",
"def": "new_number",
"old": "(match ls with [] => lit \",\" | _ => ls end)",
"new": "ls",
"edit": "no default separator",
"claim": "C93 settings"
}
]