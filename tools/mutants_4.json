[
{
"file": "OntQuery",
"old": "OXor | OOr => 0 | OAnd => 1",
"new": "OAnd => 0 | OXor | OOr => 1",
"edit": "& binds weaker than |",
"claim": "C117 precedence",
"def": "precedence"
},
{
"file": "OntQuery",
"old": "precedence k <=? precedence (fst top)",
"new": "precedence k <? precedence (fst top)",
"edit": "equal levels group to the right",
"claim": "C117 grouping",
"def": "push_oper"
},
{
"file": "OntQuery",
"old": "then (fst st ++ map (fun o => AOper (fst o) (snd o)) (snd st), [(k, i)])",
"new": "then (fst st ++ map (fun o => AOper (fst o) (snd o)) (rev (snd st)), [(k, i)])",
"edit": "stack emptied from below",
"claim": "C117 order",
"def": "push_oper 2"
},
{
"file": "OntQuery",
"old": "(fst st ++ fst r ++ map (fun o => AOper (fst o) (snd o)) (snd r), snd st)",
"new": "(fst st ++ fst r, snd st)",
"edit": "operators left in a bracket lost",
"claim": "C117 complete postfix",
"def": "yard_token"
},
{
"file": "OntQuery",
"old": "| TEntity i => (fst st ++ [AEntity i], snd st)",
"new": "| TEntity i => (AEntity i :: fst st, snd st)",
"edit": "entities put in front",
"claim": "C117 order of entities",
"def": "yard_token 2"
},
{
"file": "OntQuery",
"old": "in fst r ++ map (fun o => AOper (fst o) (snd o)) (snd r).",
"new": "in fst r ++ map (fun o => AOper (fst o) (snd o)) (tl (snd r)).",
"edit": "last operator lost",
"claim": "C117 complete postfix",
"def": "shunting_yard"
},
{
"file": "OntQuery",
"old": "| [ts] => Exits (shunting_yard ts)",
"new": "| [ts] => Returns",
"edit": "returns an object",
"claim": "C117 the refutation no longer holds",
"def": "query_init"
},
{
"file": "ItoRegex",
"old": "Definition regex_match (r : trx) (i : fito) : option span :=\n  match zways r (f_str i) (f_stop i)",
"new": "Definition regex_match (r : trx) (i : fito) : option span :=\n  match zways r (f_str i) (zlen (f_str i))",
"edit": "endpos not given",
"claim": "C114 sees only the text of the Ito",
"def": "regex_match"
},
{
"file": "ItoRegex",
"old": "filter (fun w => fst w =? f_stop i)",
"new": "filter (fun w => fst w <=? f_stop i)",
"edit": "fullmatch like match",
"claim": "C114 fullmatch",
"def": "regex_fullmatch"
},
{
"file": "ItoRegex",
"old": "Definition regex_search (r : trx) (i : fito) : option span :=\n  match zfound r (f_str i) (f_start i) (f_stop i)",
"new": "Definition regex_search (r : trx) (i : fito) : option span :=\n  match zfound r (f_str i) 0 (f_stop i)",
"edit": "pos not given",
"claim": "C114 search",
"def": "regex_search"
},
{
"file": "ItoRegex",
"old": "map fst (zfound r (f_str i) (f_start i) (f_stop i)).",
"new": "tl (map fst (zfound r (f_str i) (f_start i) (f_stop i))).",
"edit": "first match dropped",
"claim": "C114, C116",
"def": "regex_finditer"
},
{
"file": "ItoRegex",
"old": "(Some (fst (fst m))) (Some (snd (fst m)))",
"new": "(Some (fst (fst m) - f_start i)) (Some (snd (fst m) - f_start i))",
"edit": "relative spans used as absolute",
"claim": "C114 findall",
"def": "regex_findall"
},
{
"file": "ItoRegex",
"old": "split_iter i (regex_finditer r i) max_split false None",
"new": "split_iter i (regex_finditer r i) max_split true None",
"edit": "separators kept",
"claim": "C116 split",
"def": "regex_split"
},
{
"file": "ItoRegex",
"old": "max_split true desc",
"new": "max_split false desc",
"edit": "separators dropped",
"claim": "C116 keep_seps",
"def": "split_with_seps"
},
{
"file": "Infix",
"old": "| OrFun g x => match args with [y] => icall E g [x; y]",
"new": "| OrFun g x => match args with [y] => icall E g [y; x]",
"edit": "operands swapped",
"claim": "C113 a |op| b is f(a, b)",
"def": "icall"
},
{
"file": "Infix",
"old": "    | [y] => icall E g [x; y]\n    | _ => Err TypeError\n    end\n  end",
"new": "    | [y] => icall E g [y; x]\n    | _ => Err TypeError\n    end\n  end",
"edit": "operands of << >> swapped",
"claim": "C113 a <<op>> b",
"def": "icall 2"
},
{
"file": "Infix",
"old": "icall E f [a; b]",
"new": "icall E f [b; a]",
"edit": "operands swapped",
"claim": "C113 op(a, b)",
"def": "infix_call"
},
{
"file": "Infix",
"old": "match x with VNone => y | _ => x end",
"new": "match y with VNone => x | _ => y end",
"edit": "second operand preferred",
"claim": "C113 nuco",
"def": "nuco_fun"
},
{
"file": "RegexItor",
"old": "Ok _ => (RS (rs_re st) gf, None) | Err e => (st, Some e)",
"new": "Ok _ => (RS (rs_re st) gf, None) | Err e => (RS (rs_re st) gf, Some e)",
"edit": "filter stored before it is checked",
"claim": "C112 a rejected filter changes nothing",
"def": "set_filter"
},
{
"file": "RegexItor",
"old": "match gk_validate (rs_re st) l with Ok _ => (RS (rs_re st) gf, None) | Err e => (st, Some e) end",
"new": "(RS (rs_re st) gf, None)",
"edit": "filter not checked",
"claim": "C112 filters fit the pattern",
"def": "set_filter 2"
},
{
"file": "RegexItor",
"old": "RS re (rs_gf st)",
"new": "RS (rs_re st) (rs_gf st)",
"edit": "assignment has no effect",
"claim": "C112 histories",
"def": "set_re"
},
{
"file": "XmlFind",
"old": "e :: flat_map et_iter l.",
"new": "flat_map et_iter l ++ [e].",
"edit": "element after its children",
"claim": "C111 document order",
"def": "et_iter"
},
{
"file": "XmlFind",
"old": "flat_map et_iter (e_kids e).",
"new": "e_kids e.",
"edit": "children only",
"claim": "C111 all descendants",
"def": "findall_below"
},
{
"file": "XmlFind",
"old": "flat_map et_iter (e_kids e).",
"new": "et_iter e.",
"edit": "the element itself included",
"claim": "C111 descendants",
"def": "findall_below 2"
},
{
"file": "XmlFind",
"old": "eqb_str name (get_local_name (e_tag x))",
"new": "eqb_str name (e_tag x)",
"edit": "whole tag compared",
"claim": "C111 by local name",
"def": "find_all_by_local_name"
},
{
"file": "XmlFind",
"old": "hd_error (find_all_by_local_name e name)",
"new": "hd_error (rev (find_all_by_local_name e name))",
"edit": "last instead of first",
"claim": "C111 first",
"def": "find_by_local_name"
},
{
"file": "ArborClone",
"old": "None => tg_tag x | Some t => Some t",
"new": "None => None | Some t => Some t",
"edit": "tag lost",
"claim": "C110 clone keeps the tag",
"def": "clone_itor"
},
{
"file": "ArborClone",
"old": "Itor (TWrap f) [] PostNone",
"new": "Itor (TWrap f) (it_conns (tg_it x)) PostNone",
"edit": "connections kept",
"claim": "C110 (the refutation no longer holds)",
"def": "clone_itor 2"
},
{
"file": "VersionParse",
"old": "v_digit c || existsb",
"new": "existsb",
"edit": "no digits in the local part",
"claim": "C115",
"def": "p_alnum"
},
{
"file": "VersionParse",
"old": "ZPlus (ZCls v_digit)",
"new": "ZStar (ZCls v_digit)",
"edit": "no digit needed",
"claim": "C115",
"def": "p_digits"
},
{
"file": "VersionParse",
"old": "Definition p_sep : trx := ZOpt (ZCls (among (lit \"-_.\"))).",
"new": "Definition p_sep : trx := ZOpt (ZCls (among (lit \"-_\"))).",
"edit": "dot not a separator",
"claim": "C115",
"def": "p_sep"
},
{
"file": "VersionParse",
"old": "| x :: r => ZAlt (p_word w) (p_alts x r)",
"new": "| x :: r => ZAlt (p_word x) (p_alts w r)",
"edit": "alternatives tried in another order",
"claim": "C115 (harmless: the same words)",
"def": "p_alts"
},
{
"file": "VersionParse",
"old": "(lit \"!\")",
"new": "(lit \":\")",
"edit": "wrong epoch mark",
"claim": "C115 parts",
"def": "p_epoch"
},
{
"file": "VersionParse",
"old": "ZStar (ZSeq (ZStr (lit \".\"))",
"new": "ZOpt (ZSeq (ZStr (lit \".\"))",
"edit": "two numbers at most",
"claim": "C115 parts",
"def": "p_release"
},
{
"file": "VersionParse",
"old": "lit \"rc\"; ",
"new": "",
"edit": "rc not a label",
"claim": "C115 canonical",
"def": "p_pre"
},
{
"file": "VersionParse",
"old": "ZAlt (ZSeq (ZStr (lit \"-\")) (ZGrp (lit \"post_n1\") p_digits)) (p_label",
"new": "ZAlt (ZSeq (ZStr (lit \"-\")) (ZGrp (lit \"post_n2\") p_digits)) (p_label",
"edit": "number in the wrong group",
"claim": "C115 parts",
"def": "p_post"
},
{
"file": "VersionParse",
"old": "ZOpt (ZSeq (ZStr (lit \"+\"))",
"new": "ZOpt (ZSeq (ZOpt (ZStr (lit \"+\")))",
"edit": "plus not needed",
"claim": "C115 parts",
"def": "p_local"
},
{
"file": "VersionParse",
"old": "p_pre; p_post; p_dev; p_local",
"new": "p_pre; p_dev; p_post; p_local",
"edit": "dev before post",
"claim": "C115 canonical",
"def": "parse_rx"
},
{
"file": "VersionParse",
"old": "p_local; p_space; ZEnd]",
"new": "p_local; p_space]",
"edit": "end not checked",
"claim": "C115 whole",
"def": "parse_rx 2"
},
{
"file": "TypeMagic",
"old": "| TUnion ts => concat (map unpack ts)",
"new": "| TUnion ts => ts",
"edit": "nested unions not unpacked",
"claim": "C98",
"def": "unpack"
},
{
"file": "TypeMagic",
"old": "Ok (sub c o)",
"new": "Ok (sub o c)",
"edit": "arguments swapped",
"claim": "C98",
"def": "py_issubclass"
},
{
"file": "TypeMagic",
"old": "if b then Ok true else any_res f r",
"new": "if b then any_res f r else Ok false",
"edit": "all instead of any",
"claim": "C98",
"def": "any_res"
},
{
"file": "TypeMagic",
"old": "| None => Ok true",
"new": "| None => Ok false",
"edit": "functions without hints refused",
"claim": "C99",
"def": "hint_matches"
},
{
"file": "TypeMagic",
"old": "if b then all_match sub r else Ok false",
"new": "Ok b",
"edit": "first parameter only",
"claim": "C100",
"def": "all_match"
},
{
"file": "TypeMagic",
"old": "negb (zlen (f_params f) =? zlen ps)",
"new": "zlen (f_params f) <? zlen ps",
"edit": "functions with more parameters accepted",
"claim": "C99 arity",
"def": "functoid_isinstance"
},
{
"file": "TypeMagic",
"old": "               if negb b then Ok false\n               else if",
"new": "               if",
"edit": "result not checked",
"claim": "C100 result",
"def": "functoid_isinstance 2"
},
{
"file": "TypeMagic",
"old": "if b then Ok (Some v) else pick E h r",
"new": "if b then pick E h r else Ok (Some v)",
"edit": "unfit value taken",
"claim": "C101",
"def": "pick"
},
{
"file": "TypeMagic",
"old": "pair_up E r (py_remove E v l)",
"new": "pair_up E r l",
"edit": "value used twice",
"claim": "C101",
"def": "pair_up"
},
{
"file": "TypeMagic",
"old": "if f_self f then [Par (lit \"self\") KPos None false] else []",
"new": "@nil param",
"edit": "self hidden",
"claim": "C101 bound methods",
"def": "spec_args"
},
{
"file": "TypeMagic",
"old": "py_call f (map snd pa) pk",
"new": "py_call f (rev (map snd pa)) pk",
"edit": "positional values reversed",
"claim": "C101",
"def": "invoke_func"
},
{
"file": "TypeMagic",
"old": "if f_lambda f then py_call f vals []",
"new": "if f_lambda f then py_call f (rev vals) []",
"edit": "lambda gets reversed values",
"claim": "C101 lambdas",
"def": "invoke_func 2"
},
{
"file": "Api",
"old": "(fst s) (snd s) desc) spans",
"new": "(fst s) (snd s) None) spans",
"edit": "desc lost",
"claim": "C105",
"def": "from_spans_str"
},
{
"file": "Api",
"old": "let g := from_spans_ito src r desc in",
"new": "let g := from_spans_ito x r desc in",
"edit": "each span relative to the Ito before",
"claim": "C105",
"def": "from_spans_ito"
},
{
"file": "Api",
"old": "lit \"(\" ++ s",
"new": "s",
"edit": "parenthesis lost",
"claim": "C106",
"def": "ito_repr"
},
{
"file": "Api",
"old": "substr=%substr!r",
"new": "substr=%substr",
"edit": "substring not quoted",
"claim": "C106",
"def": "repr_spec"
},
{
"file": "Api",
"old": "(put (VO None None), Ok tt)",
"new": "(put (VO None (vo_attr (vo o i))), Ok tt)",
"edit": "entry stays when the function is removed",
"claim": "C107",
"def": "set_value_func"
},
{
"file": "Api",
"old": "set_value_func o1 n (Some f)",
"new": "(o1, Ok tt)",
"edit": "function lost in a clone",
"claim": "C107",
"def": "clone_value"
},
{
"file": "Api",
"old": "set_value_func o1 n (Some f)",
"new": "(o ++ [VO (Some f) (Some (f, i))], Ok tt)",
"edit": "clone calls the function on the original",
"claim": "C107",
"def": "clone_value 2"
},
{
"file": "Api",
"old": "Some (f, j) => VCall f j",
"new": "Some (f, j) => VCall f i",
"edit": "value computed from the Ito asked",
"claim": "C107 (harmless: an entry always closes over its own Ito)",
"def": "value"
},
{
"file": "NlpConf",
"old": "Definition set_least (o : para_obj) (n : nat) : para_obj := ParaObj n (para_rx n)",
"new": "Definition set_least (o : para_obj) (n : nat) : para_obj := ParaObj n (po_re o)",
"edit": "pattern not rebuilt",
"claim": "C93, C102 min_separators",
"def": "set_least"
},
{
"file": "NlpConf",
"old": "if trim then",
"new": "if negb trim then",
"edit": "trim_ws negated",
"claim": "C102",
"def": "para_prog"
},
{
"file": "NlpConf",
"old": "str_strip (fun _ => false)",
"new": "str_lstrip (fun _ => false)",
"edit": "only the left side stripped",
"claim": "C102 trim",
"def": "strip_wrap"
},
{
"file": "Table",
"old": "ZPlus (ZSeq (below row) (below (st_sep st)))",
"new": "ZStar (ZSeq (below row) (below (st_sep st)))",
"edit": "table without rows accepted",
"claim": "C95",
"def": "build_rx"
},
{
"file": "Table",
"old": "let row := ZGrp t_row (ZPlusL ZAny) in",
"new": "let row := ZGrp t_row (ZPlus ZAny) in",
"edit": "greedy rows",
"claim": "C97 rows end at the first separator",
"def": "build_rx 2"
},
{
"file": "Table",
"old": "if st_equi st then ZGrp t_indent indent_rx else ZLine;",
"new": "if st_equi st then ZGrp t_indent indent_rx else ZStr [];",
"edit": "table in the middle of a line",
"claim": "C95",
"def": "build_rx 3"
},
{
"file": "Table",
"old": "ZSeq (below (ZGrp t_post r)) eol_rx",
"new": "ZOpt (ZSeq (below (ZGrp t_post r)) eol_rx)",
"edit": "post caption optional",
"claim": "C95",
"def": "build_rx 4"
},
{
"file": "Table",
"old": "[t_pre; t_table; t_header; t_row; t_post]",
"new": "[t_pre; t_table; t_header; t_post]",
"edit": "rows not in the tree",
"claim": "C95",
"def": "table_keys"
},
{
"file": "Table",
"old": "[Con Delegate (PDesc t_chunk) 1]",
"new": "[Con Recurse (PDesc t_chunk) 1]",
"edit": "recurse for delegate",
"claim": "C96",
"def": "table_prog"
},
{
"file": "Table",
"old": "ZAlt nl_rx ZEnd",
"new": "nl_rx",
"edit": "last line of the text not part of a chunk",
"claim": "C96",
"def": "chunk_rx"
},
{
"file": "Table",
"old": "Style None rule_rx None rule_rx None None false",
"new": "Style None rule_rx None rule_rx None None true",
"edit": "equidistant",
"claim": "C103",
"def": "type_1"
},
{
"file": "Table",
"old": "bar_rx (Some edge_rx) None true",
"new": "edge_rx (Some edge_rx) None true",
"edit": "wrong separator",
"claim": "C104",
"def": "type_2"
},
{
"file": "Table",
"old": "rule_rx : trx := ZSeq (ZRep true 2 None dash_rx)",
"new": "rule_rx : trx := ZSeq (ZRep true 1 None dash_rx)",
"edit": "one dash suffices",
"claim": "C103",
"def": "rule_rx"
},
{
"file": "Table",
"old": "ZPlus (ZSeq (ZPlus dash_rx)",
"new": "ZStar (ZSeq (ZPlus dash_rx)",
"edit": "single bar",
"claim": "C104",
"def": "bar_rx"
}
]