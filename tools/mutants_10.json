[
 {
  "file": "Query",
  "def": "any_list",
  "old": "do b <- f x; if b then Ok true else any_list f r err",
  "new": "do b <- f x; if b then Ok true else Ok false",
  "edit": "any() looks at the first item only",
  "claim": "C47"
 },
 {
  "file": "Query",
  "def": "all_list",
  "old": "if b then all_list f r err else Ok false",
  "new": "if b then Ok true else Ok false",
  "edit": "all() looks at the first item only",
  "claim": "C47"
 },
 {
  "file": "Query",
  "def": "filter_list",
  "old": "| Ok false => filter_list f r err",
  "new": "| Ok false => ([], err)",
  "edit": "filter stops at the first refusal",
  "claim": "C48"
 },
 {
  "file": "Query",
  "def": "g_next",
  "old": "| (x :: _, _) => Ok (Some x)",
  "new": "| (x :: _, Some e) => Err e | (x :: _, None) => Ok (Some x)",
  "edit": "find consumes the whole query",
  "claim": "C48"
 },
 {
  "file": "Query",
  "def": "filter_func KCfEw",
  "old": "any_or_none n (fun s => do d <- descape s;\n                          Ok (py_endswith",
  "new": "any_or_none (negb n) (fun s => do d <- descape s;\n                          Ok (py_endswith",
  "edit": "scfew negated",
  "claim": "C47"
 },
 {
  "file": "Query",
  "def": "filter_func KCfSw",
  "old": "Ok (py_startswith (py_casefold E (node_str h (snd ec))) (AStr (py_casefold E d)) None None))",
  "new": "Ok (py_startswith (node_str h (snd ec)) (AStr (py_casefold E d)) None None))",
  "edit": "scfsw does not fold the text",
  "claim": "C47"
 },
 {
  "file": "Query",
  "def": "filter_func KIndex",
  "old": "existsb (in_range (fst ec)) rs",
  "new": "forallb (in_range (fst ec)) rs",
  "edit": "an index must be in all ranges",
  "claim": "C64"
 },
 {
  "file": "Query",
  "def": "validate",
  "old": "Ok d | None => Err ValueError",
  "new": "Ok d | None => Err KeyError",
  "edit": "missing dictionary is a KeyError",
  "claim": "C47"
 },
 {
  "file": "Query",
  "def": "combined_func",
  "old": "reduce (length vals) vals (removelast (tl ops))",
  "new": "reduce (length vals) vals (removelast ops)",
  "edit": "operands shifted by one",
  "claim": "C46"
 },
 {
  "file": "Query",
  "def": "last_with",
  "old": "(if has c op then Some i else acc)",
  "new": "(match acc with None => if has c op then Some i else None | _ => acc end)",
  "edit": "outermost parenthesis first",
  "claim": "C46"
 },
 {
  "file": "Query",
  "def": "ecf_combined",
  "old": "if (length fs =? 0)%nat then Err ValueError\n    else if negb (length ops =? length fs + 1)%nat then Err ValueError\n    else ",
  "new": "if (length fs =? 0)%nat then Err ValueError\n    else ",
  "edit": "number of operands not checked",
  "claim": "C125"
 },
 {
  "file": "Query",
  "def": "ecf_combined 2",
  "old": "total_count c_open ops =? total_count c_close ops",
  "new": "total_count c_open ops =? total_count c_open ops",
  "edit": "brackets not counted",
  "claim": "C125"
 },
 {
  "file": "Query",
  "def": "count_unesc",
  "old": "if x =? 92 then count_unesc c (negb esc) r",
  "new": "if x =? 92 then count_unesc c true r",
  "edit": "an escaped backslash escapes",
  "claim": "C125"
 },
 {
  "file": "Query",
  "def": "group_ops",
  "old": "if negb first && (zlen op' =? 0) then Err ValueError",
  "new": "if (zlen op' =? 0) then Err ValueError",
  "edit": "an operator is demanded before the first filter",
  "claim": "C47"
 },
 {
  "file": "Query",
  "def": "key_char",
  "old": "((97 <=? c) && (c <=? 122))",
  "new": "((97 <=? c) && (c <=? 121))",
  "edit": "no z in keys",
  "claim": "C129"
 },
 {
  "file": "Query",
  "def": "tautology",
  "old": "Ok true.",
  "new": "Ok false.",
  "edit": "a phrase without filter finds nothing",
  "claim": "C48"
 },
 {
  "file": "Query",
  "def": "phrase_find",
  "old": "(map snd (fst y), snd y)",
  "new": "(map snd (rev (fst y)), snd y)",
  "edit": "results in the opposite order",
  "claim": "C48"
 },
 {
  "file": "Query",
  "def": "sub_func",
  "old": "Ok (match o with Some _ => true | None => false end)",
  "new": "Ok (match o with Some j => negb (j =? snd ec)%nat | None => false end)",
  "edit": "a sub-query that finds the node itself does not count",
  "claim": "C48"
 },
 {
  "file": "Query",
  "def": "walk_back",
  "old": "if mem_char (nth k' s 0) op_chars then walk_back s k' else k",
  "new": "k",
  "edit": "operators before a sub-query stay with the filter",
  "claim": "C46"
 },
 {
  "file": "Query",
  "def": "find_curl",
  "old": "match run with Some false => true | _ => false end",
  "new": "true",
  "edit": "an escaped brace opens a sub-query",
  "claim": "C63"
 },
 {
  "file": "Query",
  "def": "uint_str",
  "old": "| Decimal.D9 u => 57 :: uint_str u",
  "new": "| Decimal.D9 u => 56 :: uint_str u",
  "edit": "9 printed as 8",
  "claim": "C49"
 },
 {
  "file": "Query",
  "def": "ito_find",
  "old": "query_find q h r i.",
  "new": "Ok (Some i).",
  "edit": "find gives the Ito itself",
  "claim": "C48"
 },
 {
  "file": "Onto",
  "def": "dict_set",
  "old": "if eqb k' k then (k', v) :: r",
  "new": "if eqb k' k then (k', v') :: r",
  "edit": "existing key keeps its value",
  "claim": "C59"
 },
 {
  "file": "Onto",
  "def": "apply_rule",
  "old": "apply_rule r t (rv ++ l) h1",
  "new": "apply_rule r t (l ++ rv) h1",
  "edit": "later finds first",
  "claim": "C59"
 },
 {
  "file": "Onto",
  "def": "discover",
  "old": "discover v itos",
  "new": "discover v found",
  "edit": "subontologies only see what the rules found",
  "claim": "C59"
 },
 {
  "file": "Onto",
  "def": "each_key",
  "old": "dict_update eqb_path rv (f k v)",
  "new": "dict_update eqb_path (f k v) rv",
  "edit": "deeper entries before",
  "claim": "C59"
 },
 {
  "file": "Onto",
  "def": "flatten_at",
  "old": "(path ++ [k])",
  "new": "(k :: path)",
  "edit": "path reversed",
  "claim": "C59"
 },
 {
  "file": "Onto",
  "def": "o_path",
  "old": "match r with [] => Ok v | _ => o_path v r end",
  "new": "Ok v",
  "edit": "only the first key is followed",
  "claim": "C59"
 },
 {
  "file": "Onto",
  "def": "onto_descape_loop",
  "old": "onto_descape_loop v' (rv ++ [c]) false",
  "new": "onto_descape_loop v' (c :: rv) false",
  "edit": "reversed",
  "claim": "C66"
 },
 {
  "file": "Highlight",
  "def": "sgr_encode",
  "old": "lit \"0\" | _ => py_join (lit \";\")",
  "new": "lit \"0\" | _ => py_join (lit \":\")",
  "edit": "separator",
  "claim": "C67"
 },
 {
  "file": "Highlight",
  "def": "fore",
  "old": "pl_by_idx := 38",
  "new": "pl_by_idx := 48",
  "edit": "foreground index is the background one",
  "claim": "C67"
 },
 {
  "file": "Highlight",
  "def": "hl_print",
  "old": "(n_kids (nd h i)) (h_start h i) k",
  "new": "(n_kids (nd h i)) 0 k",
  "edit": "text before the Ito highlighted",
  "claim": "C60"
 },
 {
  "file": "Highlight",
  "def": "p_then",
  "old": "(s ++ s', k', e)",
  "new": "(s ++ s', k, e)",
  "edit": "colours repeat",
  "claim": "C60"
 },
 {
  "file": "Infix",
  "def": "py_or",
  "old": "Ok (VInfix (OrFun f a))",
  "new": "Ok (VInfix (ShiftFun f a))",
  "edit": "kind of partial application",
  "claim": "C113"
 },
 {
  "file": "Infix",
  "def": "icall",
  "old": "| OrFun g x => match args with [y] => icall E g [x; y]",
  "new": "| OrFun g x => match args with [y] => icall E g [y; x]",
  "edit": "arguments swapped",
  "claim": "C113"
 },
 {
  "file": "Format",
  "def": "fill_align",
  "old": "if mem_char a al then r else if mem_char f al then r' else s",
  "new": "if mem_char f al then r' else s",
  "edit": "fill character not allowed",
  "claim": "C68"
 },
 {
  "file": "Format",
  "def": "strip_pre",
  "old": "| _ :: _, [] => None",
  "new": "| _ :: _, [] => Some []",
  "edit": "a directive cut short",
  "claim": "C68"
 },
 {
  "file": "Format",
  "def": "opt_class",
  "old": "if mem_char c cs then r else s",
  "new": "if mem_char c cs then r else r",
  "edit": "any character eaten",
  "claim": "C68"
 }
]