[
{
"file": "Heap",
"def": "bisect_right",
"old": "if x <? key mid then bisect_right n key x lo mid",
"new": "if x <=? key mid then bisect_right n key x lo mid",
"edit": "bisect_left instead of bisect_right for stops",
"claim": "C23 add_hierarchical nests"
},
{
"file": "Heap",
"def": "bfind_start",
"old": "negb (key_at starts i =? x) then (false, i)",
"new": "negb (key_at starts i <=? x) then (false, i)",
"edit": "found although the start differs",
"claim": "C18 add"
},
{
"file": "Heap",
"def": "clear_pars",
"old": "fold_left (fun h c => set_par h c None) cs h",
"new": "h",
"edit": "deleted children keep their parent",
"claim": "C19 invariant"
},
{
"file": "Heap",
"def": "slice_bounds",
"old": "if n <=? v then hi else v",
"new": "if n <? v then hi else v",
"edit": "slice bound equal to the length not clamped",
"claim": "C22 deletion by slice"
},
{
"file": "Heap",
"def": "slice_bounds 2",
"old": "None => if step <? 0 then hi else lo end,",
"new": "None => lo end,",
"edit": "open slice with negative step starts at the front",
"claim": "C21 slice assignment"
},
{
"file": "Heap",
"def": "py_pos",
"old": "let k' := if k <? 0 then k + Z.of_nat n else k in",
"new": "let k' := k in",
"edit": "negative positions refused",
"claim": "C22 pop(-1)"
},
{
"file": "Heap",
"def": "kids_contains",
"old": "fst (bfind_start (starts_of h (n_kids (nd h p))) (h_start h c))",
"new": "fst (bfind_start (stops_of h (n_kids (nd h p))) (h_start h c))",
"edit": "looks among the stops",
"claim": "C22 in"
},
{
"file": "Heap",
"def": "kids_remove",
"old": "if found && (nth i ks 0 =? c)%nat then",
"new": "if found then",
"edit": "removes an Ito with the same start",
"claim": "C22 remove"
},
{
"file": "Heap",
"def": "kids_put",
"old": "else if negb (between_ok (starts_of h ks) (stops_of h ks) i (h_start h c) (h_stop h c)) then (h, Err ValueError)\n  else if negb (set_parent_ok h c p)",
"new": "else if negb (set_parent_ok h c p)",
"edit": "no test against the neighbours",
"claim": "C19 invariant"
},
{
"file": "Heap",
"def": "kids_set_int",
"old": "kids_put h1 p (Z.to_nat start) c).",
"new": "kids_put h1 p (Z.to_nat k) c).",
"edit": "negative key not resolved for the insertion",
"claim": "C21 assignment at -1"
},
{
"file": "Heap",
"def": "kids_put_all",
"old": "kids_put_all h1 p (S i) cs')",
"new": "kids_put_all h1 p i cs')",
"edit": "inserted in reverse",
"claim": "C21 slice assignment"
},
{
"file": "Heap",
"def": "map_clone",
"old": "(h2, Ok (c' :: cs'))",
"new": "(h2, Ok (c :: cs'))",
"edit": "originals handed to the clone",
"claim": "C17 clone"
},
{
"file": "Heap",
"def": "clone_h",
"old": "clone_h n h c None None None true) h1",
"new": "clone_h n h c None None None false) h1",
"edit": "grandchildren not cloned",
"claim": "C17 clone"
},
{
"file": "Heap",
"def": "clone_h 2",
"old": "(clone_f (n_f (nd h i)) start stop desc)) (fun h1 rv",
"new": "(clone_f (n_f (nd h i)) start None desc)) (fun h1 rv",
"edit": "stop ignored",
"claim": "C17 clone with a span"
},
{
"file": "AddHier",
"def": "hier_action",
"old": "if b <=? key_at stops (i - 1) then ARec (i - 1)",
"new": "if b <? key_at stops (i - 1) then ARec (i - 1)",
"edit": "an Ito that ends with the child before is not nested",
"claim": "C23 nesting"
},
{
"file": "AddHier",
"def": "add_hier1",
"old": "(kids_pop h c (-1)) (fun h1 d =>",
"new": "(kids_pop h c 0) (fun h1 d =>",
"edit": "children taken from the front",
"claim": "C24 order among equals"
},
{
"file": "AddHier",
"def": "add_hier",
"old": "obind (add_hier1 fuel key h p c) (fun h1 _ => add_hier fuel key h1 p cs')",
"new": "obind (add_hier fuel key h p cs') (fun h1 _ => add_hier1 fuel key h1 p c)",
"edit": "arguments in reverse",
"claim": "C24 order"
},
{
"file": "AddHier",
"def": "key_deeper",
"old": "Some f => f k <=? f c end",
"new": "Some f => f c <=? f k end",
"edit": "key compared the wrong way round",
"claim": "C24 key"
},
{
"file": "Combin",
"def": "from_gaps",
"old": "(Some (Z.min (fst last) endd)) desc) rest",
"new": "(Some (fst last)) desc) rest",
"edit": "first gap may reach beyond the end",
"claim": "C30 gaps"
},
{
"file": "Combin",
"def": "strip_to_children",
"old": "let stop := h_stop h (last (c0 :: ks) c0) in",
"new": "let stop := h_stop h c0 in",
"edit": "stop of the first child",
"claim": "C34 strip_to_children"
},
{
"file": "Combin",
"def": "ito_join",
"old": "extent (f_str x) (f_start x) (f_stop x) r",
"new": "extent (f_str x) 0 (f_stop x) r",
"edit": "join starts at 0",
"claim": "C33 join"
},
{
"file": "Combin",
"def": "gk_preferred",
"old": "list_set rv (snd ni) (KStr (fst ni))",
"new": "list_set rv (pred (snd ni)) (KStr (fst ni))",
"edit": "names one group too early",
"claim": "C29 preferred keys"
},
{
"file": "Combin",
"def": "gk_validate",
"old": "repeat None (S (re_groups re))",
"new": "repeat None (re_groups re)",
"edit": "the last group is not known",
"claim": "C29 validate"
},
{
"file": "Combin",
"def": "gk_validate_loop",
"old": "gk_validate_loop re (list_set tmp i (Some gk)) r",
"new": "gk_validate_loop re tmp r",
"edit": "duplicates accepted",
"claim": "C29 validate"
},
{
"file": "Combin",
"def": "insert_cap",
"old": "if cap_le (fst x) (fst y) then x :: l",
"new": "if negb (cap_le (fst y) (fst x)) then x :: l",
"edit": "captures with equal spans swapped",
"claim": "C27 nesting of equal captures"
},
{
"file": "Combin",
"def": "captures",
"old": "map (fun s => (s, gk)) (rm_spans m gk)",
"new": "map (fun s => (s, gk)) (firstn 1 (rm_spans m gk))",
"edit": "only the first capture of a group",
"claim": "C27 repeated captures"
},
{
"file": "Combin",
"def": "fm_loop",
"old": "fm_loop h2 s df (c :: p :: st) roots r",
"new": "fm_loop h2 s df (p :: st) roots r",
"edit": "stack not pushed",
"claim": "C27 nesting"
},
{
"file": "Combin",
"def": "from_re",
"old": "if 0 <? k then firstn (Z.to_nat k) (fst r) else []",
"new": "fst r",
"edit": "more than the limit",
"claim": "C28 limit"
},
{
"file": "Combin",
"def": "key_eqb",
"old": "eqb_oz (f_vf f) (f_vf g) &&",
"new": "true &&",
"edit": "value function not compared",
"claim": "C37 equality"
},
{
"file": "Combin",
"def": "op_eq",
"old": "then ito_eq sub b a else ito_eq sub a b",
"new": "then ito_eq sub a b else ito_eq sub a b",
"edit": "reflected comparison not asked first",
"claim": "C37 symmetry"
},
{
"file": "Axis",
"def": "seq_index",
"old": "if node_eqb h c i then Ok k",
"new": "if (c =? i)%nat then Ok k",
"edit": "index by identity (the twin sibling)",
"claim": "C41 siblings"
},
{
"file": "Axis",
"def": "dedup",
"old": "x :: dedup h (x :: seen) r",
"new": "x :: dedup h seen r",
"edit": "nothing remembered",
"claim": "C45 dedup"
},
{
"file": "Axis",
"def": "axis_of",
"old": "drop_while_l (fun j => h_start h j <? h_stop h i) l)",
"new": "drop_while_l (fun j => h_start h j <=? h_stop h i) l)",
"edit": "the next adjacent Ito lost",
"claim": "C42 following"
},
{
"file": "Axis",
"def": "axis_of 2",
"old": "negb (existsb (fun a => node_eqb h a j) ancs)",
"new": "true",
"edit": "ancestors among the preceding",
"claim": "C42 preceding"
},
{
"file": "Axis",
"def": "anc_list",
"old": "do l <- anc_list n h p; Ok (p :: l)",
"new": "do l <- anc_list n h p; Ok (l ++ [p])",
"edit": "ancestors from the root down",
"claim": "C41 ancestors"
},
{
"file": "Axis",
"def": "to_ecs",
"old": "| OsAlways, true, Some s => ys ++ [s]",
"new": "| OsAlways, true, Some s => s :: ys",
"edit": "self first in reverse",
"claim": "C44 or_self"
},
{
"file": "Query",
"def": "filter_keys",
"old": "(KEw, [lit \"str-ew\"; lit \"sew\"]);\n   (KSw, [lit \"str-sw\"; lit \"ssw\"]);",
"new": "(KSw, [lit \"str-ew\"; lit \"sew\"]);\n   (KEw, [lit \"str-sw\"; lit \"ssw\"]);",
"edit": "prefix and suffix filters swapped",
"claim": "C63 values"
},
{
"file": "Query",
"def": "selected",
"old": "filter (fun e => mem_str (fst e) keys) d",
"new": "d",
"edit": "all predicates used",
"claim": "C47 predicates"
},
{
"file": "Query",
"def": "highest",
"old": "match first_with c_xor ops 0 with\n            | Some i => Some (i, xorb)\n            | None => match first_with c_or ops 0 with Some i => Some (i, orb) | None => None end",
"new": "match first_with c_or ops 0 with\n            | Some i => Some (i, orb)\n            | None => match first_with c_xor ops 0 with Some i => Some (i, xorb) | None => None end",
"edit": "or binds stronger than xor",
"claim": "C46 precedence"
},
{
"file": "Query",
"def": "reduce",
"old": "let v := f (nth i vals false) (nth (S i) vals false) in",
"new": "let v := f (nth i vals false) (nth i vals false) in",
"edit": "left operand used twice",
"claim": "C46 evaluation"
},
{
"file": "Query",
"def": "paren_loop",
"old": "do f <- sub (firstn (j - i) (skipn i fs))",
"new": "do f <- sub (firstn (j - i) (skipn (S i) fs))",
"edit": "wrong functions in the bracket",
"claim": "C46 brackets"
},
{
"file": "Query",
"def": "eval_one",
"old": "not_if (Nat.odd (count_char c_not op))",
"new": "not_if (0 <? count_char c_not op)%nat",
"edit": "double negation negates",
"claim": "C46 double negation"
},
{
"file": "Query",
"def": "parse_filter",
"old": "drop_while (re_space E) rest, rest with",
"new": "rest, rest with",
"edit": "white space before the value kept",
"claim": "C63 value"
},
{
"file": "Query",
"def": "groups",
"old": "if (x =? o) && negb bs then groups o c r bs' (S depth) pre (x :: cur)",
"new": "if (x =? o) then groups o c r bs' (S depth) pre (x :: cur)",
"edit": "escaped bracket opens a group",
"claim": "C63 escape"
},
{
"file": "Query",
"def": "position",
"old": "if (y =? x)%nat then Some k else position x r (S k)",
"new": "if (y =? x)%nat then Some (S k) else position x r (S k)",
"edit": "numbers from 1",
"claim": "C49 path"
},
{
"file": "Arbor",
"def": "scollect",
"old": "scollect s' (acc ++ [i]) k",
"new": "scollect s' (i :: acc) k",
"edit": "results in reverse",
"claim": "C53 connectors"
},
{
"file": "Arbor",
"def": "sdrop",
"old": "Yield _ s' => sdrop s' k",
"new": "Yield _ s' => k",
"edit": "only the first result asked for",
"claim": "C53 subroutine"
},
{
"file": "Arbor",
"def": "sfirst",
"old": "| Yield i k => Yield i k\n  | Act g k => Act g (fun h => sfirst (k h) other)",
"new": "| Yield i k => Yield i Stop\n  | Act g k => Act g (fun h => sfirst (k h) other)",
"edit": "only one result",
"claim": "C56 nuco"
},
{
"file": "Arbor",
"def": "eval_pred",
"old": "match f_desc (n_f (nd h i)) with None => true | Some _ => false end",
"new": "true",
"edit": "None accepts all",
"claim": "C53 predicate None"
},
{
"file": "Arbor",
"def": "split_clone",
"old": "if fst ab =? snd ab then (h, Ok [])",
"new": "if snd ab <? fst ab then (h, Ok [])",
"edit": "empty pieces returned",
"claim": "C54 split"
},
{
"file": "Arbor",
"def": "under_limit",
"old": "count <? n end",
"new": "count <=? n end",
"edit": "one boundary too many",
"claim": "C54 limit"
},
{
"file": "Arbor",
"def": "split_transform",
"old": "then act (clone_of i None None (Some desc) false) (fun j => Yield j Stop)\n  else itor",
"new": "then Yield i Stop\n  else itor",
"edit": "the argument itself returned",
"claim": "C54 limit 0"
},
{
"file": "Arbor",
"def": "set_desc",
"old": "FI (f_str f) (f_start f) (f_stop f) d (f_vf f)",
"new": "FI (f_str f) (f_start f) (f_stop f) d None",
"edit": "value function lost",
"claim": "C52 Desc"
},
{
"file": "Arbor",
"def": "attach",
"old": "| CReplace => obind (kids_clear h i) (fun h1 _ => kids_add h1 i cs)",
"new": "| CReplace => kids_add h i cs",
"edit": "children kept",
"claim": "C53 replace"
},
{
"file": "Arbor",
"def": "remove_all",
"old": "obind (kids_remove h i c) (fun h1 _ => remove_all h1 i r)",
"new": "kids_remove h i c",
"edit": "only the first removed",
"claim": "C53 delete"
},
{
"file": "Arbor",
"def": "traverse",
"old": "(fun j => traverse n P t j) in\n    run_post",
"new": "(fun j => traverse n P t i) in\n    run_post",
"edit": "works on the argument",
"claim": "C52 inner calls"
},
{
"file": "Arbor",
"def": "flow",
"old": "| Delegate => trav (c_itor c) i",
"new": "| Delegate => sfor (trav (c_itor c) i) (flow trav r)",
"edit": "delegate goes on",
"claim": "C53 delegate"
},
{
"file": "Arbor",
"def": "windowed",
"old": "Yield j (windowed size pred desc [] k)",
"new": "Yield j (windowed size pred desc [j] k)",
"edit": "join starts the next window",
"claim": "C57 window"
},
{
"file": "Arbor",
"def": "stacked",
"old": "| Stop => match stack with [] => Stop | _ => act (reduce stack) (fun j => Yield j Stop) end",
"new": "| Stop => of_list stack",
"edit": "rest not reduced",
"claim": "C58 reduce"
},
{
"file": "Arbor",
"def": "invert_loop",
"old": "if fst ab <? snd ab\n",
"new": "if fst ab <=? snd ab\n",
"edit": "empty last gap",
"claim": "C55 invert"
},
{
"file": "Arbor",
"def": "attach 2",
"old": "| CAddHier => add_hier (hier_fuel h) None h i cs",
"new": "| CAddHier => kids_add h i cs",
"edit": "plain add",
"claim": "C53 add_hierarchical"
},
{
"file": "Ctors",
"def": "int_of",
"old": "| ABool b => Some (if b then 1 else 0) | _ => None",
"new": "| _ => None",
"edit": "True refused as int",
"claim": "C120 limit"
},
{
"file": "Ctors",
"def": "new_connector",
"old": "ANone => Ok (Con k PNoDesc t)",
"new": "ANone => Ok (Con k (PFun (fun _ _ => Ok true)) t)",
"edit": "None accepts all",
"claim": "C120 connector"
},
{
"file": "Ctors",
"def": "new_window",
"old": "if n <? 2 then Err ValueError",
"new": "if n <? 1 then Err ValueError",
"edit": "window of one",
"claim": "C120 window"
},
{
"file": "Ctors",
"def": "new_stack",
"old": "Ok (PostStack (as_reduce r) (as_spred p) (Some (as_spred q)))",
"new": "Ok (PostStack (as_reduce r) (as_spred q) (Some (as_spred p)))",
"edit": "push and pop swapped",
"claim": "C120 stack"
},
{
"file": "Ctors",
"def": "new_split",
"old": "Ok (Splitting by_ n r b d)",
"new": "Ok (Splitting by_ n r (negb b) d)",
"edit": "zero split inverted",
"claim": "C120 split"
},
{
"file": "Ctors",
"def": "new_desc",
"old": "| AStr s => Ok (TDesc (fun _ _ => Ok (Some s)))",
"new": "| AStr s => Ok (TDesc (fun _ _ => Ok None))",
"edit": "desc dropped",
"claim": "C120 desc"
},
{
"file": "Ctors",
"def": "check_tag",
"old": "ANone | AStr _ => Ok tt | _ => Err TypeError",
"new": "AStr _ => Ok tt | _ => Err TypeError",
"edit": "None refused as tag",
"claim": "C120 tag"
},
{
"file": "Ctors",
"def": "filter_of",
"old": "| AKeys l => do _ <- gk_validate re l; Ok (GFKeys l)",
"new": "| AKeys l => Ok (GFKeys l)",
"edit": "keys not validated",
"claim": "C120 extract"
},
{
"file": "CharSet",
"def": "re_escape",
"old": "if esc c then [92; c] else [c]",
"new": "[c]",
"edit": "nothing escaped",
"claim": "C118 char set"
},
{
"file": "CharSet",
"def": "to_re_char_set",
"old": "CDict l => Ok (lit \"[\" ++ (if inclusive then [] else lit \"^\") ++ re_escape esc (concat (map snd l))",
"new": "CDict l => Ok (lit \"[\" ++ (if inclusive then [] else lit \"^\") ++ re_escape esc (concat (map fst l))",
"edit": "keys instead of values",
"claim": "C118 char set"
},
{
"file": "CharSet",
"def": "to_re_char_set 2",
"old": "CIter l => do t <- join_all l; Ok (lit \"[\" ++ (if inclusive then [] else lit \"^\")",
"new": "CIter l => do t <- join_all l; Ok (lit \"[\" ++ (if inclusive then lit \"^\" else [])",
"edit": "negation inverted",
"claim": "C118 char set"
},
{
"file": "Onto",
"def": "apply_rule",
"old": "apply_rule r t (rv ++ l) h1",
"new": "apply_rule r t (l ++ rv) h1",
"edit": "later finds first",
"claim": "C59 discovery order"
},
{
"file": "Onto",
"def": "flatten_at",
"old": "if filter_empties then [] else [(path, itos)]",
"new": "[(path, itos)]",
"edit": "empties kept",
"claim": "C59 flatten"
},
{
"file": "Onto",
"def": "d_walk",
"old": "itos ++ flat_map (fun kv => d_walk (snd kv)) items",
"new": "flat_map (fun kv => d_walk (snd kv)) items ++ itos",
"edit": "children first",
"claim": "C59 walk"
},
{
"file": "Onto",
"def": "o_path",
"old": "match r with [] => Ok v | _ => o_path v r end",
"new": "Ok v",
"edit": "only the first key used",
"claim": "C59 path"
},
{
"file": "Onto",
"def": "onto_descape_loop",
"old": "if esc then Err ValueError else Ok rv",
"new": "Ok rv",
"edit": "a final backslash is dropped",
"claim": "C66 escape"
},
{
"file": "Json",
"def": "ito_encoder",
"old": "Ok (JObj (rv ++ [(lit \"children\", JArr cs)]))",
"new": "Ok (JObj (rv ++ [(lit \"children\", JArr (rev cs))]))",
"edit": "children in reverse (harmless for the tree)",
"claim": "C50 json"
},
{
"file": "Json",
"def": "json_encode",
"old": "do j <- ito_encoder (depth_fuel h) full_tree h b",
"new": "do j <- ito_encoder (depth_fuel h) full_tree h i",
"edit": "the Ito instead of the root written",
"claim": "C50 full tree"
},
{
"file": "Json",
"def": "json_hook",
"old": "ito_find E h1 no_env rv p",
"new": "Ok (Some rv)",
"edit": "root returned",
"claim": "C50 path"
},
{
"file": "Json",
"def": "pickle_dump",
"old": "Ok (PS (f_str f) (f_start f) (f_stop f) (f_desc f) ks)",
"new": "Ok (PS (f_str f) (f_start f) (f_stop f) None ks)",
"edit": "desc not pickled",
"claim": "C51 pickle"
},
{
"file": "Json",
"def": "set_state",
"old": "fold_left (fun h c => set_par h c (Some i)) ks (upd",
"new": "(fun x => x) (upd",
"edit": "parents of the children not set",
"claim": "C51 pickle"
},
{
"file": "Errors",
"def": "type_strs",
"old": "| YPipe l => flat_map type_strs l",
"new": "| YPipe l => flat_map type_strs (rev l)",
"edit": "members in reverse",
"claim": "C122 text"
},
{
"file": "Errors",
"def": "actual",
"old": "if v_callable v then v_sig v else Ok (v_repr v)",
"new": "Ok (v_repr v)",
"edit": "functions shown by repr",
"claim": "C122 text"
},
{
"file": "Errors",
"def": "str_join",
"old": "x ++ sep ++ str_join sep r end",
"new": "x ++ str_join sep r end",
"edit": "no or between",
"claim": "C122 text"
}
]