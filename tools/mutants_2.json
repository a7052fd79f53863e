[
 {
  "file": "Combin",
  "def": "key_eqb",
  "old": "eqb_ostr (f_desc f) (f_desc g) && ",
  "new": "",
  "edit": "desc not compared",
  "claim": "C37 == Itos have equal desc"
 },
 {
  "file": "Combin",
  "def": "ito_hash",
  "old": "hash (ito_key (c_f a))",
  "new": "hash (let k := ito_key (c_f a) in (fst (fst (fst k)), Some (Z.of_nat (c_id a)), snd (fst k), snd k))",
  "edit": "hash depends on the identity",
  "claim": "C37 equal Itos hash equal"
 },
 {
  "file": "Combin",
  "def": "op_eq",
  "old": "if negb (c_cls a =? c_cls b)%nat && sub (c_cls b) (c_cls a) then ito_eq sub b a else ito_eq sub a b",
  "new": "ito_eq sub a b",
  "edit": "no reflected call for subclasses",
  "claim": "C37 == symmetric"
 },
 {
  "file": "Combin",
  "def": "from_re",
  "old": "if 0 <? k then firstn (Z.to_nat k) (fst r) else []",
  "new": "firstn (S (Z.to_nat k)) (fst r)",
  "edit": "one result too many",
  "claim": "C28 limit"
 },
 {
  "file": "Combin",
  "def": "fr_loop",
  "old": "if k <=? zlen rv' then",
  "new": "if k <? zlen rv' then",
  "edit": "one match too many consumed",
  "claim": "C28 the search stops at the limit"
 },
 {
  "file": "Axis",
  "def": "axis_of AxAncs",
  "old": "Ok (if reverse then rev l else l))",
  "new": "Ok (if reverse then l else rev l))",
  "edit": "ancestors from the root down",
  "claim": "C41 ancestors nearest first"
 },
 {
  "file": "Axis",
  "def": "axis_of AxPrevs",
  "old": "if reverse then firstn idx ks else rev (firstn idx ks)",
  "new": "if reverse then firstn (S idx) ks else rev (firstn (S idx) ks)",
  "edit": "node itself among its preceding siblings",
  "claim": "C41 preceding siblings"
 },
 {
  "file": "Axis",
  "def": "axis_of AxNext",
  "old": "if (idx <? length ks - 1)%nat",
  "new": "if (idx <? length ks)%nat",
  "edit": "next sibling of the last child",
  "claim": "C41 next sibling"
 },
 {
  "file": "Axis",
  "def": "axis_of AxNexts",
  "old": "if reverse then rev (skipn (idx + 1) ks) else skipn (idx + 1) ks",
  "new": "if reverse then skipn (idx + 1) ks else skipn (idx + 1) ks",
  "edit": "reverse ignored for following siblings",
  "claim": "C41 reverse order"
 },
 {
  "file": "Axis",
  "def": "axis_of AxLeaves",
  "old": "match n_kids (nd h j) with [] => true | _ => false end",
  "new": "match n_kids (nd h j) with [] => true | [_] => true | _ => false end",
  "edit": "node with one child is a leaf",
  "claim": "C41 leaves"
 },
 {
  "file": "Axis",
  "def": "axis_of AxRoot",
  "old": "Ok (match rev l with [] => [] | r :: _ => [r] end)",
  "new": "Ok (match l with [] => [] | r :: _ => [r] end)",
  "edit": "root is the parent",
  "claim": "C41 root"
 },
 {
  "file": "Axis",
  "def": "axis_of AxPrec",
  "old": "filter (fun j => negb (existsb (fun a => node_eqb h a j) ancs))",
  "new": "filter (fun j => true)",
  "edit": "ancestors among the preceding nodes",
  "claim": "C42 preceding excludes ancestors"
 },
 {
  "file": "Axis",
  "def": "axis_of AxFoll",
  "old": "drop_while_l (fun j => h_start h j <? h_stop h i) l",
  "new": "drop_while_l (fun j => h_start h j <=? h_stop h i) l",
  "edit": "adjacent following node skipped",
  "claim": "C42 following nodes"
 },
 {
  "file": "Axis",
  "def": "to_ecs",
  "old": "if (first =? s)%nat then rest else first :: rest",
  "new": "first :: rest",
  "edit": "self twice with !!",
  "claim": "C44 !! adds self once"
 },
 {
  "file": "Axis",
  "def": "to_ecs 2",
  "old": "| OsAlways, true, Some s => ys ++ [s]",
  "new": "| OsAlways, true, Some s => s :: ys",
  "edit": "self first in reverse order",
  "claim": "C44 !! in reverse order"
 },
 {
  "file": "Axis",
  "def": "to_ecs 3",
  "old": "| OsNo, _ | _, None => []",
  "new": "| OsEmpty, _ | OsNo, _ | _, None => []",
  "edit": "! does nothing",
  "claim": "C44 ! gives self when nothing is found"
 },
 {
  "file": "Axis",
  "def": "number",
  "old": "combine (seq 0 (length l)) l",
  "new": "combine (seq 1 (length l)) l",
  "edit": "numbering from 1",
  "claim": "C44 numbering from 0"
 },
 {
  "file": "Axis",
  "def": "dedup",
  "old": "x :: dedup h (x :: seen) r",
  "new": "x :: dedup h seen r",
  "edit": "duplicates kept",
  "claim": "C45 dedup"
 },
 {
  "file": "Axis",
  "def": "axis_find",
  "old": "| k => gbind g (fun i => to_ecs a (axis_of h k (ax_rev a) i) (Some i))",
  "new": "| k => gbind (firstn 1 (fst g), snd g) (fun i => to_ecs a (axis_of h k (ax_rev a) i) (Some i))",
  "edit": "only the first input node used",
  "claim": "C43 axis over several nodes"
 },
 {
  "file": "Query",
  "def": "highest",
  "old": "match first_with c_xor ops 0 with\n            | Some i => Some (i, xorb)\n            | None => match first_with c_or ops 0 with Some i => Some (i, orb) | None => None end\n            end",
  "new": "match first_with c_or ops 0 with\n            | Some i => Some (i, orb)\n            | None => match first_with c_xor ops 0 with Some i => Some (i, xorb) | None => None end\n            end",
  "edit": "or binds tighter than xor",
  "claim": "C46 precedence"
 },
 {
  "file": "Query",
  "def": "eval_one",
  "old": "Nat.odd (count_char c_not op)",
  "new": "(0 <? count_char c_not op)%nat",
  "edit": "~~ is ~",
  "claim": "C46 double negation"
 },
 {
  "file": "Query",
  "def": "reduce",
  "old": "(firstn i ops ++ skipn (S i) ops)",
  "new": "(removelast ops)",
  "edit": "wrong operator dropped",
  "claim": "C46 evaluation order"
 },
 {
  "file": "Query",
  "def": "filter_func KDesc",
  "old": "Ok (let b := opt_mem (f_desc (n_f (nd h (snd ec)))) l in if n then negb b else b))",
  "new": "Ok (opt_mem (f_desc (n_f (nd h (snd ec)))) l))",
  "edit": "~ ignored for desc",
  "claim": "C47 [~k:v] is the negation"
 },
 {
  "file": "Query",
  "def": "any_or_none",
  "old": "if n then g_all (fun x => not_if true (f x)) g else g_any f g",
  "new": "if n then g_any (fun x => not_if true (f x)) g else g_any f g",
  "edit": "~ of several affixes: any instead of all",
  "claim": "C47 [~k:v]"
 },
 {
  "file": "Query",
  "def": "index_range",
  "old": "then match py_int E b with Some y => Ok (x, Some y)",
  "new": "then match py_int E b with Some y => Ok (x, Some (y + 1))",
  "edit": "upper bound inclusive",
  "claim": "C64 index ranges"
 },
 {
  "file": "Query",
  "def": "in_range",
  "old": "(fst r <=? Z.of_nat k)",
  "new": "(fst r <? Z.of_nat k)",
  "edit": "lower bound exclusive",
  "claim": "C64 index ranges"
 },
 {
  "file": "Query",
  "def": "descaped",
  "old": "g_map descape (pieces v)",
  "new": "g_map (fun s => Ok s) (pieces v)",
  "edit": "values not descaped",
  "claim": "C63 escaped values match"
 },
 {
  "file": "Query",
  "def": "phrase_test",
  "old": "if b then ph_sub p h r ec else Ok false",
  "new": "if b then Ok true else Ok false",
  "edit": "sub-query ignored",
  "claim": "C46 filters and sub-queries are combined"
 },
 {
  "file": "Query",
  "def": "query_find_all",
  "old": "fold_left (fun g p => phrase_find p h r g) q ([i], None)",
  "new": "fold_left (fun g p => phrase_find p h r g) (firstn 2 q) ([i], None)",
  "edit": "only two phrases run",
  "claim": "C48 composition"
 },
 {
  "file": "Query",
  "def": "split_phrases",
  "old": "else if (c =? 47) && (depth =? 0) then",
  "new": "else if (c =? 47) then",
  "edit": "slash inside a sub-query splits",
  "claim": "C46 sub-queries may contain paths"
 },
 {
  "file": "Query",
  "def": "split_phrases 2",
  "old": "if esc then split_phrases r false depth (c :: cur)",
  "new": "if esc then split_phrases r false depth cur",
  "edit": "escaped character lost",
  "claim": "C63 escaped values"
 },
 {
  "file": "Query",
  "def": "path_fuel",
  "old": "lit \"/*[i:\" ++ dec k ++ lit \"]\"",
  "new": "lit \"/*[i:\" ++ dec (S k) ++ lit \"]\"",
  "edit": "path counts from 1",
  "claim": "C49 find(path) finds the node"
 },
 {
  "file": "Query",
  "def": "parse_axis",
  "old": "| 2%nat => AxParent | 3%nat => AxAncs",
  "new": "| 2%nat => AxAncs | 3%nat => AxParent",
  "edit": ".. and ... swapped",
  "claim": "C41 the axis texts mean the axes"
 },
 {
  "file": "Json",
  "def": "ito_encoder",
  "old": "JArr [JInt (f_start f); JInt (f_stop f)]",
  "new": "JArr [JInt (f_start f); JInt (f_stop f - f_start f)]",
  "edit": "length instead of stop",
  "claim": "C50 round trip"
 },
 {
  "file": "Json",
  "def": "json_encode",
  "old": "(lit \"path\", JStr (snd bp))",
  "new": "(lit \"path\", JStr (lit \".\"))",
  "edit": "path always .",
  "claim": "C50 the decoded node is the encoded one"
 },
 {
  "file": "Json",
  "def": "json_hook",
  "old": "match jget obj (lit \"string\") with JStr s => Some s | _ => str end",
  "new": "match str with Some s => Some s | None => match jget obj (lit \"string\") with JStr s => Some s | _ => None end end",
  "edit": "supplied string preferred",
  "claim": "C50 the string of the document wins"
 },
 {
  "file": "Json",
  "def": "ito_encoder 2",
  "old": "if full_tree\n    then do cs",
  "new": "if negb full_tree\n    then do cs",
  "edit": "children written when not asked",
  "claim": "C50 full_tree"
 },
 {
  "file": "Json",
  "def": "set_state",
  "old": "fold_left (fun h c => set_par h c (Some i)) ks (upd h i (fun _ => Nd f None ks))",
  "new": "upd h i (fun _ => Nd f None ks)",
  "edit": "parents not restored",
  "claim": "C51 unpickled children have their parent"
 },
 {
  "file": "Json",
  "def": "pickle_load",
  "old": "(set_state h1 i (FI s a b d None) ks, i)",
  "new": "(set_state h1 i (FI s a b d None) (rev ks), i)",
  "edit": "children reversed",
  "claim": "C51 round trip"
 },
 {
  "file": "Arbor",
  "def": "flow",
  "old": "| Recurse => sfor (trav (c_itor c) i) (flow trav r)",
  "new": "| Recurse => sfor (trav (c_itor c) i) (fun j => Yield j Stop)",
  "edit": "later connectors skipped after Recurse",
  "claim": "C53 Recurse"
 },
 {
  "file": "Arbor",
  "def": "flow 2",
  "old": "| Delegate => trav (c_itor c) i",
  "new": "| Delegate => sfor (trav (c_itor c) i) (flow trav r)",
  "edit": "Delegate goes on with later connectors",
  "claim": "C53 Delegate"
 },
 {
  "file": "Arbor",
  "def": "flow 3",
  "old": "| Subroutine => sdrop (trav (c_itor c) i) (flow trav r i)",
  "new": "| Subroutine => flow trav r i",
  "edit": "Subroutine not run",
  "claim": "C53 Subroutine"
 },
 {
  "file": "Arbor",
  "def": "call",
  "old": "act (clone_of i None None None true) (fun j => traverse fuel P t j).",
  "new": "traverse fuel P t i.",
  "edit": "argument not cloned",
  "claim": "C52 the argument is not changed"
 },
 {
  "file": "Arbor",
  "def": "split_piece",
  "old": "| RTrailing => (h_stop h p, h_stop h cur)",
  "new": "| RTrailing => (h_start h p, h_stop h cur)",
  "edit": "piece overlaps the boundary before",
  "claim": "C54 pieces tile"
 },
 {
  "file": "Arbor",
  "def": "split_end",
  "old": "act (fun h => split_clone i desc (h_start h p, h_stop h i) h)",
  "new": "act (fun h => split_clone i desc (h_stop h p, h_stop h i) h)",
  "edit": "last leading boundary lost",
  "claim": "C54 leading boundaries are kept"
 },
 {
  "file": "Arbor",
  "def": "itor_split_loop",
  "old": "itor_split_loop limit br zero desc i (count + 1) (Some cur) (rv ++ l) k",
  "new": "itor_split_loop limit br zero desc i count (Some cur) (rv ++ l) k",
  "edit": "limit never reached",
  "claim": "C54 limit"
 },
 {
  "file": "Arbor",
  "def": "invert_loop",
  "old": "if start <? a\n",
  "new": "if start <=? a\n",
  "edit": "empty gap pieces",
  "claim": "C55 gaps nonempty"
 },
 {
  "file": "Arbor",
  "def": "invert_loop 2",
  "old": "if fst ab <? snd ab\n",
  "new": "if false\n",
  "edit": "tail lost",
  "claim": "C55 gaps cover everything else"
 },
 {
  "file": "Arbor",
  "def": "nuco",
  "old": "sfirst (call t) (nuco call r)",
  "new": "sapp (call t) (nuco call r)",
  "edit": "all itorators used",
  "claim": "C56 first non-empty result"
 },
 {
  "file": "Arbor",
  "def": "windowed",
  "old": "| x :: w => Yield x (windowed size pred desc w k)",
  "new": "| x :: w => Yield x (windowed size pred desc [] k)",
  "edit": "window emptied after a miss",
  "claim": "C57 windows slide"
 },
 {
  "file": "Arbor",
  "def": "windowed 2",
  "old": "| Stop => of_list window",
  "new": "| Stop => Stop",
  "edit": "tail lost",
  "claim": "C57 no item lost"
 },
 {
  "file": "Arbor",
  "def": "stacked",
  "old": "if b then act (reduce stack) (fun j => Yield j start)",
  "new": "if b then act (reduce (stack ++ [i])) (fun j => Yield j start)",
  "edit": "popping item included",
  "claim": "C58 pop excludes the item"
 },
 {
  "file": "Arbor",
  "def": "stacked 2",
  "old": "| Stop => match stack with [] => Stop | _ => act (reduce stack) (fun j => Yield j Stop) end",
  "new": "| Stop => Stop",
  "edit": "last stack lost",
  "claim": "C58 remaining stack reduced"
 },
 {
  "file": "Arbor",
  "def": "transform_of TExtract",
  "old": "of_list\n    end",
  "new": "(fun l => of_list (rev l))\n    end",
  "edit": "matches reversed",
  "claim": "C65 matches in order"
 },
 {
  "file": "Arbor",
  "def": "attach",
  "old": "| CReplace => obind (kids_clear h i) (fun h1 _ => kids_add h1 i cs)",
  "new": "| CReplace => kids_add h i cs",
  "edit": "old children kept",
  "claim": "C53 Replace"
 },
 {
  "file": "Onto",
  "def": "apply_rule",
  "old": "apply_rule r t (rv ++ l) h1",
  "new": "apply_rule r t l h1",
  "edit": "only the last Ito's findings kept",
  "claim": "C59 discoveries"
 },
 {
  "file": "Onto",
  "def": "flatten_at",
  "old": "if filter_empties then [] else [(path, itos)]",
  "new": "[(path, itos)]",
  "edit": "empties kept",
  "claim": "C59 filter_empties"
 },
 {
  "file": "Onto",
  "def": "d_walk",
  "old": "itos ++ flat_map (fun kv => d_walk (snd kv)) items",
  "new": "flat_map (fun kv => d_walk (snd kv)) items ++ itos",
  "edit": "children before the node",
  "claim": "C59 walk order"
 },
 {
  "file": "Onto",
  "def": "onto_special",
  "old": "lit \"\\].\"",
  "new": "lit \"\\]\"",
  "edit": "dot not escaped",
  "claim": "C66 escape"
 },
 {
  "file": "Highlight",
  "def": "hl_gaps",
  "old": "hl_gaps f h pred backs i r (h_stop h c) k2",
  "new": "hl_gaps f h pred backs i r (h_start h c) k2",
  "edit": "child printed twice",
  "claim": "C60 text preserved"
 },
 {
  "file": "Highlight",
  "def": "hl_compose",
  "old": "(c ++ s ++ pl_reset back, S k, None)",
  "new": "(c ++ s ++ pl_reset back, k, None)",
  "edit": "same colour for ever",
  "claim": "C60 colours cycle"
 },
 {
  "file": "Highlight",
  "def": "from_color",
  "old": "sgr_encode [pl_by_idx p; 2; r; g; b]",
  "new": "sgr_encode [pl_by_idx p; 2; r; b; g]",
  "edit": "green and blue swapped",
  "claim": "C67 RGB code"
 },
 {
  "file": "Highlight",
  "def": "back",
  "old": "pl_offset fore + 10",
  "new": "pl_offset fore",
  "edit": "background is foreground",
  "claim": "C67 planes differ"
 },
 {
  "file": "Highlight",
  "def": "rgb_from_24_bit",
  "old": "Z.land (Z.shiftr val 8) 255",
  "new": "Z.shiftr val 8",
  "edit": "green not masked",
  "claim": "C67 24 bit colours"
 },
 {
  "file": "Format",
  "def": "abbreviate",
  "old": "if width <? zlen sub then",
  "new": "if width <=? zlen sub then",
  "edit": "text that fits exactly is abbreviated",
  "claim": "C61 unchanged if it fits"
 },
 {
  "file": "Format",
  "def": "abbreviate 2",
  "old": "py_slice sub None (Some (width - zlen abbr)) ++ abbr",
  "new": "py_slice sub None (Some width) ++ abbr",
  "edit": "abbreviation added beyond the width",
  "claim": "C61 width"
 },
 {
  "file": "Format",
  "def": "abbreviate 3",
  "old": "| Some 60 => abbr ++ py_slice sub (Some (zlen abbr - width)) None",
  "new": "| Some 60 => abbr ++ py_slice sub None (Some (width - zlen abbr))",
  "edit": "wrong end kept",
  "claim": "C61 position"
 },
 {
  "file": "Format",
  "def": "fmt_replace",
  "old": "Ok (py_slice rv1 None (Some a) ++ sub ++ py_slice rv1 (Some b) None)",
  "new": "Ok (py_slice rv1 None (Some a) ++ sub ++ py_slice rv1 (Some (b + 1)) None)",
  "edit": "character after a directive eaten",
  "claim": "C68 directives are independent"
 },
 {
  "file": "Format",
  "def": "fmt_item",
  "old": "| FInt DStop f => fe_int E (f_stop i) f",
  "new": "| FInt DStop f => fe_int E (f_stop i - 1) f",
  "edit": "stop shown inclusive",
  "claim": "C68 %stop"
 },
 {
  "file": "Format",
  "def": "fmt_text",
  "old": "| DDesc => Ok (odflt (f_desc i) [])",
  "new": "| DDesc => Ok (odflt (f_desc i) (lit \"None\"))",
  "edit": "None shown",
  "claim": "C68 %desc"
 },
 {
  "file": "Format",
  "def": "fmt_conv",
  "old": "Some (- fe_num E r)",
  "new": "Some (fe_num E r)",
  "edit": "rslice from the left",
  "claim": "C69 slices"
 }
]