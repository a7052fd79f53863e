[
 {
  "file": "Box",
  "def": "ds_reflect",
  "old": "(reflect (fst x) surface, snd x)",
  "new": "(reflect (fst x) surface, light)",
  "edit": "reflected arm loses its style",
  "claim": "C76"
 },
 {
  "file": "Box",
  "def": "ds_insert",
  "old": "if dvalue (fst x) <? dvalue (fst y) then x :: l",
  "new": "if dvalue (fst y) <? dvalue (fst x) then x :: l",
  "edit": "sorted the other way",
  "claim": "C75"
 },
 {
  "file": "Box",
  "def": "from_name",
  "old": "eqb_str (b_name b) n",
  "new": "eqb_str n n",
  "edit": "first entry whatever the name",
  "claim": "C75 from_name"
 },
 {
  "file": "Box",
  "def": "style_distance 2",
  "old": "b2z (negb (path_eqb p p'))",
  "new": "0",
  "edit": "arcs not told from segments",
  "claim": "C75"
 },
 {
  "file": "Box",
  "def": "distance 2",
  "old": "None => 4",
  "new": "None => 0",
  "edit": "missing arm costs nothing",
  "claim": "C75"
 },
 {
  "file": "Box",
  "def": "from_direction_styles",
  "old": "distance b targets =? 0",
  "new": "distance b targets <=? 1",
  "edit": "exact search accepts near misses",
  "claim": "C75"
 },
 {
  "file": "Box",
  "def": "fuzzy_loop 2",
  "old": "if d <? s then",
  "new": "if d <=? s then",
  "edit": "last of the nearest",
  "claim": "C75"
 },
 {
  "file": "Box",
  "def": "bdc_rotate",
  "old": "map (ds_rotate degrees) (b_ds b)",
  "new": "map (ds_rotate (- degrees)) (b_ds b)",
  "edit": "turned the other way",
  "claim": "C76"
 },
 {
  "file": "Box",
  "def": "bdc_reflect",
  "old": "map (ds_reflect surface) (b_ds b)",
  "new": "b_ds b",
  "edit": "not reflected",
  "claim": "C76"
 },
 {
  "file": "Box",
  "def": "center 2",
  "old": "rep_str [32] (pad / 2) ++ s ++ rep_str [32] (pad - pad / 2)",
  "new": "rep_str [32] (pad - pad / 2) ++ s ++ rep_str [32] (pad / 2)",
  "edit": "odd column to the left",
  "claim": "C77"
 },
 {
  "file": "Box",
  "def": "from_lines 2",
  "old": "[bx_sw b ++ rep_str (bx_s b) (m + 2) ++ bx_se b]",
  "new": "[bx_sw b ++ rep_str (bx_n b) (m + 2) ++ bx_se b]",
  "edit": "north side at the bottom",
  "claim": "C77"
 },
 {
  "file": "Box",
  "def": "from_srcs",
  "old": "str_splitlines s false None",
  "new": "str_splitlines s true None",
  "edit": "line ends kept",
  "claim": "C77"
 },
 {
  "file": "Box",
  "def": "from_sides 2",
  "old": "(side 3%nat) (side 1%nat)",
  "new": "(side 1%nat) (side 3%nat)",
  "edit": "west and east exchanged",
  "claim": "C78"
 },
 {
  "file": "Box",
  "def": "spread_sides 2",
  "old": "(rotate (four side_dirs prior DN) 45)",
  "new": "(rotate (four side_dirs prior DN) (-45))",
  "edit": "reflected at the other diagonal",
  "claim": "C78"
 },
 {
  "file": "Box",
  "def": "side_corner 2",
  "old": "ds_get (b_ds b) (rotate d (-90))",
  "new": "ds_get (b_ds b) (rotate d 90)",
  "edit": "other end of the next side",
  "claim": "C78"
 },
 {
  "file": "Box",
  "def": "check_arms 2",
  "old": "None => true | Some _ => false end) arms",
  "new": "None => false | Some _ => true end) arms",
  "edit": "sides with both arms refused",
  "claim": "C78"
 },
 {
  "file": "Box",
  "def": "corner_score",
  "old": "Some _ => true end) [d1; d2]",
  "new": "Some _ => true end) [d1; d1]",
  "edit": "second arm not looked at",
  "claim": "C79"
 },
 {
  "file": "Box",
  "def": "from_corners",
  "old": "Z.of_nat (length corners) * 2",
  "new": "Z.of_nat (length corners)",
  "edit": "half the arms suffice",
  "claim": "C79"
 },
 {
  "file": "Box",
  "def": "from_corners 2",
  "old": "(4 <? length l)%nat",
  "new": "(5 <? length l)%nat",
  "edit": "five corners taken",
  "claim": "C79"
 },
 {
  "file": "Box",
  "def": "corner_link 2",
  "old": "ds_get (b_ds y) (snd db)",
  "new": "ds_get (b_ds y) (fst db)",
  "edit": "other arm of the second corner",
  "claim": "C79"
 },
 {
  "file": "ItoStr",
  "def": "clone_f",
  "old": "(Some (odflt stop (f_stop i)))",
  "new": "(Some (odflt stop (f_stop i - 1)))",
  "edit": "default stop one short",
  "claim": "C17 clone"
 },
 {
  "file": "ItoStr",
  "def": "str_removeprefix",
  "old": "ito_of_ito i (Some (zlen p)) None (f_desc i)",
  "new": "ito_of_ito i (Some (zlen p)) None None",
  "edit": "desc lost",
  "claim": "C14"
 },
 {
  "file": "ItoStr",
  "def": "wsplit_loop",
  "old": "wsplit_loop n isspace self (f_stop s) (m - 1)",
  "new": "wsplit_loop n isspace self (f_stop s) m",
  "edit": "maxsplit not counted down",
  "claim": "C12 maxsplit"
 },
 {
  "file": "ItoStr",
  "def": "rwsplit_loop",
  "old": "rwsplit_loop n isspace self (f_start s - 1) (m - 1)",
  "new": "rwsplit_loop n isspace self (f_start s - 2) (m - 1)",
  "edit": "one character too many skipped",
  "claim": "C12 rsplit"
 },
 {
  "file": "ItoStr",
  "def": "str_rwsplit",
  "old": "rwsplit_loop fuel isspace self (ito_len self - 1) m []",
  "new": "rwsplit_loop fuel isspace self (ito_len self) m []",
  "edit": "starts behind the end",
  "claim": "C12 rsplit"
 },
 {
  "file": "ItoStr",
  "def": "nearest_non_ws",
  "old": "nn_loop isspace self 1 (zrange start (f_stop self)) None start",
  "new": "nn_loop isspace self 1 (zrange start (f_stop self - 1)) None start",
  "edit": "last character not read",
  "claim": "C12"
 },
 {
  "file": "ItoStr",
  "def": "to_line_col",
  "old": "if prior =? -1 then (1, f_start i + 1)",
  "new": "if prior =? -1 then (1, f_start i)",
  "edit": "column from 0 in the first line",
  "claim": "C16"
 },
 {
  "file": "ItoStr",
  "def": "to_line_col 2",
  "old": "py_rfind (f_str i) eol (Some 0) (Some (f_start i))",
  "new": "py_rfind (f_str i) eol (Some 0) (Some (f_stop i))",
  "edit": "line ends inside the Ito counted",
  "claim": "C16"
 },
 {
  "file": "Query",
  "def": "filter_func pred",
  "old": "g_all (fun p => not_if n (p ec)) (selected d keys, None)",
  "new": "g_all (fun p => p ec) (selected d keys, None)",
  "edit": "~ ignored for predicates",
  "claim": "C129"
 },
 {
  "file": "Query",
  "def": "filter_func value",
  "old": "existsb (rv_eq r v) (selected d keys) in if n then negb b else b",
  "new": "existsb (rv_eq r v) (selected d keys) in b",
  "edit": "~ ignored for values",
  "claim": "C129"
 },
 {
  "file": "Query",
  "def": "filter_func value 2",
  "old": "do v <- rv_value r (snd ec); do d <- validate (rv_values r)",
  "new": "do v <- rv_value r (fst ec); do d <- validate (rv_values r)",
  "edit": "value of another node",
  "claim": "C129"
 },
 {
  "file": "Query",
  "def": "filter_func text",
  "old": "b := mem_str (node_str h (snd ec)) l in",
  "new": "b := mem_str (node_str h (fst ec)) l in",
  "edit": "text of another node",
  "claim": "C47"
 },
 {
  "file": "Arbor",
  "def": "set_vf",
  "old": "(f_desc f) v), Ok tt)",
  "new": "None v), Ok tt)",
  "edit": "desc lost",
  "claim": "C130 value func"
 },
 {
  "file": "Arbor",
  "def": "transform_of filter",
  "old": "if b then Yield i Stop else Stop)  (* filter",
  "new": "if b then Stop else Yield i Stop)  (* filter",
  "edit": "filter turned round",
  "claim": "C130 filter"
 },
 {
  "file": "Arbor",
  "def": "transform_of desc",
  "old": "ask (fun h => f h i) (fun d => act (set_desc i d)",
  "new": "ask (fun h => f h i) (fun d => act (set_desc i (match d with None => Some [] | _ => d end))",
  "edit": "None becomes an empty desc",
  "claim": "C130 desc"
 },
 {
  "file": "Arbor",
  "def": "flow pred",
  "old": "else flow trav r i)",
  "new": "else Yield i Stop)",
  "edit": "later connectors skipped when the predicate is false",
  "claim": "C53"
 },
 {
  "file": "Arbor",
  "def": "call",
  "old": "act (clone_of i None None None true) (fun j => traverse fuel P t j).",
  "new": "act (clone_of i None None None false) (fun j => traverse fuel P t j).",
  "edit": "children not cloned",
  "claim": "C52, C130"
 },
 {
  "file": "Combin",
  "def": "from_match",
  "old": "sort_caps (captures m gks)",
  "new": "captures m gks",
  "edit": "captures not sorted",
  "claim": "C27"
 },
 {
  "file": "Combin",
  "def": "key_eqb",
  "old": "eqb_ostr (f_desc f) (f_desc g) &&",
  "new": "",
  "edit": "desc not compared",
  "claim": "C37"
 },
 {
  "file": "Combin",
  "def": "ng_span",
  "old": "NSpan s => offset s off",
  "new": "NSpan s => Ok s",
  "edit": "span of a non-gap not offset",
  "claim": "C30"
 }
]