[
 {
  "file": "ChildSeq",
  "def": "index_loop",
  "old": "if node_eqb h c v then Ok i else index_loop n h p v (i + 1) stop",
  "new": "if node_eqb h c v then Ok (i + 1) else index_loop n h p v (i + 1) stop",
  "edit": "position after the child",
  "claim": "C128 index"
 },
 {
  "file": "ChildSeq",
  "def": "index_loop 2",
  "old": "Some s => i <? s end",
  "new": "Some s => i <=? s end",
  "edit": "stop included",
  "claim": "C128 range"
 },
 {
  "file": "ChildSeq",
  "def": "index_loop 3",
  "old": "| Err IndexError => Err ValueError",
  "new": "| Err IndexError => Err IndexError",
  "edit": "IndexError at the end",
  "claim": "C128 error"
 },
 {
  "file": "ChildSeq",
  "def": "kids_index",
  "old": "Z.max (n + start) 0 else start)",
  "new": "Z.max (n + start) 1 else start)",
  "edit": "a far negative start skips the first child",
  "claim": "C128 range"
 },
 {
  "file": "ChildSeq",
  "def": "kids_index 2",
  "old": "Some (if s <? 0 then s + n else s)",
  "new": "Some s",
  "edit": "negative stop not counted from the end",
  "claim": "C128 range"
 },
 {
  "file": "ChildSeq",
  "def": "kids_count",
  "old": "zlen (filter (fun c => node_eqb h c v) (n_kids (nd h p)))",
  "new": "zlen (filter (fun c => (h_start h c =? h_start h v)) (n_kids (nd h p)))",
  "edit": "counts children with the same start",
  "claim": "C128 count"
 },
 {
  "file": "ChildSeq",
  "def": "reversed_from",
  "old": "Ok (c :: r)",
  "new": "Ok (r ++ [c])",
  "edit": "forward order",
  "claim": "C128 reversed"
 },
 {
  "file": "ChildSlices",
  "def": "kids_get_int",
  "old": "py_index (n_kids (nd h p)) k",
  "new": "py_index (n_kids (nd h p)) (Z.abs k)",
  "edit": "negative indices count from the front",
  "claim": "C123 reading"
 },
 {
  "file": "ChildSlices",
  "def": "kids_get_slice",
  "old": "Ok pos => Ok (map",
  "new": "Ok pos => Ok (rev (map",
  "edit": "slice in reverse",
  "claim": "C123 reading slices",
  "edits": [
   [
    "Ok pos => Ok (map (fun k => nth k (n_kids (nd h p)) 0%nat) pos)",
    "Ok pos => Ok (rev (map (fun k => nth k (n_kids (nd h p)) 0%nat) pos))"
   ]
  ]
 },
 {
  "file": "Axis",
  "def": "axis_find",
  "old": "(l, None) => let rv := dedup h [] l in to_ecs a (if ax_rev a then rev rv else rv, None) None",
  "new": "(l, None) => let rv := dedup h [] l in to_ecs a (rv, None) None",
  "edit": "-><  not reversed",
  "claim": "C45 order"
 },
 {
  "file": "Axis",
  "def": "axis_find 2",
  "old": "| None => match rev (fst g) with",
  "new": "| None => match fst g with",
  "edit": "<<< uses the first node of the input",
  "claim": "C43 preceding/following"
 },
 {
  "file": "Axis",
  "def": "axis_find 3",
  "old": "| [] => graise UnboundLocalError",
  "new": "| [] => ([], None)",
  "edit": "<<< of an empty input finds nothing",
  "claim": "C43 empty input"
 },
 {
  "file": "Axis",
  "def": "gflat",
  "old": "| (ys, Some e) => (ys, Some e)",
  "new": "| (ys, Some e) => ([], Some e)",
  "edit": "what was found at the failing node is lost",
  "claim": "C43 node by node"
 },
 {
  "file": "Query",
  "def": "parse_phrase",
  "old": "match parse_axis p with\n  | None => Err ValueError",
  "new": "match parse_axis p with\n  | None => Err KeyError",
  "edit": "another exception for a text without axis",
  "claim": "C125 ValueError"
 },
 {
  "file": "Query",
  "def": "parse_phrase 2",
  "old": "do f <- filt (firstn (k - n) (skipn n p));\n      Ok (PH ax f sq)",
  "new": "do f <- filt (firstn (k - n) (skipn n p));\n      Ok (PH ax f tautology)",
  "edit": "sub-query dropped",
  "claim": "C127 subqueries"
 },
 {
  "file": "Query",
  "def": "parse_phrase 3",
  "old": "do f <- filt (skipn n p); Ok (PH ax f tautology)",
  "new": "do f <- filt (skipn n p); Ok (PH ax tautology f)",
  "edit": "filter in the place of the sub-query",
  "claim": "C127 filters"
 },
 {
  "file": "Query",
  "def": "split_phrases",
  "old": "(c =? 47) && (depth =? 0)",
  "new": "(c =? 47)",
  "edit": "splits inside braces",
  "claim": "C127 subqueries"
 },
 {
  "file": "Query",
  "def": "parse_query_fuel",
  "old": "(zlen s =? 0) || negb (existsb (py_isprintable E) s)",
  "new": "(zlen s =? 0)",
  "edit": "unprintable texts accepted",
  "claim": "C125 ValueError"
 },
 {
  "file": "Py",
  "def": "drop_while",
  "old": "if p c then drop_while p s' else s",
  "new": "if p c then s' else s",
  "edit": "strips one character only",
  "claim": "C09 stripping"
 },
 {
  "file": "Py",
  "def": "py_rstrip",
  "old": "rev (drop_while (strip_set isspace chars) (rev s)).",
  "new": "rev (drop_while isspace (rev s)).",
  "edit": "rstrip ignores its argument",
  "claim": "C09 stripping"
 },
 {
  "file": "Py",
  "def": "py_partition",
  "old": "| None => (s, [], [])",
  "new": "| None => ([], [], s)",
  "edit": "partition without separator as rpartition",
  "claim": "C10 partition"
 },
 {
  "file": "Py",
  "def": "py_split_fuel",
  "old": "zsub s 0 i :: py_split_fuel f (zsub s (i + zlen sep) (zlen s)) sep (m - 1)",
  "new": "zsub s 0 i :: py_split_fuel f (zsub s (i + zlen sep) (zlen s)) sep m",
  "edit": "maxsplit not counted",
  "claim": "C11 maxsplit"
 },
 {
  "file": "Py",
  "def": "py_rsplit_fuel",
  "old": "| S f => if m =? 0 then [s]\n           else match rfind_in sep s with",
  "new": "| S f => if m =? 0 then [s]\n           else match find_in sep s with",
  "edit": "rsplit splits from the left",
  "claim": "C11 rsplit"
 },
 {
  "file": "Py",
  "def": "py_wsplit_fuel",
  "old": "| _ => if m =? 0 then [s]",
  "new": "| _ => if m =? 0 then []",
  "edit": "rest dropped at maxsplit",
  "claim": "C12 maxsplit"
 },
 {
  "file": "Py",
  "def": "take_line",
  "old": "if (c =? 13) && (d =? 10)",
  "new": "if (c =? 10) && (d =? 13)",
  "edit": "LF CR is one line end",
  "claim": "C13 line ends"
 },
 {
  "file": "Py",
  "def": "is_linebreak",
  "old": "[10; 11; 12; 13; 28; 29; 30; 133; 8232; 8233]",
  "new": "[10; 13]",
  "edit": "only LF and CR end lines",
  "claim": "C13 line ends"
 },
 {
  "file": "Py",
  "def": "py_splitlines_fuel",
  "old": "(if keep then b ++ e else b) ::",
  "new": "(if keep then b else b ++ e) ::",
  "edit": "keepends the wrong way round",
  "claim": "C13 keepends"
 },
 {
  "file": "Py",
  "def": "py_removeprefix",
  "old": "if prefixb p s then skipn (length p) s else s",
  "new": "if prefixb p s then skipn (length p - 1) s else s",
  "edit": "one character of the prefix kept",
  "claim": "C14 removeprefix"
 },
 {
  "file": "Py",
  "def": "py_removesuffix",
  "old": "firstn (length s - length p) s else s",
  "new": "firstn (length s - 1) s else s",
  "edit": "one character removed",
  "claim": "C14 removesuffix"
 },
 {
  "file": "Py",
  "def": "rfind_in",
  "old": "| None => if prefixb sub l then Some 0 else None",
  "new": "| None => None",
  "edit": "last occurrence only at the end",
  "claim": "C06 rfind"
 },
 {
  "file": "Py",
  "def": "count_in",
  "old": "then 1 + count_in f sub (skipn (length sub) l)",
  "new": "then 1 + count_in f sub l'",
  "edit": "overlapping occurrences counted",
  "claim": "C06 count"
 },
 {
  "file": "Py",
  "def": "adj_start",
  "old": "if v <? 0 then (if v + len <? 0 then 0 else v + len) else v\n  end.\n\n",
  "new": "if v <? 0 then v + len else v\n  end.\n\n",
  "edit": "negative start not clipped",
  "claim": "C06 start"
 },
 {
  "file": "Py",
  "def": "py_islower_from",
  "old": "if upper c || title c then false\n",
  "new": "if upper c then false\n",
  "edit": "title case accepted",
  "claim": "C08 islower"
 },
 {
  "file": "Py",
  "def": "py_startswith1",
  "old": "else eqb_str (zsub s i (i + zlen p)) p",
  "new": "else eqb_str (zsub s 0 (zlen p)) p",
  "edit": "start ignored",
  "claim": "C07 startswith"
 },
 {
  "file": "Py",
  "def": "slice_adjust",
  "old": "(if len <=? v then len else v)",
  "new": "v",
  "edit": "slice end not clipped",
  "claim": "C04 slices"
 },
 {
  "file": "Py",
  "def": "py_index",
  "old": "if k <? 0 then k + zlen l else k",
  "new": "k",
  "edit": "negative index not counted from the end",
  "claim": "C05 indexing"
 }
]