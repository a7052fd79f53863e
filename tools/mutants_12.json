[
 {
  "file": "Query",
  "def": "validate",
  "old": "Ok d | None => Err ValueError",
  "new": "Ok d | None => Err KeyError",
  "edit": "missing dictionary is a KeyError",
  "claim": "C129 (relabelled)"
 },
 {
  "file": "Query",
  "def": "ecf_combined 2",
  "old": "total_count c_open ops =? total_count c_close ops",
  "new": "total_count c_open ops =? total_count c_open ops",
  "edit": "brackets not counted",
  "claim": "C46 (relabelled)"
 },
 {
  "file": "Query",
  "def": "count_unesc",
  "old": "if x =? 92 then count_unesc c (negb esc) r",
  "new": "if x =? 92 then count_unesc c true r",
  "edit": "an escaped backslash escapes",
  "claim": "C46 (relabelled)"
 },
 {
  "file": "Query",
  "def": "sub_func",
  "old": "Ok (match o with Some _ => true | None => false end)",
  "new": "Ok (match o with Some j => negb (j =? snd ec)%nat | None => false end)",
  "edit": "a sub-query that finds the node itself does not count",
  "claim": "C46 (relabelled)"
 },
 {
  "file": "Query",
  "def": "find_curl",
  "old": "match run with Some false => true | _ => false end",
  "new": "true",
  "edit": "an escaped brace opens a sub-query",
  "claim": "C46 (relabelled)"
 },
 {
  "file": "Combin",
  "def": "ng_span",
  "old": "NSpan s => offset s off",
  "new": "NSpan s => Ok s",
  "edit": "span of a non-gap not offset (again, after tightening)",
  "claim": "C30"
 },
 {
  "file": "Combin",
  "def": "ng_span 2",
  "old": "if eqb_str (f_str f) basis then Ok (f_start f, f_stop f) else Err ValueError",
  "new": "Ok (f_start f, f_stop f)",
  "edit": "an Ito of another string accepted as a non-gap",
  "claim": "C30"
 },
 {
  "file": "Combin",
  "def": "gk_from_filter",
  "old": "flat_map (fun igk => if filt (snd igk) then [snd igk]\n                       else if filt (KInt (Z.of_nat (fst igk))) then [KInt (Z.of_nat (fst igk))] else [])",
  "new": "flat_map (fun igk => if filt (KInt (Z.of_nat (fst igk))) then [KInt (Z.of_nat (fst igk))]\n                       else if filt (snd igk) then [snd igk] else [])",
  "edit": "numbers preferred to names",
  "claim": "C29"
 },
 {
  "file": "Combin",
  "def": "from_re",
  "old": "gk_from_filter (gk_preferred re) (p m)",
  "new": "gk_from_filter (map (fun i => KInt (Z.of_nat i)) (seq 0 (S (re_groups re)))) (p m)",
  "edit": "names of groups ignored by a predicate filter",
  "claim": "C28"
 },
 {
  "file": "Combin",
  "def": "from_re 2",
  "old": "match (match gf with GFKeys l => gk_validate re l | GFPred _ => Ok tt end) with",
  "new": "match Ok tt : res unit with",
  "edit": "keys not validated",
  "claim": "C28"
 },
 {
  "file": "ItoStr",
  "def": "str_strip",
  "old": "| RNew j => RNew (deref j (str_rstrip isspace j chars))",
  "new": "| RNew j => RNew j",
  "edit": "strip stops after lstrip",
  "claim": "C133"
 },
 {
  "file": "ItoStr",
  "def": "str_strip 2",
  "old": "match str_lstrip isspace i chars with\n  | RSelf => str_rstrip isspace i chars\n  | RNew j => RNew (deref j (str_rstrip isspace j chars))",
  "new": "match str_rstrip isspace i chars with\n  | RSelf => str_lstrip isspace i chars\n  | RNew j => RNew (deref j (str_lstrip isspace j chars))",
  "edit": "strip strips the right end first",
  "claim": "C133"
 },
 {
  "file": "ItoStr",
  "def": "rsplit_loop",
  "old": "clone_f self (Some (j + zlen sep)) (Some i) None :: rv)",
  "new": "clone_f self (Some (j + zlen sep)) (Some i) (Some None) :: rv)",
  "edit": "rsplit drops the descriptor",
  "claim": "C133"
 }
]