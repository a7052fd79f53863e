[
 {
  "file": "JsonDoc",
  "def": "dict_set",
  "old": "if eqb_str k' k then (k', v) :: r",
  "new": "if eqb_str k' k then (k', v') :: r",
  "edit": "the first of two equal keys wins",
  "claim": "C126 last key wins"
 },
 {
  "file": "JsonDoc",
  "def": "dict_item",
  "old": "None => Err KeyError",
  "new": "None => Err IndexError",
  "edit": "missing member raises IndexError",
  "claim": "C126 error kinds"
 },
 {
  "file": "JsonDoc",
  "def": "sub_item",
  "old": "VObj d => dict_item d k | _ => Err TypeError",
  "new": "VObj d => dict_item d k | _ => Err AttributeError",
  "edit": "item of a non-dict raises AttributeError",
  "claim": "C126 error kinds"
 },
 {
  "file": "JsonDoc",
  "def": "jv_iter",
  "old": "(h_stop h i - h_start h i)))\n  | _ => Err TypeError",
  "new": "(h_stop h i - h_start h i)))\n  | _ => Err OutOfFuel",
  "edit": "iterating a number never ends",
  "claim": "C126 ends"
 },
 {
  "file": "JsonDoc",
  "def": "jv_new",
  "old": "| _ => (h, Err TypeError)\n    end\n  | _, _",
  "new": "| _ => (set_par h 0 None, Err TypeError)\n    end\n  | _, _",
  "edit": "a bad source detaches an existing Ito",
  "claim": "C126 untouched"
 },
 {
  "file": "JsonDoc",
  "def": "jv_new",
  "old": "VIto i => new_sub h i a b d",
  "new": "VIto i => (h, Ok i)",
  "edit": "an Ito as string is returned itself",
  "claim": "C126 new Itos"
 },
 {
  "file": "JsonDoc",
  "def": "decode_ito",
  "old": "add_hier (hier_fuel h2) None h2 rv cs",
  "new": "add_hier 0 None h2 rv cs",
  "edit": "recursion limit hit",
  "claim": "C126 error kinds"
 },
 {
  "file": "JsonDoc",
  "def": "decode_ito",
  "old": "obind (add_hier (hier_fuel h2) None h2 rv cs) (fun h3 _ => (h3, Ok rv))",
  "new": "(set_kids h2 rv cs, Ok rv)",
  "edit": "children stored without checks",
  "claim": "C126 well-formed"
 },
 {
  "file": "JsonDoc",
  "def": "decode_ito",
  "old": "| None | Some VNull => (h1, Ok rv)",
  "new": "| None | Some VNull => (h, Ok rv)",
  "edit": "the new Ito is lost",
  "claim": "C126 new Itos"
 },
 {
  "file": "JsonDoc",
  "def": "jv_size",
  "old": "VArr l => S (list_sum (map jv_size l))",
  "new": "VArr l => 1%nat",
  "edit": "depth of arrays not counted",
  "claim": "C126 ends"
 },
 {
  "file": "JsonDoc",
  "def": "is_ito_dict",
  "old": "eqb_str t js_type && eqb_str v js_version",
  "new": "eqb_str t js_type || eqb_str v js_version",
  "edit": "type or version suffices",
  "claim": "C126 plain documents"
 },
 {
  "file": "JsonDoc",
  "def": "is_ito_dict",
  "old": "| _, _ => false",
  "new": "| _, _ => true",
  "edit": "objects without type are taken for Itos",
  "claim": "C126 plain documents"
 },
 {
  "file": "JsonDoc",
  "def": "decoder_hook",
  "old": "match str with Some s => Ok (VStr s) | None => Err ValueError end",
  "new": "match str with Some s => Ok (VStr s) | None => Err StopIteration end",
  "edit": "missing string raises StopIteration",
  "claim": "C126 error kinds"
 },
 {
  "file": "JsonDoc",
  "def": "decoder_hook",
  "old": "(match r with Some i => VIto i | None => VNull end)",
  "new": "(VIto (match r with Some i => i | None => 0%nat end))",
  "edit": "nothing found gives an old Ito",
  "claim": "C126 new Itos"
 },
 {
  "file": "JsonDoc",
  "def": "decoder_hook",
  "old": "ito_find E h1 no_env rv p",
  "new": "ito_find E h1 no_env 0%nat p",
  "edit": "path searched from an existing Ito",
  "claim": "C126 new Itos"
 },
 {
  "file": "JsonDoc",
  "def": "decoder_hook",
  "old": "else (h, Ok (VObj d))",
  "new": "else (h, Ok VNull)",
  "edit": "plain objects dropped",
  "claim": "C126 plain documents"
 },
 {
  "file": "JsonDoc",
  "def": "loads",
  "old": "DBool b => (h, Ok (VBool b))",
  "new": "DBool b => (h, Ok (VInt (if b then 1 else 0)))",
  "edit": "bools become ints",
  "claim": "C126 plain documents"
 },
 {
  "file": "JsonDoc",
  "def": "loads",
  "old": "(h2, Ok (v :: vs))",
  "new": "(h2, Ok (vs ++ [v]))",
  "edit": "arrays reversed",
  "claim": "C126 plain documents"
 },
 {
  "file": "JsonDoc",
  "def": "loads",
  "old": "go h1 (dict_set acc k v) r",
  "new": "go h1 (match r with [] => acc | _ => dict_set acc k v end) r",
  "edit": "last member dropped",
  "claim": "C126 plain documents"
 },
 {
  "file": "JsonDoc",
  "def": "loads",
  "old": "fun h1 kv => hook h1 kv",
  "new": "fun h1 kv => hook h kv",
  "edit": "objects made by members are lost",
  "claim": "C126 new Itos"
 }
]