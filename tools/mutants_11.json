[
 {
  "file": "ItoStr",
  "def": "getitem_tail",
  "old": "else RNew (clone_f i (Some (fst sp)) (Some (snd sp)) None).",
  "new": "else RNew (clone_f i (Some (fst sp)) (Some (snd sp)) (Some None)).",
  "edit": "slice loses the descriptor",
  "claim": "C132"
 },
 {
  "file": "ItoStr",
  "def": "str_lstrip",
  "old": "if k =? f_start i then RSelf else RNew (clone_f i (Some k) None None).",
  "new": "if k =? f_start i then RSelf else RNew (clone_f i (Some k) None (Some None)).",
  "edit": "lstrip loses the descriptor",
  "claim": "C132"
 },
 {
  "file": "ItoStr",
  "def": "str_rstrip",
  "old": "if k =? f_stop i - 1 then RSelf else RNew (clone_f i None (Some (k + 1)) None).",
  "new": "if k =? f_stop i - 1 then RSelf else RNew (clone_f i None (Some (k + 1)) (Some None)).",
  "edit": "rstrip loses the descriptor",
  "claim": "C132"
 },
 {
  "file": "ItoStr",
  "def": "split_loop",
  "old": "Ok (clone_f self (Some i) (Some j) None :: fst r, snd r)",
  "new": "Ok (clone_f self (Some i) (Some j) (Some None) :: fst r, snd r)",
  "edit": "split pieces lose the descriptor",
  "claim": "C132"
 },
 {
  "file": "ItoStr",
  "def": "str_split",
  "old": "else RNew (clone_f self (Some (snd r)) None None)])",
  "new": "else RNew (ito_of_str (f_str self) (Some (snd r)) (Some (f_stop self)) (f_desc self))])",
  "edit": "last piece of split built with the constructor: value function lost",
  "claim": "C132"
 },
 {
  "file": "ItoStr",
  "def": "rsplit_loop",
  "old": "(clone_f self (Some (j + zlen sep)) (Some i) None :: rv)",
  "new": "(clone_f self (Some (j + zlen sep)) (Some i) (Some None) :: rv)",
  "edit": "rsplit pieces lose the descriptor",
  "claim": "C132"
 },
 {
  "file": "ItoStr",
  "def": "str_rsplit",
  "old": "else RNew (clone_f self None (Some (snd r)) None)) :: map RNew (fst r))",
  "new": "else RNew (clone_f self None (Some (snd r)) (Some None))) :: map RNew (fst r))",
  "edit": "first piece of rsplit loses the descriptor",
  "claim": "C132"
 },
 {
  "file": "ItoStr",
  "def": "nn_loop",
  "old": "if step =? 1 then clone_f self (Some nw) (Some i) None",
  "new": "if step =? 1 then clone_f self (Some nw) (Some i) (Some None)",
  "edit": "words lose the descriptor",
  "claim": "C132"
 },
 {
  "file": "ItoStr",
  "def": "nn_loop",
  "old": "else clone_f self (Some (i + 1)) (Some (nw + 1)) None in",
  "new": "else clone_f self (Some (i + 1)) (Some (nw + 1)) (Some None) in",
  "edit": "words of rsplit lose the descriptor",
  "claim": "C132"
 },
 {
  "file": "ItoStr",
  "def": "str_removeprefix",
  "old": "do c <- ito_of_ito i (Some (zlen p)) None (f_desc i); Ok (RNew c) else",
  "new": "do c <- ito_of_ito i (Some (zlen p)) None None; Ok (RNew c) else",
  "edit": "removeprefix loses the descriptor",
  "claim": "C132"
 },
 {
  "file": "ItoStr",
  "def": "str_removesuffix",
  "old": "do c <- ito_of_ito i None (Some (- zlen p)) (f_desc i); Ok (RNew c) else",
  "new": "do c <- ito_of_ito i (Some (zlen p)) None (f_desc i); Ok (RNew c) else",
  "edit": "removesuffix cuts off the front",
  "claim": "C132"
 },
 {
  "file": "ItoStr",
  "def": "ito_iter",
  "old": "(Some k) (Some (k + 1)) None)) (zrange",
  "new": "(Some k) (Some (k + 1)) (Some None))) (zrange",
  "edit": "characters lose the descriptor",
  "claim": "C132"
 },
 {
  "file": "ItoStr",
  "def": "str_strip",
  "old": "| RNew j => RNew (deref j (str_rstrip isspace j chars))",
  "new": "| RNew j => RNew j",
  "edit": "strip of a text stripped in front forgets the end",
  "claim": "C132"
 },
 {
  "file": "ItoStr",
  "def": "split_iter_loop",
  "old": "let stop := if keep then snd m else fst m in",
  "new": "let stop := snd m in",
  "edit": "line ends kept always",
  "claim": "C132"
 }
]