(** Specification vocabulary for the pretty printers. *)
From Verif Require Export Pepo SpecHeap.

(** ** lines (Compact, Tree) *)
(** j is the k-th child (from 1) of its parent *)
Definition ordinal (h : heap) (j k : nat) : Prop :=
  (1 <= k)%nat /\ exists p, n_par (nd h j) = Some p /\ nth_error (n_kids (nd h p)) (k - 1) = Some j.
(** j is the last child of its parent *)
Definition is_last (h : heap) (j : nat) : Prop := exists p l, n_par (nd h j) = Some p /\ n_kids (nd h p) = l ++ [j].
(** a row of Compact: depth, number, Ito *)
Definition crow := (nat * nat * nat)%type.
(** its text, num writing a number and f an Ito: the indentation once per depth, the number, a colon and a blank, the Ito, the line end *)
Definition crow_text (ls ind : pystr) (num f : nat -> pystr) (r : crow) : pystr :=
  let '(d, k, j) := r in times d ind ++ num k ++ lit ": " ++ f j ++ ls.
(** the descendants of i in document order, each with its depth below i (a child has depth 1) *)
Definition preorder (h : heap) (i : nat) (l : list (nat * nat)) : Prop :=
  (forall d j, In (d, j) l <-> exists n, below h i j n /\ d = S n) /\ StronglySorted (doc_before h) (map snd l).
(** the rows for Ito i with number k: i itself, then every descendant in document order, each with its depth and its
    number among its siblings *)
Definition compact_rows (h : heap) (i k : nat) (rows : list crow) : Prop :=
  exists l rest, preorder h i l /\ rows = (0%nat, k, i) :: rest /\
    Forall2 (fun '(d, j) '(d', o, j') => j' = j /\ d' = d /\ ordinal h j o) l rest.
(** the text in front of descendant j of i: for every Ito strictly between i and j, from the top, a bar, or a blank if it is
    a last child, and the indentation; then a tee, or an elbow if j is a last child, and the horizontal line *)
Inductive guides (h : heap) (ind : pystr) (i : nat) : nat -> pystr -> Prop :=
| guides_child j : n_par (nd h j) = Some i -> guides h ind i j []
| guides_bar j p s : n_par (nd h j) = Some p -> guides h ind i p s -> ~ is_last h p -> guides h ind i j (s ++ [9474] ++ ind)
| guides_blank j p s : n_par (nd h j) = Some p -> guides h ind i p s -> is_last h p -> guides h ind i j (s ++ [32] ++ ind).
Definition branch (h : heap) (ind : pystr) (j : nat) (s : pystr) : Prop :=
  (is_last h j /\ s = 9492 :: times (length ind) [9472]) \/ (~ is_last h j /\ s = 9500 :: times (length ind) [9472]).
(** the lines for Ito i, f giving the text of an Ito *)
Definition tree_lines (h : heap) (ind ls : pystr) (f : nat -> pystr) (i : nat) (lines : list pystr) : Prop :=
  exists l rest, preorder h i l /\ lines = (f i ++ ls) :: rest /\
    Forall2 (fun '(_, j) x => exists g b, guides h ind i j g /\ branch h ind j b /\ x = g ++ b ++ f j ++ ls) l rest.

(** ** JSON texts (RFC 8259), as far as the values of [json] go *)
Definition jws (s : pystr) : Prop := Forall (fun c => In c [32; 9; 10; 13]) s.
Definition digit_value (ds : pystr) : Z := fold_left (fun n c => 10 * n + (c - 48)) ds 0.
Definition jdigits (ds : pystr) : Prop :=
  ds <> [] /\ Forall (fun c => 48 <= c <= 57) ds /\ (hd 0 ds = 48 -> ds = [48]).
Inductive jint : pystr -> Z -> Prop :=
| jint_pos ds : jdigits ds -> jint ds (digit_value ds)
| jint_neg ds : jdigits ds -> jint (45 :: ds) (- digit_value ds).
Definition hex_value (c : Z) : option Z :=
  if (48 <=? c) && (c <=? 57) then Some (c - 48) else if (97 <=? c) && (c <=? 102) then Some (c - 87)
  else if (65 <=? c) && (c <=? 70) then Some (c - 55) else None.
(** the characters between the quotes, and the string they mean *)
Inductive jchars : pystr -> pystr -> Prop :=
| jc_nil : jchars [] []
| jc_plain c s v : 32 <= c -> c <> 34 -> c <> 92 -> jchars s v -> jchars (c :: s) (c :: v)
| jc_esc e c s v : In (e, c) [(34, 34); (92, 92); (47, 47); (98, 8); (102, 12); (110, 10); (114, 13); (116, 9)] ->
    jchars s v -> jchars (92 :: e :: s) (c :: v)
| jc_hex a b c d x y z w s v : hex_value a = Some x -> hex_value b = Some y -> hex_value c = Some z -> hex_value d = Some w ->
    let n := ((x * 16 + y) * 16 + z) * 16 + w in ~ 55296 <= n <= 57343 ->
    jchars s v -> jchars (92 :: 117 :: a :: b :: c :: d :: s) (n :: v).
Inductive jtext : pystr -> json -> Prop :=
| jt_null : jtext (lit "null") JNull
| jt_int s z : jint s z -> jtext s (JInt z)
| jt_str s v : jchars s v -> jtext ([34] ++ s ++ [34]) (JStr v)
| jt_arr0 w : jws w -> jtext ([91] ++ w ++ [93]) (JArr [])
| jt_arr s l : jelems s l -> jtext ([91] ++ s ++ [93]) (JArr l)
| jt_obj0 w : jws w -> jtext ([123] ++ w ++ [125]) (JObj [])
| jt_obj s l : jmembers s l -> jtext ([123] ++ s ++ [125]) (JObj l)
with jelems : pystr -> list json -> Prop :=
| je_one a s b j : jws a -> jtext s j -> jws b -> jelems (a ++ s ++ b) [j]
| je_cons a s b j r l : jws a -> jtext s j -> jws b -> jelems r l -> jelems (a ++ s ++ b ++ [44] ++ r) (j :: l)
with jmembers : pystr -> list (pystr * json) -> Prop :=
| jm_one a k b c s d key j : jws a -> jchars k key -> jws b -> jws c -> jtext s j -> jws d ->
    jmembers (a ++ [34] ++ k ++ [34] ++ b ++ [58] ++ c ++ s ++ d) [(key, j)]
| jm_cons a k b c s d key j r l : jws a -> jchars k key -> jws b -> jws c -> jtext s j -> jws d -> jmembers r l ->
    jmembers (a ++ [34] ++ k ++ [34] ++ b ++ [58] ++ c ++ s ++ d ++ [44] ++ r) ((key, j) :: l).
Scheme jtext_mut := Minimality for jtext Sort Prop with jelems_mut := Minimality for jelems Sort Prop with jmembers_mut := Minimality for jmembers Sort Prop.
Combined Scheme json_mut from jtext_mut, jelems_mut, jmembers_mut.
(** a JSON document *)
Definition jdoc (s : pystr) (j : json) : Prop := exists a t b, jws a /\ jtext t j /\ jws b /\ s = a ++ t ++ b.

(** the JSON value that describes Ito i with everything below it *)
Inductive described (h : heap) : nat -> json -> Prop :=
| described_intro i js : Forall2 (described h) (n_kids (nd h i)) js ->
    described h i (JObj [(lit "start", JInt (h_start h i)); (lit "stop", JInt (h_stop h i));
                         (lit "desc", match f_desc (n_f (nd h i)) with None => JNull | Some d => JStr d end);
                         (lit "substr", JStr (zsub (h_string h i) (h_start h i) (h_stop h i)));
                         (lit "children", JArr js)]).

(** ** XML (a part of XML 1.0: every text below is a well-formed element of XML 1.0, and stands for the given tree) *)
Definition xml_char (c : Z) : Prop :=
  c = 9 \/ c = 10 \/ c = 13 \/ 32 <= c <= 55295 \/ 57344 <= c <= 65533 \/ 65536 <= c <= 1114111.
(** character data and the string it means; attr: inside a double-quoted attribute value *)
Inductive xchars (attr : bool) : pystr -> pystr -> Prop :=
| xc_nil : xchars attr [] []
| xc_plain c s v : xml_char c -> ~ In c [38; 60; 62; 13] -> (attr = true -> ~ In c [34; 9; 10]) -> xchars attr s v -> xchars attr (c :: s) (c :: v)
| xc_ref n c s v : In (n, c) [(lit "&lt;", 60); (lit "&gt;", 62); (lit "&amp;", 38); (lit "&quot;", 34)] -> xchars attr s v -> xchars attr (n ++ s) (c :: v).
Definition xname (n : pystr) : Prop := n <> [] /\ Forall (fun c => 97 <= c <= 122) n.
Inductive xattrs : pystr -> list (pystr * pystr) -> Prop :=
| xa_nil : xattrs [] []
| xa_cons n s v r l : xname n -> ~ In n (map fst l) -> xchars true s v -> xattrs r l ->
    xattrs ([32] ++ n ++ [61; 34] ++ s ++ [34] ++ r) ((n, v) :: l).
Inductive xml := XText (name : pystr) (attrs : list (pystr * pystr)) (text : pystr) | XElems (name : pystr) (attrs : list (pystr * pystr)) (kids : list xml).
Inductive xelem : pystr -> xml -> Prop :=
| xe_text n a as_ s v : xname n -> xattrs a as_ -> xchars false s v -> xelem ([60] ++ n ++ a ++ [62] ++ s ++ [60; 47] ++ n ++ [62]) (XText n as_ v)
| xe_elems n a as_ s l : xname n -> xattrs a as_ -> xelems s l -> xelem ([60] ++ n ++ a ++ [62] ++ s ++ [60; 47] ++ n ++ [62]) (XElems n as_ l)
with xelems : pystr -> list xml -> Prop :=
| xl_nil w : jws w -> xelems w []
| xl_cons w s e r l : jws w -> xelem s e -> xelems r l -> xelems (w ++ s ++ r) (e :: l).
(** the element that describes Ito i *)
Inductive xdescribed (children : bool) (h : heap) : nat -> xml -> Prop :=
| xdescribed_intro i start stop below : jint start (h_start h i) -> jint stop (h_stop h i) -> xbelow children h i below ->
    xdescribed children h i
      (XElems (lit "ito") [(lit "start", start); (lit "stop", stop); (lit "desc", match f_desc (n_f (nd h i)) with None => [] | Some d => d end)]
         (XText (lit "substring") [] (zsub (h_string h i) (h_start h i) (h_stop h i)) :: below))
with xbelow (children : bool) (h : heap) : nat -> list xml -> Prop :=
| xbelow_none i : children = false \/ n_kids (nd h i) = [] -> xbelow children h i []
| xbelow_some i l : children = true -> n_kids (nd h i) <> [] -> xkids children h (n_kids (nd h i)) l -> xbelow children h i [XElems (lit "children") [] l]
with xkids (children : bool) (h : heap) : list nat -> list xml -> Prop :=
| xkids_nil : xkids children h [] []
| xkids_cons c cs e l : xdescribed children h c e -> xkids children h cs l -> xkids children h (c :: cs) (e :: l).
(** texts and descs that XML can carry as Xml writes them *)
Definition xml_fit (h : heap) (j : nat) : Prop :=
  Forall (fun c => xml_char c /\ c <> 13) (zsub (h_string h j) (h_start h j) (h_stop h j)) /\
  forall d, f_desc (n_f (nd h j)) = Some d -> Forall (fun c => xml_char c /\ ~ In c [34; 9; 10; 13]) d.
(** t occurs in s *)
Definition occurs (t s : pystr) : Prop := exists a b, s = a ++ t ++ b.
