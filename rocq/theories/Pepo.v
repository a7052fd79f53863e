(** Model of pawpaw/visualization/pepo/pepo.py: the pretty printers Compact, Tree, Xml and Json.
    dumps returns what dump writes, so only the text is modelled; ls is os.linesep. *)
From Verif Require Export Format Json.

(** s * n *)
Fixpoint times (n : nat) (s : pystr) : pystr := match n with O => [] | S k => s ++ times k s end.

(** pepo.py:40  the default fstr of Compact *)
Definition compact_fstr : pystr := lit "%span %desc!r : '%substr!1r1:40" ++ [8230] ++ lit "% '".
(** pepo.py:67  the default fstr of Tree *)
Definition tree_fstr : pystr := lit "%span %desc!r : '%substr!1r1:^40" ++ [8230] ++ lit "% '".

Definition cat2 (r : res (list pystr)) : res pystr := do l <- r; Ok (concat l).
(** pepo.py:43-49  Compact._dump; fuel bounds the recursion depth *)
Fixpoint compact_dump (fuel : nat) (E : fmt_env) (fstr ls ind : pystr) (children : bool) (h : heap) (level : nat) (ki : nat * nat) : res pystr :=
  match fuel with
  | O => Err RecursionError
  | S n =>
    do k <- fe_int E (Z.of_nat (fst ki)) (lit ",");
    do t <- ito_format E (n_f (nd h (snd ki))) fstr;
    do rest <- (if children
                then cat2 (map_res (compact_dump n E fstr ls ind children h (S level))
                                   (combine (seq 1 (length (n_kids (nd h (snd ki))))) (n_kids (nd h (snd ki)))))
                else Ok []);
    Ok (times level ind ++ k ++ lit ": " ++ t ++ ls ++ rest)
  end.
(** pepo.py:51-55, 26-30  Compact.dumps *)
Definition compact_dumps (E : fmt_env) (fstr ls ind : pystr) (children : bool) (h : heap) (itos : list nat) : res pystr :=
  cat2 (map_res (compact_dump (depth_fuel h) E fstr ls ind children h 0) (combine (seq 1 (length itos)) itos)).

(** pepo.py:59-62  the box-drawing characters *)
Definition t_horz : pystr := [9472].
Definition t_vert : pystr := [9474].
Definition t_tee : pystr := [9500].
Definition t_elbow : pystr := [9492].
(** pepo.py:70-87  Tree._dump_children; fuel bounds the recursion depth *)
Fixpoint tree_children (fuel : nat) (E : fmt_env) (fstr ls ind : pystr) (h : heap) (prefix : pystr) (i : nat) : res pystr :=
  match fuel with
  | O => Err RecursionError
  | S n =>
    let ks := n_kids (nd h i) in
    let row mark bar c :=
      do t <- ito_format E (n_f (nd h c)) fstr;
      do r <- tree_children n E fstr ls ind h (prefix ++ bar ++ ind) c;
      Ok (prefix ++ mark ++ times (length ind) t_horz ++ t ++ ls ++ r) in
    do a <- cat2 (map_res (row t_tee t_vert) (removelast ks));
    match ks with
    | [] => Ok a
    | _ => do b <- row t_elbow (lit " ") (last ks 0%nat); Ok (a ++ b)
    end
  end.
(** pepo.py:89-94, 26-30  Tree.dumps *)
Definition tree_dumps (E : fmt_env) (fstr ls ind : pystr) (children : bool) (h : heap) (itos : list nat) : res pystr :=
  cat2 (map_res (fun i => do t <- ito_format E (n_f (nd h i)) fstr;
                          do r <- tree_children (depth_fuel h) E fstr ls ind h [] i;
                          Ok (t ++ ls ++ r)) itos).

(** xml.sax.saxutils.escape *)
Definition xml_escape (s : pystr) : pystr :=
  py_replace_char 60 (lit "&lt;") (py_replace_char 62 (lit "&gt;") (py_replace_char 38 (lit "&amp;") s)).
(** pepo.py:101-123  Xml._dump *)
Fixpoint xml_dump (fuel : nat) (ls ind : pystr) (children : bool) (h : heap) (level : nat) (i : nat) : res pystr :=
  match fuel with
  | O => Err RecursionError
  | S n =>
    let f := n_f (nd h i) in
    let pad := times level ind in
    do kids <- (if children
                then match n_kids (nd h i) with
                     | [] => Ok []
                     | ks => do t <- cat2 (map_res (xml_dump n ls ind children h (S level)) ks);
                             Ok (pad ++ lit "<children>" ++ ls ++ t ++ pad ++ lit "</children>" ++ ls)
                     end
                else Ok []);
    Ok (pad ++ lit "<ito" ++
        lit " start=""" ++ int_str (f_start f) ++ lit """" ++
        lit " stop=""" ++ int_str (f_stop f) ++ lit """" ++
        lit " desc=""" ++ xml_escape (odflt (f_desc f) []) ++ lit """>" ++ ls ++
        pad ++ lit "<substring>" ++ xml_escape (ito_str f) ++ lit "</substring>" ++ ls ++
        kids ++
        times (level - 1) ind ++ lit "</ito>" ++ ls)
  end.
(** pepo.py:125-132, 26-30  Xml.dumps *)
Definition xml_dumps (ls ind : pystr) (children : bool) (h : heap) (itos : list nat) : res pystr :=
  do t <- cat2 (map_res (xml_dump (depth_fuel h) ls ind children h 1) itos);
  Ok (lit "<?xml version=""1.0"" encoding=""UTF-8"" ?>" ++ ls ++ lit "<itos>" ++ ls ++ t ++ lit "<itos>" ++ ls).

(** json.encoder.encode_basestring (CPython Lib/json/encoder.py:17-45) *)
Definition hex_char (n : Z) : Z := if n <? 10 then 48 + n else 87 + n.
Definition json_esc (c : Z) : pystr :=
  if c =? 92 then lit "\\" else if c =? 34 then lit "\""" else if c =? 8 then lit "\b" else if c =? 12 then lit "\f"
  else if c =? 10 then lit "\n" else if c =? 13 then lit "\r" else if c =? 9 then lit "\t"
  else if c <? 32 then lit "\u00" ++ [hex_char (c / 16); hex_char (c mod 16)] else [c].
Definition encode_basestring (s : pystr) : pystr := lit """" ++ flat_map json_esc s ++ lit """".
(** pepo.py:158-163  the members of a list of children: a comma after each but the last, then a line end *)
Fixpoint json_rows (ls : pystr) (l : list pystr) : pystr :=
  match l with [] => [] | [x] => x ++ ls | x :: r => x ++ lit "," ++ ls ++ json_rows ls r end.
(** pepo.py:139-169  Json._dump *)
Fixpoint json_dump (fuel : nat) (ls ind : pystr) (children : bool) (h : heap) (level : nat) (i : nat) : res pystr :=
  match fuel with
  | O => Err RecursionError
  | S n =>
    let f := n_f (nd h i) in
    let pad := times (S level) ind in
    do kids <- (if children
                then do ts <- map_res (json_dump n ls ind children h (S (S level))) (n_kids (nd h i));
                     Ok (pad ++ lit """children"": [" ++
                         match ts with
                         | [] => lit "]" ++ ls
                         | _ => ls ++ json_rows ls ts ++ pad ++ lit "]" ++ ls
                         end)
                else Ok []);
    Ok (times level ind ++ lit "{" ++ ls ++
        pad ++ lit """start"": " ++ int_str (f_start f) ++ lit "," ++ ls ++
        pad ++ lit """stop"": " ++ int_str (f_stop f) ++ lit "," ++ ls ++
        pad ++ lit """desc"": " ++ match f_desc f with None => lit "null" | Some d => encode_basestring d end ++ lit "," ++ ls ++
        pad ++ lit """substr"": " ++ encode_basestring (ito_str f) ++ lit "," ++ ls ++
        kids ++ times level ind ++ lit "}")
  end.
(** pepo.py:176-184  a comma and a line end between two Itos, a line end before the first *)
Fixpoint json_items (ls : pystr) (first : bool) (l : list pystr) : pystr :=
  match l with [] => [] | x :: r => (if first then [] else lit ",") ++ ls ++ x ++ json_items ls false r end.
(** pepo.py:171-189, 26-30  Json.dumps *)
Definition json_dumps (ls ind : pystr) (children : bool) (h : heap) (itos : list nat) : res pystr :=
  do ts <- map_res (json_dump (depth_fuel h) ls ind children h 2) itos;
  Ok (lit "{" ++ ls ++ ind ++ lit """itos"": [" ++ json_items ls true ts ++ ls ++ ind ++ lit "]" ++ ls ++ lit "}" ++ ls).
