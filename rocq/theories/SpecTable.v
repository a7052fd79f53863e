(** Specification vocabulary for Table.v. *)
From Verif Require Export Table SpecNlp.
(** the descriptors (table.py:41-66), written out again *)
Definition pre_caption_desc := lit "pre_caption".
Definition header_row_desc := lit "header_row".
Definition row_desc := lit "row".
Definition post_caption_desc := lit "post_caption".
Definition table_desc := lit "table".

(** ** the patterns of a style: no groups, references or look-around *)
Fixpoint simple (r : trx) : bool :=
  match r with
  | ZCls _ | ZStr _ => true
  | ZSeq a b | ZAlt a b => simple a && simple b
  | ZRep _ _ _ a => simple a
  | _ => false
  end.
(** the texts such a pattern stands for *)
Fixpoint lang (r : trx) (u : pystr) : Prop :=
  match r with
  | ZCls p => exists c, u = [c] /\ p c = true
  | ZStr l => u = l
  | ZSeq a b => exists v w, u = v ++ w /\ lang a v /\ lang b w
  | ZAlt a b => lang a u \/ lang b u
  | ZRep _ least most a => exists us, u = concat us /\ Forall (fun v => v <> [] /\ lang a v) us /\ (least <= length us)%nat /\ match most with Some m => (length us <= m)%nat | None => True end
  | _ => False
  end.
Definition simple_opt (o : option trx) : Prop := match o with Some r => simple r = true | None => True end.
Definition style_ok (st : style) : Prop :=
  simple (st_start st) = true /\ simple (st_sep st) = true /\ simple_opt (st_pre st) /\ simple_opt (st_header st) /\ simple_opt (st_end st) /\ simple_opt (st_post st).

(** ** tables *)
(** a table as its style lays it out: a caption, the upper edge, a header row with the line below, rows
    each with the line below, a last row with the lower edge, a caption *)
Record layout := Lay { ly_pre : option pystr; ly_start : pystr; ly_header : option (pystr * pystr); ly_rows : list (pystr * pystr); ly_last : option (pystr * pystr); ly_post : option pystr }.
Definition fits_opt (o : option trx) (u : option pystr) : Prop := match u with Some v => exists r, o = Some r /\ lang r v | None => True end.
Definition layout_ok (st : style) (l : layout) : Prop :=
  fits_opt (st_pre st) (ly_pre l) /\ lang (st_start st) (ly_start l) /\
  match ly_header l with Some (h, x) => h <> [] /\ fits_opt (st_header st) (Some x) | None => True end /\
  Forall (fun p => fst p <> [] /\ lang (st_sep st) (snd p)) (ly_rows l) /\
  match st_end st with None => ly_rows l <> [] /\ ly_last l = None | Some r => exists u x, ly_last l = Some (u, x) /\ u <> [] /\ lang r x end /\
  match st_post st with None => ly_post l = None | Some r => exists u, ly_post l = Some u /\ lang r u end.
(** its text in pieces, those that get an Ito with their descriptor; every line but the first begins with ind *)
Definition chip := (option pystr * pystr)%type.
Definition break (ind : pystr) : chip := (None, [10] ++ ind).
Definition opt_list {A B} (o : option A) (f : A -> list B) : list B := match o with Some x => f x | None => [] end.
Definition lines_of (ind : pystr) (d : pystr) (p : pystr * pystr) : list chip := [break ind; (Some d, fst p); break ind; (None, snd p)].
Definition chips (ind : pystr) (l : layout) : list chip :=
  opt_list (ly_pre l) (fun u => [(Some pre_caption_desc, u); break ind]) ++ [(None, ly_start l)] ++ opt_list (ly_header l) (lines_of ind header_row_desc) ++
  flat_map (lines_of ind row_desc) (ly_rows l) ++ opt_list (ly_last l) (lines_of ind row_desc) ++ opt_list (ly_post l) (fun u => [break ind; (Some post_caption_desc, u)]).
Definition text_of (ps : list chip) : pystr := flat_map snd ps.
(** the Itos of the pieces from position i of s on *)
Fixpoint itos_at (s : pystr) (i : Z) (ps : list chip) : list tree :=
  match ps with
  | [] => []
  | (d, u) :: r => match d with Some k => [at_ s i (i + zlen u) k []] | None => [] end ++ itos_at s (i + zlen u) r
  end.
(** position i begins a line; position i ends one, in the text that ends at e *)
Definition line_begins (s : pystr) (i : Z) : Prop := i = 0 \/ zget s (i - 1) = Some 10.
Definition line_ends (s : pystr) (e i : Z) : Prop := i = e \/ zget s i = Some 10.
(** t is a table of this style in the part of s that ends at e; ind is the indentation before it and before
    its further lines *)
Definition is_table (st : style) (s : pystr) (e : Z) (ind : pystr) (t : tree) : Prop :=
  exists l, layout_ok st l /\ zsub s (t_start t) (t_stop t) = text_of (chips ind l) /\
    t = at_ s (t_start t) (t_stop t) table_desc (itos_at s (t_start t) (chips ind l)) /\
    0 <= t_start t /\ t_stop t <= e /\ line_ends s e (t_stop t) /\ ends_in s (t_start t) ind /\
    Forall (fun c => c = 32 \/ c = 9) ind /\ (st_equi st = false -> ind = []).
(** the itorator of the style, given an Ito over [a,b) of s, yields new Itos with the trees ts; what was there stays as it was *)
Definition finds_tables (st : style) (s : pystr) (a b : Z) (ts : list tree) : Prop :=
  forall h i, hwf h -> acyclic h -> (i < length h)%nat -> h_string h i = s -> h_start h i = a -> h_stop h i = b ->
  exists h' l, find_tables st h i = (h', (l, None)) /\ extends h h' /\ hwf h' /\ acyclic h' /\ Forall2 (rep h') ts l /\ Forall (fun r => n_par (nd h' r) = None /\ (length h <= r)%nat) l /\ NoDup l.
(** the line of s that begins at p is not blank *)
Definition inked (s : pystr) (p : Z) : Prop := exists u c, written s (zlen s) p (u ++ [c]) /\ Forall (fun c => c = 32 \/ c = 9) u /\ ~ In c [32; 9; 10].
(** the lines of t all have the indentation ind (that of the first line is not part of t) and go on with two characters at least *)
Definition even_lines (ind t : pystr) : Prop :=
  exists us, ind ++ t ++ [10] = concat (map (fun u => ind ++ u ++ [10]) us) /\ Forall (fun u => exists c v, u = c :: v /\ ~ In c [32; 9; 10] /\ v <> [] /\ ~ In 10 v) us.
(** no separator line of the style begins behind p and before q *)
Definition no_separator (st : style) (s : pystr) (e : Z) (ind : pystr) (p q : Z) : Prop :=
  forall k x, p < k < q -> written s e k ([10] ++ ind ++ x) -> lang (st_sep st) x -> ~ line_ends s e (k + zlen ([10] ++ ind ++ x)).
(** the row Itos of t go up to the next separator line *)
Definition rows_cut_at (st : style) (s : pystr) (e : Z) (ind : pystr) (t : tree) : Prop :=
  Forall (fun r => f_desc (t_f r) = Some row_desc -> no_separator st s e ind (t_start r) (t_stop r)) (t_kids t).
(** no separator line of the style begins behind p that has a further line below it which begins before q *)
Definition no_separator_inside (st : style) (s : pystr) (e : Z) (ind : pystr) (p q : Z) : Prop :=
  forall k x, p < k -> lang (st_sep st) x -> written s e k ([10] ++ ind ++ x ++ [10] ++ ind) -> q <= k + zlen ([10] ++ ind ++ x ++ [10] ++ ind).
(** no row Ito of t holds a separator line with a line of the row below it *)
Definition rows_undivided (st : style) (s : pystr) (e : Z) (ind : pystr) (t : tree) : Prop :=
  Forall (fun r => f_desc (t_f r) = Some row_desc -> no_separator_inside st s e ind (t_start r) (t_stop r)) (t_kids t).
