(** Specification vocabulary for Paragraph: what lies between runs of separators. *)
From Verif Require Export SpecNlp NlpConf.

(** n or more separators begin at i, in the text up to e *)
Definition sep_at (n : nat) (s : pystr) (e i : Z) : Prop := exists u, empty_lines n u /\ written s e i u.
(** n or more separators, from i to j; at j no further one begins *)
Definition sep_over (n : nat) (s : pystr) (e i j : Z) : Prop :=
  exists u, empty_lines n u /\ written s e i u /\ j = i + zlen u /\ ~ exists v, empty_line v /\ written s e j v.
(** the parts of s from a to b *)
Definition parts_of (n : nat) (s : pystr) (a b : Z) (ps : list tree) : Prop :=
  exists a', (a' = a /\ ~ sep_at n s b a \/ sep_over n s b a a') /\ laid (sep_at n s b) (sep_over n s b) b a' ps.
(** a new leaf, described as a paragraph *)
Definition is_par_of (s : pystr) (t : tree) : Prop := t = at_ s (t_start t) (t_stop t) paragraph_desc [].
(** Paragraph(n, trim).get_itor(), given any Ito without children that spans s[a:b], yields new roots with the trees ps and
    changes nothing that existed before *)
Definition para_gives (n : nat) (trim : bool) (s : pystr) (a b : Z) (ps : list tree) : Prop :=
  forall h x d, hwf h -> acyclic h -> (x < length h)%nat -> rep h (T (FI s a b d None) []) x ->
  exists h' l, para_run n trim x h = (h', (l, None)) /\ extends h h' /\ hwf h' /\ acyclic h' /\ Forall2 (rep h') ps l /\ NoDup l /\
    Forall (fun c => (length h <= c)%nat /\ n_par (nd h' c) = None) l.
(** what trimming removes: byte order marks, line ends and white space *)
Definition trimmable : pystr := [65279; 65534] ++ end_chars ++ white_chars.
(** t does not begin, does not end, with white space *)
Definition trim_start (s : pystr) (t : tree) : Prop := forall c, zget s (t_start t) = Some c -> ~ In c trimmable.
Definition trim_stop (s : pystr) (t : tree) : Prop := forall c, zget s (t_stop t - 1) = Some c -> ~ In c trimmable.
