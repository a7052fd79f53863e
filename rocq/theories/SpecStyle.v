(** Specification vocabulary for the table styles TYPE_1 and TYPE_2 (styles.py): how such tables are drawn. *)
From Verif Require Export SpecTable.

(** -----+---+-- : two dashes or more, then one or more times a plus and dashes *)
Definition plus_rule (u : pystr) : Prop :=
  exists n ns, (2 <= n)%nat /\ ns <> [] /\ Forall (fun k => (1 <= k)%nat) ns /\ u = repeat 45 n ++ flat_map (fun k => [43] ++ repeat 45 k) ns.
(** ------- : two dashes or more *)
Definition edge (u : pystr) : Prop := exists n, (2 <= n)%nat /\ u = repeat 45 n.
(** |---|--| : a bar, then one or more times dashes and a bar *)
Definition bar_rule (u : pystr) : Prop :=
  exists ns, ns <> [] /\ Forall (fun k => (1 <= k)%nat) ns /\ u = [124] ++ flat_map (fun k => repeat 45 k ++ [124]) ns.
(** rows with the line below each; lines begin with ind *)
Definition next_line (ind u : pystr) : pystr := [10] ++ ind ++ u.
Definition rows_text (ind : pystr) (rows : list (pystr * pystr)) : pystr := flat_map (fun p => next_line ind (fst p) ++ next_line ind (snd p)) rows.
(** the Itos of the rows when the text of the rows is at i *)
Fixpoint rows_itos (s : pystr) (ind : pystr) (i : Z) (rows : list (pystr * pystr)) : list tree :=
  match rows with
  | [] => []
  | p :: r =>
    let a := i + zlen (next_line ind []) in
    at_ s a (a + zlen (fst p)) (lit "row") [] :: rows_itos s ind (i + zlen (next_line ind (fst p)) + zlen (next_line ind (snd p))) r
  end.
(** a table: the upper edge, rows *)
Definition grid_text (ind top : pystr) (rows : list (pystr * pystr)) : pystr := top ++ rows_text ind rows.
Definition grid_tree (s ind : pystr) (a : Z) (top : pystr) (rows : list (pystr * pystr)) : tree :=
  at_ s a (a + zlen (grid_text ind top rows)) (lit "table") (rows_itos s ind (a + zlen top) rows).
(** TYPE_1: the same kind of line above, between and below the rows *)
Definition grid_1 (top : pystr) (rows : list (pystr * pystr)) : Prop :=
  plus_rule top /\ rows <> [] /\ Forall (fun p => fst p <> [] /\ plus_rule (snd p)) rows.
(** TYPE_2: edges above and below, bars between the rows *)
Definition grid_2 (top : pystr) (rows : list (pystr * pystr)) : Prop :=
  edge top /\ exists r u x, rows = r ++ [(u, x)] /\ Forall (fun p => fst p <> [] /\ bar_rule (snd p)) r /\ u <> [] /\ edge x.
