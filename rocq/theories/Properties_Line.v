(** Property theorems C16, second part: to_line_col by what str.count, str.split and
    str.rsplit (SpecPy) do with the text before the Ito. *)
From Verif Require Import LineFacts.
Open Scope Z_scope.
Import ListNotations.

(** ** C16: the line is the number of pieces of the text before the Ito, the column is one more than the length of the last *)
Theorem C16_by_count : forall i eol n, fwf i -> eol <> [] ->
  counted eol (zsub (f_str i) 0 (f_start i)) n -> fst (to_line_col i eol) = 1 + n.
Proof. exact line_counted. Qed.
Print Assumptions C16_by_count.
Theorem C16_by_split : forall i eol pieces, fwf i -> eol <> [] -> split_at eol (-1) (zsub (f_str i) 0 (f_start i)) pieces ->
  fst (to_line_col i eol) = zlen pieces /\
  (no_self_overlap eol -> snd (to_line_col i eol) = 1 + zlen (last pieces [])).
Proof. exact (fun i eol l H N S => conj (line_split i eol l (-1) H N eq_refl S) (fun O => col_split i eol l (-1) H N O eq_refl S)). Qed.
Print Assumptions C16_by_split.
Theorem C16_by_rsplit : forall i eol m pieces, fwf i -> eol <> [] -> m <> 0 -> rsplit_at eol m (zsub (f_str i) 0 (f_start i)) pieces ->
  snd (to_line_col i eol) = 1 + zlen (last pieces []).
Proof. exact (fun i eol m l H N M R => col_rsplit i eol l m H N M R). Qed.
Print Assumptions C16_by_rsplit.
(** the pieces in question exist: they are what split and rsplit return (C11_python_split) *)
Example C16_pieces : forall i eol, eol <> [] -> exists l r,
  split_at eol (-1) (zsub (f_str i) 0 (f_start i)) l /\ rsplit_at eol 1 (zsub (f_str i) 0 (f_start i)) r.
Proof. intros i eol N. exists (py_split (zsub (f_str i) 0 (f_start i)) eol (-1)), (py_rsplit (zsub (f_str i) 0 (f_start i)) eol 1). split; [apply split_char; [exact N|auto]|apply rsplit_char; [exact N|auto]]. Qed.
(** for an end of line that overlaps itself the column is not that of the last piece of split *)
Example C16_by_split_overlap : to_line_col (FI (lit "aaab") 3 4 None None) (lit "aa") = (2, 1) /\ py_split (lit "aaa") (lit "aa") (-1) = [lit ""; lit "a"].
Proof. vm_compute. auto. Qed.
(** the empty end of line is never refused: every text before the Ito counts two lines too many *)
Theorem C16_empty : forall i, fwf i -> to_line_col i [] = (f_start i + 3, 1).
Proof. exact line_col_empty. Qed.
Print Assumptions C16_empty.
Example C16_empty_case : to_line_col (FI (lit "abc") 2 3 None None) [] = (5, 1) /\ fwf (FI (lit "abc") 2 3 None None).
Proof. split; [reflexivity|]. unfold fwf. vm_compute. repeat split; discriminate. Qed.
