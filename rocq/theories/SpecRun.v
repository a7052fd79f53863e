(** What running a compiled query may raise and find (C125). *)
From Verif Require Export Query SpecHeap.

(** what a run can raise besides the errors of the user's own functions:
    ValueError (a dictionary the query needs was not given, or a value text that
    cannot be unescaped), TypeError (no binary operator between two groups) and
    UnboundLocalError (<<< or >>> after a phrase that found nothing) *)
Definition run_errors : list exn := [ValueError; TypeError; UnboundLocalError].
Definition raised_by_user (r : renv) (e : exn) : Prop :=
  (exists n, rv_value r n = Err e) \/
  (exists d k p ec, rv_preds r = Some d /\ In (k, p) d /\ p ec = Err e).
Definition may_raise (r : renv) (e : exn) : Prop := In e run_errors \/ raised_by_user r e.
(** the node j belongs to the tree of i *)
Definition same_tree (h : heap) (i j : nat) : Prop :=
  (j < length h)%nat /\ exists r, root_of h r i /\ root_of h r j.
