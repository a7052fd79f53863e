(** Model of the pattern and the group filter of RegexItorator (and so of Extract). *)
From Verif Require Export Combin.

(** regex_itorator.py:13-22  the pattern and the group filter *)
Record rstate := RS { rs_re : pattern; rs_gf : gfilter }.
(** regex_itorator.py:27-32  itor.re = re, for a compiled pattern *)
Definition set_re (st : rstate) (re : pattern) : rstate := RS re (rs_gf st).
(** regex_itorator.py:38-46  itor.group_filter = gf, for a collection of keys or a predicate: the state afterwards
    and what is raised *)
Definition set_filter (st : rstate) (gf : gfilter) : rstate * option exn :=
  match gf with
  | GFKeys l => match gk_validate (rs_re st) l with Ok _ => (RS (rs_re st) gf, None) | Err e => (st, Some e) end
  | GFPred _ => (RS (rs_re st) gf, None)
  end.
(** regex_itorator.py:13-22  RegexItorator(re, group_filter) *)
Definition new_ritor (re : pattern) (gf : gfilter) : res rstate :=
  let (st, e) := set_filter (RS re (GFPred (fun _ _ => true))) gf in match e with None => Ok st | Some x => Err x end.
(** what a user does with the itorator, one thing after another; an exception is caught and the next thing done *)
Inductive rop := AssignRe (re : pattern) | AssignFilter (gf : gfilter).
Definition rstep (st : rstate) (o : rop) : rstate :=
  match o with AssignRe re => set_re st re | AssignFilter gf => fst (set_filter st gf) end.
Definition rrun (st : rstate) (ops : list rop) : rstate := fold_left rstep ops st.
