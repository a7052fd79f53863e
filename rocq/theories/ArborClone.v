(** Model of Itorator.clone. *)
From Verif Require Export Arbor.

(** itorator.py:92-97  an itorator with its tag *)
Record tagged := Tagged { tg_it : itorator; tg_tag : option pystr }.
(** itorator.py:188-189, desc.py:17-18, extract.py:31-32, filter.py:14-15, invert.py:17-18, nuco.py:12-13,
    reflect.py:11-12, split.py:96-103, value_func.py:14-15  clone.
    A wrapped function is cloned by type(self)(...), everything else by type(self())(...): self() is
    __call__ (itorator.py:174) without its argument, and that call raises TypeError before anything runs.
    The constructors give the new object no connections and no postorator (itorator.py:95-97). *)
Definition clone_itor (x : tagged) (tag : option pystr) : res tagged :=
  match it_tr (tg_it x) with
  | TWrap f => Ok (Tagged (Itor (TWrap f) [] PostNone) (match tag with None => tg_tag x | Some t => Some t end))
  | _ => Err TypeError
  end.
