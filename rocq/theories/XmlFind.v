(** Model of the searches by local name in pawpaw/xml/xml_helper.py. *)
From Verif Require Export XmlHelp.

(** An ElementTree element: its identity, its tag, the elements in it.  Comments and processing instructions are
    not in such a tree (XmlParser uses the TreeBuilder that drops them), so every tag is a str. *)
Inductive element := Element (id : nat) (tag : pystr) (kids : list element).
Definition e_id (e : element) : nat := let 'Element i _ _ := e in i.
Definition e_tag (e : element) : pystr := let 'Element _ t _ := e in t.
Definition e_kids (e : element) : list element := let 'Element _ _ l := e in l.
(** Element.iter(), of the standard library: the element, then its children's, in order *)
Fixpoint et_iter (e : element) : list element := let 'Element _ _ l := e in e :: flat_map et_iter l.
(** Element.findall('.//'), which is findall('.//*'): what iter gives, without the element itself *)
Definition findall_below (e : element) : list element := flat_map et_iter (e_kids e).
(** xml_helper.py:182-193  find_all_descendants_by_local_name *)
Definition find_all_by_local_name (e : element) (name : pystr) : list element :=
  filter (fun x => eqb_str name (get_local_name (e_tag x))) (findall_below e).
(** xml_helper.py:195-197  find_descendant_by_local_name *)
Definition find_by_local_name (e : element) (name : pystr) : option element := hd_error (find_all_by_local_name e name).
