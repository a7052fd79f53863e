(** Specification vocabulary for XmlHelp.v. *)
From Verif Require Export XmlHelp SpecXml SpecQuery.

(** visible ASCII characters are printable and not white space *)
Definition graphic_env (E : pyenv) : Prop := plain_delims E /\ forall c, 33 <= c <= 126 -> py_isprintable E c = true /\ re_space E c = false.
Definition is_element (h : heap) (j : nat) : Prop := f_desc (n_f (nd h j)) = Some as_element.
(** o is the lowest of the nodes R that satisfies P; None if there is none *)
Definition nearest (h : heap) (R P : nat -> Prop) (o : option nat) : Prop :=
  match o with
  | Some j => R j /\ P j /\ forall k, R k -> P k -> k = j \/ anc h k j
  | None => forall k, R k -> ~ P k
  end.
(** the element e, at position p, of the document d that begins at a; [up]: the elements around it, the innermost first *)
Inductive elem_in (d : xdoc) (a : Z) : list xdoc -> xdoc -> Z -> Prop :=
| pl_root : elem_in d a [] d a
| pl_kid up n ats sp txt l k r sp' p :
    elem_in d a up (XElem n ats sp txt (l ++ k :: r) sp') p ->
    elem_in d a (XElem n ats sp txt (l ++ k :: r) sp' :: up) (fst k)
      (p + zlen (open_src n ats sp (lit ">")) + zlen (text_src txt) + zlen (flat_map (fun k => doc_src (fst k) ++ text_src (snd k)) l)).
Definition doc_atts (d : xdoc) : list xatt := match d with XElem _ ats _ _ _ _ => ats | XEmpty _ ats _ => ats end.
Definition doc_name (d : xdoc) : xname := match d with XElem n _ _ _ _ _ => n | XEmpty n _ _ => n end.
(** xmlns="..." and xmlns:prefix="..." *)
Definition default_decl (x : xatt) : bool := match x_prefix (a_name x) with None => eqb_str (x_local (a_name x)) (lit "xmlns") | Some _ => false end.
Definition prefix_decl (x : xatt) : bool := match x_prefix (a_name x) with Some p => eqb_str p (lit "xmlns") | None => false end.
(** the value does not itself look like the name of a declaration *)
Definition value_no_decl (x : xatt) : Prop := xmlns_text (a_value x) = false.
(** the default namespace of an element with the enclosing elements up: the declaration nearest to it *)
Fixpoint default_of (l : list xdoc) : option pystr :=
  match l with
  | [] => None
  | d :: r => match find default_decl (doc_atts d) with Some x => Some (a_value x) | None => default_of r end
  end.

(** the element trees of a document: as XmlParser gives them (C81) *)
Definition document (isspace : Z -> bool) (ie : bool) (h : heap) (s : pystr) (d : xdoc) (a : Z) (root : nat) : Prop :=
  hwf h /\ acyclic h /\ at_place s a (doc_src d) /\ rep h (doc_tree isspace ie s d a) root /\ n_par (nd h root) = None.
(** the text of a node, if there is one *)
Definition node_text (h : heap) (o : option nat) : option pystr := option_map (fun i => ito_str (n_f (nd h i))) o.
(** prefix, local name and value are those of the attribute x *)
Definition decl_item (h : heap) (x : xatt) (kv : (option nat * option nat) * option nat) : Prop :=
  node_text h (fst (fst kv)) = x_prefix (a_name x) /\ node_text h (snd (fst kv)) = Some (x_local (a_name x)) /\ node_text h (snd kv) = Some (a_value x).
(** q is the name n *)
Definition names (n : xname) (q : qname) : Prop := option_map ito_str (fst q) = x_prefix n /\ ito_str (snd q) = x_local n.
(** the names in a start tag: of the element, and of its attributes *)
Definition tag_names (n : xname) (ats : list xatt) : list xname := n :: map a_name ats.
(** the first prefix among the names *)
Fixpoint first_prefix (l : list xname) : option pystr :=
  match l with [] => None | n :: r => match x_prefix n with Some p => Some p | None => first_prefix r end end.
