(** Model of pawpaw/xml/xml_helper.py: qualified names, Clark names, and the way from an element to its parent
    and to its namespace declarations; and of the value functions XmlParser gives to tags.
    An ElementTree Element with its .ito is represented by the node of the Ito (element.ito.value() is element). *)
From Verif Require Export Xml Query.

(** xml_helper.py:14-16  QualifiedName: prefix, local_part *)
Definition qname := (option fito * fito)%type.
(** xml_helper.py:19-30  QualifiedName.from_src; cls( *parts ) takes two arguments *)
Definition qn_from_src (src : fito) : res qname :=
  do parts <- str_split src (lit ":") 1;
  match map (deref src) parts with
  | [x] => Ok (None, x)
  | [p; x] => Ok (Some p, x)
  | _ => Err TypeError
  end.
(** xml_helper.py:32-38  QualifiedName.__str__ (and 63-69 EtName.__str__, the same text) *)
Definition qn_str (q : qname) : pystr :=
  let start := match fst q with Some p => f_start p | None => f_start (snd q) end in
  let stop := f_stop (snd q) in
  if stop - start =? zlen (f_str (snd q)) then f_str (snd q) else py_slice (f_str (snd q)) (Some start) (Some stop).

(** xml_helper.py:158-168  get_local_name of a str *)
Definition get_local_name (tag : pystr) : pystr :=
  let i := py_find tag (lit "}") None None in
  if 0 <=? i then py_slice tag (Some (i + 1)) None else tag.
(** xml_helper.py:170-180  get_namespace of a str *)
Definition get_namespace (tag : pystr) : option pystr :=
  let i := py_find tag (lit "}") None None in
  if 0 <=? i then Some (py_slice tag None (Some (i + 1))) else None.
(** xml_helper.py:46  EtName._re, with DOTALL *)
Definition rx_et : rx :=
  RSeq (ROpt (RGrp d_namespace (RSeq (RStr (lit "{")) (RSeq (RCls any_char) (RSeq (RLazy any_char) (RStr (lit "}")))))))
       (RGrp d_name (RPlus any_char)).
Definition re_et : pattern := {| re_groups := 2; re_index := [(d_namespace, 1%nat); (d_name, 2%nat)] |}.
(** xml_helper.py:47-61  EtName.from_item of an Ito; also of a str, as Ito(item) (52), and of an element, by its Ito (54) *)
Definition et_from_item (h : heap) (i : nat) : out (option nat * nat) :=
  obind (extract re_et rx_et h i) (fun h vals =>
    match vals with
    | [x] => (h, Ok (None, x))
    | [n; x] => (h, Ok (Some n, x))
    | _ => (h, Err TypeError)
    end).

Section Queries.
  Variables (E : pyenv) (r : renv).
  (** xml_parser.py:132-134  the loop over the tags of a start tag; all the lambdas share the variable qn, which
      keeps its last value: gives each tag with the value its value() has afterwards *)
  Definition tag_values (h : heap) (st : nat) : res (list (nat * qname)) :=
    match ito_find_all E h r st (lit "**[d:tag]") with
    | (_, Some e) => Err e
    | (ts, None) =>
      do qs <- map_list (fun t => qn_from_src (n_f (nd h t))) ts None;
      match rev qs with [] => Ok [] | q :: _ => Ok (map (fun t => (t, q)) ts) end
    end.
  (** xml_parser.py:143-145  the children of an end tag: the lambdas share the variable c *)
  Definition end_tag_values (h : heap) (cs : list nat) : res (list (nat * qname)) :=
    match rev cs with
    | [] => Ok []
    | c :: _ => do q <- qn_from_src (n_f (nd h c)); Ok (map (fun t => (t, q)) cs)
    end.
  (** xml_helper.py:202-212  get_parent_element *)
  Definition get_parent_element (h : heap) (i : nat) : res (option nat) := ito_find E h r i (lit "...[d:element]").
  (** xml_helper.py:214-249  reverse_find; [test e] says that element.find('.[predicate]') is not None *)
  Fixpoint reverse_find (fuel : nat) (h : heap) (test : nat -> bool) (i : nat) : res (option nat) :=
    match fuel with
    | O => Err OutOfFuel
    | S n => if test i then Ok (Some i)
             else do p <- get_parent_element h i;
                  match p with None => Ok None | Some p => reverse_find n h test p end
    end.
  (** xml_helper.py:83-93  get_qualified_name; the parts may be None when nothing is found *)
  Definition get_qualified_name (h : heap) (i : nat) : res (option nat * option nat) :=
    if negb (match f_desc (n_f (nd h i)) with Some d => eqb_str d d_start_tag || eqb_str d d_attribute | None => false end) then Err ValueError
    else do ns <- ito_find E h r i (lit "**[d:namespace]");
         do name <- ito_find E h r i (lit "**[d:name]");
         Ok (ns, name).
  (** xml_helper.py:95  _re_xmlns.fullmatch, with DOTALL *)
  Definition xmlns_text (s : pystr) : bool :=
    eqb_str s (lit "xmlns") || (prefixb (lit "xmlns:") s && (6 <? zlen s)).
  (** xml_helper.py:96  _query_xmlns_predicates *)
  Definition xmlns_env (h : heap) : renv :=
    {| rv_values := None; rv_preds := Some [(lit "is_xmlns", fun ec => Ok (xmlns_text (ito_str (n_f (nd h (snd ec))))))];
       rv_value := rv_value r; rv_eq := rv_eq r |}.
  (** xml_helper.py:103  the query *)
  Definition xmlns_query : pystr := lit "*[d:start_tag]/*[d:attributes]/*[d:attribute]{*[p:is_xmlns]}".
  (** xml_helper.py:107-122  get_xmlns: the dict as the list of its items.  (Itos of different spans are not equal, C37,
      and two attributes have different spans: no key comes twice.) *)
  Definition get_xmlns (h : heap) (i : nat) : res (list ((option nat * option nat) * option nat)) :=
    match ito_find_all E h (xmlns_env h) i xmlns_query with
    | (_, Some e) => Err e
    | (l, None) => map_list (fun x => do k <- get_qualified_name h x; do v <- ito_find E h r x (lit "*[d:value]"); Ok (k, v)) l None
    end.
  (** str of an Ito or None *)
  Definition str_opt (h : heap) (o : option nat) : pystr := match o with Some i => ito_str (n_f (nd h i)) | None => lit "None" end.
  (** {k: v ...}: a later item with an equal key replaces the value *)
  Fixpoint put (k v : pystr) (d : list (pystr * pystr)) : list (pystr * pystr) :=
    match d with
    | [] => [(k, v)]
    | (k', v') :: t => if eqb_str k k' then (k', v) :: t else (k', v') :: put k v t
    end.
  (** xml_helper.py:124-136  get_prefix_map *)
  Definition get_prefix_map (h : heap) (i : nat) : res (list (pystr * pystr)) :=
    do l <- get_xmlns h i;
    Ok (fold_left (fun d x => match fst (fst x) with Some _ => put (str_opt h (snd (fst x))) (str_opt h (snd x)) d | None => d end) l []).
  (** xml_helper.py:138-146  get_default_namespace; a value that is None counts as not found *)
  Fixpoint get_default_namespace (fuel : nat) (h : heap) (i : nat) : res (option pystr) :=
    match fuel with
    | O => Err OutOfFuel
    | S n =>
      do l <- get_xmlns h i;
      match find (fun x => match fst (fst x) with Some _ => false | None => true end) l with
      | Some (_, Some v) => Ok (Some (lit "{" ++ ito_str (n_f (nd h v)) ++ lit "}"))
      | _ => do p <- get_parent_element h i;
             match p with None => Ok None | Some p => get_default_namespace n h p end
      end
    end.
  (** xml_helper.py:198-200  get_text_itos *)
  Definition get_text_itos (h : heap) (i : nat) : gen nat := ito_find_all E h r i (lit "*[d:text]").
End Queries.
