(** Properties of decoding arbitrary JSON documents: C126. *)
From Verif Require Import Json JsonDoc SpecDoc SpecJson HeapFacts4 JsonFacts2 JsonFacts3 JsonDocFacts JsonDocFacts2 JsonDocFacts3 QueryDemo Properties_Heap.

(** ** C126: whatever the document says, json.loads with the decoder hook ends: with one
    of four errors, or with a value whose Itos are all new and belong to a well-formed
    forest.  No Ito that existed before is touched, also when an error is raised. *)
Theorem C126_decode : forall E str d h, hwf h -> acyclic h ->
  match json_loads E str h d with
  | (h', Ok v) => hwf h' /\ acyclic h' /\ (length h <= length h')%nat /\ untouched h h' /\ Forall (fun i => (length h <= i < length h')%nat) (itos_in v)
  | (h', Err e) => In e [KeyError; TypeError; ValueError; UnboundLocalError] /\ untouched h h'
  end.
Proof.
  intros E str d h H Ha. pose proof (loads_ok E str d h H Ha) as X. destruct (json_loads E str h d) as [h' [v|e]]; cbn [val_ok] in X; [|exact X].
  destruct X as ([L U] & W & A & F). exact (conj W (conj A (conj L (conj U F)))).
Qed.
Print Assumptions C126_decode.
(** a document none of whose objects says that it is an Ito of this version is read
    as if there was no hook *)
Theorem C126_plain : forall E str d h, no_itos d -> json_loads E str h d = (h, Ok (plain_value d)).
Proof. exact loads_plain. Qed.
Print Assumptions C126_plain.
(** what the encoder has written is read by it, with the hook seeing every inner object,
    as C50 says *)
Theorem C126_encoded : forall E stringless full h i j str g, json_encode E stringless full h i = Ok j ->
  (forall g' r, json_hook E str g j = (g', Ok (HIto r)) -> json_loads E str g (doc_of j) = (g', Ok (found_value r))) /\
  (forall g' e, json_hook E str g j = (g', Err e) -> json_loads E str g (doc_of j) = (g', Err e)).
Proof.
  intros E stringless full h i j str g Ej. pose proof (loads_encoded E stringless full h i j str g Ej) as X. split; intros g' y Ey; rewrite Ey in X; exact X.
Qed.
Print Assumptions C126_encoded.
Theorem C126_single : forall E g h i stringless hs, json_env E -> hwf h -> (i < length h)%nat -> hwf g -> acyclic g -> (stringless = true -> hs = Some (h_string h i)) ->
  exists j, json_encode E stringless false h i = Ok j /\
    json_loads E hs g (doc_of j) = (g ++ [Nd (forget_f (n_f (nd h i))) None []], Ok (VIto (length g))).
Proof.
  intros E g h i stringless hs HE H Hi Hg Ag Hs. destruct (json_single E g h i stringless hs HE H Hi Hg Ag Hs) as (j & Ej & Eh). exists j. split; [exact Ej|].
  exact (proj1 (C126_encoded E stringless false h i j hs g Ej) _ _ Eh).
Qed.
Print Assumptions C126_single.

(** an object that says it is an Ito *)
Definition typed_obj (rest : list (pystr * doc)) : doc := DObj ([(lit "__type__", DStr js_type); (lit "__version__", DStr js_version)] ++ rest).
Definition span_obj (a b : Z) (rest : list (pystr * doc)) : doc := DObj ([(lit "span", DArr [DInt a; DInt b]); (lit "desc", DNull)] ++ rest).
Definition err_of (d : doc) : option exn := match snd (json_loads ascii None demo d) with Ok _ => None | Err e => Some e end.
(** one of each; among them a child outside its parent (ValueError), a missing key, a
    span that is no sequence, a path that is no query, an Ito where a span should be *)
Example C126_errors :
  let one := typed_obj [(lit "string", DStr (lit "abc")); (lit "ito", span_obj 0 3 []); (lit "path", DStr (lit "."))] in
  map err_of
    [one;
     typed_obj [(lit "ito", span_obj 0 3 []); (lit "path", DStr (lit "."))];
     typed_obj [(lit "string", DStr (lit "abc")); (lit "path", DStr (lit "."))];
     typed_obj [(lit "string", DStr (lit "abc")); (lit "ito", DInt 3); (lit "path", DStr (lit "."))];
     typed_obj [(lit "string", DStr (lit "abc")); (lit "ito", span_obj 0 1 [(lit "children", DArr [span_obj 1 2 []])]); (lit "path", DStr (lit "."))];
     typed_obj [(lit "string", DStr (lit "abc")); (lit "ito", span_obj 0 3 []); (lit "path", DStr (lit "/"))];
     typed_obj [(lit "string", DStr (lit "abc")); (lit "ito", span_obj 0 3 []); (lit "path", DStr (lit "*/<<<"))];
     typed_obj [(lit "string", DInt 7); (lit "ito", span_obj 0 3 []); (lit "path", DStr (lit "."))];
     typed_obj [(lit "string", DStr (lit "abc")); (lit "ito", DObj [(lit "span", one); (lit "desc", DNull)]); (lit "path", DStr (lit "."))]] =
  [None; Some ValueError; Some KeyError; Some TypeError; Some ValueError; Some ValueError; Some UnboundLocalError; Some TypeError; Some TypeError].
Proof. vm_compute. reflexivity. Qed.
(** an array of an Ito over an Ito, and a plain object; the inner Ito is what the path leads to *)
Example C126_case : hwf demo /\ acyclic demo /\
  let d := DArr [typed_obj [(lit "string", DStr (lit "abcd")); (lit "ito", span_obj 0 3 [(lit "children", DArr [span_obj 1 2 []; span_obj 2 3 []])]); (lit "path", DStr (lit "*[i:1]"))];
                 DObj [(lit "span", DInt 1); (lit "span", DInt 2)]] in
  (exists h', json_loads ascii None demo d = (h', Ok (VArr [VIto (length demo + 2); VObj [(lit "span", VInt 2)]])) /\ n_kids (nd h' (length demo)) = [length demo + 1; length demo + 2]%nat) /\
  (let q := DObj [(lit "span", DInt 1); (lit "__type__", DStr (lit "x"))] in no_itos q /\ json_loads ascii None demo q = (demo, Ok (VObj [(lit "span", VInt 1); (lit "__type__", VStr (lit "x"))]))).
Proof.
  split; [exact demo_wf|]. split; [exact demo_acyclic|]. split.
  - eexists. split; vm_compute; reflexivity.
  - assert (N : no_itos (DObj [(lit "span", DInt 1); (lit "__type__", DStr (lit "x"))])).
    { intros l Hl [M _]. inversion Hl as [|? ? ? ?|l0 k y Hin Hy]; subst.
      - inversion M as [a b Nb Eb]. destruct a as [|? [|? [|? a]]]; cbn in Eb; try discriminate; injection Eb; intros; try discriminate. 
      - destruct Hin as [E|[E|[]]]; injection E as <- <-; inversion Hy. }
    split; [exact N|]. rewrite (C126_plain ascii None _ demo N). reflexivity.
Qed.
