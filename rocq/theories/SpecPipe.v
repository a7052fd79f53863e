(** Specification vocabulary: what a generator leaves behind at every moment. *)
From Verif Require Export SpecArbor.

(** the moments of a run of the generator s started in the heap h: what is left of the
    generator, and the heap.  Whenever the generator has yielded, its consumer may change
    the heap as it likes as long as every Ito stays well-formed and none is taken away. *)
Inductive moment : strm -> heap -> strm -> heap -> Prop :=
| mo_now s h : moment s h s h
| mo_work f k h s' h' : moment (k h) (f h) s' h' -> moment (Act f k) h s' h'
| mo_given i k h g s' h' : hwf g -> (length h <= length g)%nat -> moment k g s' h' -> moment (Yield i k) h s' h'.

(** at every moment all Itos are well-formed, what is yielded is an Ito, and no Ito is
    gone at a later moment; with strict = false the moments at which an exception is
    under way are left out *)
Definition raised (strict : bool) (s : strm) : Prop := strict = false /\ exists e, s = Raise e.
Definition orderly (strict : bool) (s : strm) (h : heap) : Prop :=
  forall s1 h1, moment s h s1 h1 -> raised strict s1 \/
    (hwf h1 /\ (forall j k, s1 = Yield j k -> (j < length h1)%nat) /\
     forall s2 h2, moment s1 h1 s2 h2 -> raised strict s2 \/ (length h1 <= length h2)%nat).
(** ... from every well-formed heap of at least n Itos *)
Definition safe (strict : bool) (n : nat) (s : strm) : Prop :=
  forall h, hwf h -> (n <= length h)%nat -> orderly strict s h.

(** the functions a user puts into a pipeline (Itorator.wrap, the reduce function of
    StackedReduce, Postorator.wrap) are orderly themselves; predicates and desc functions
    only look *)
Definition transform_orderly (strict : bool) (t : transform) : Prop :=
  match t with TWrap f => forall n i, (i < n)%nat -> safe strict n (f i) | _ => True end.
Definition post_orderly (strict : bool) (p : postor) : Prop :=
  match p with
  | PostStack reduce _ _ => forall l h, hwf h -> Forall (fun i => (i < length h)%nat) l ->
      hwf (fst (reduce l h)) /\ (length h <= length (fst (reduce l h)))%nat /\ (forall j, snd (reduce l h) = Ok j -> (j < length (fst (reduce l h)))%nat)
  | PostWrap f => forall n s, safe strict n s -> safe strict n (f s)
  | _ => True
  end.
Definition prog_orderly (strict : bool) (P : prog) : Prop :=
  forall t, transform_orderly strict (it_tr (P t)) /\ post_orderly strict (it_post (P t)).
(** no Connectors.Children.AddHierarchical anywhere *)
Definition no_hierarchical (P : prog) : Prop := forall t, Forall (fun c => c_kind c <> CAddHier) (it_cons (P t)).
