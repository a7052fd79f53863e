(** Vocabulary for C130. *)
From Verif Require Export SpecArbor Tree.
(** in h', j is a new root whose tree is that of i in h, with [f] done to the data of the root only; everything that was in h is as before *)
Definition copy_of (h : heap) (i : nat) (f : fito -> fito) (h' : heap) (j : nat) : Prop :=
  (exists t, rep h t i /\ rep h' (T (f (t_f t)) (t_kids t)) j) /\ n_par (nd h' j) = None /\ (length h <= j < length h')%nat /\
  (forall k, (k < length h)%nat -> nd h' k = nd h k) /\ (forall k, anc h' j k -> (length h <= k)%nat) /\ hwf h' /\ acyclic h'.
Definition unchanged (f : fito) : fito := f.
Definition with_desc (d : option pystr) (f : fito) : fito := FI (f_str f) (f_start f) (f_stop f) d (f_vf f).
Definition with_value_func (v : option Z) (f : fito) : fito := FI (f_str f) (f_start f) (f_stop f) (f_desc f) v.
(** an Itorator that nothing is connected to *)
Definition alone (t : transform) : itorator := Itor t [] PostNone.
