(** Trees of Itos as pure values: the shape under one node, used where object
    identity does not matter.  [rep] ties a tree to the heap. *)
From Verif Require Export SpecHeap.

(** an Ito with its subtree: data (ito.py:71-96) and ._children *)
Inductive tree := T (f : fito) (kids : list tree).
Definition t_f (t : tree) : fito := let (f, _) := t in f.
Definition t_kids (t : tree) : list tree := let (_, ks) := t in ks.
Definition t_start t := f_start (t_f t).
Definition t_stop t := f_stop (t_f t).
Definition t_string t := f_str (t_f t).

Section TreeInd.
  Variable P : tree -> Prop.
  Hypothesis step : forall f ts, Forall P ts -> P (T f ts).
  Fixpoint tree_ind' (t : tree) : P t :=
    match t with
    | T f ts => step f ts ((fix go (l : list tree) : Forall P l :=
                              match l with [] => Forall_nil P | x :: l' => Forall_cons x (tree_ind' x) (go l') end) ts)
    end.
End TreeInd.

Fixpoint t_size (t : tree) : nat := let (_, ts) := t in S (list_sum (map t_size ts)).
Fixpoint t_height (t : tree) : nat := let (_, ts) := t in S (list_max (map t_height ts)).

(** the subtree hanging under object i of the heap is t *)
Fixpoint rep (h : heap) (t : tree) (i : nat) : Prop :=
  match t with
  | T f ts => n_f (nd h i) = f /\
      (fix go (ts : list tree) (ks : list nat) : Prop :=
         match ts, ks with
         | [], [] => True
         | t :: ts', k :: ks' => rep h t k /\ go ts' ks'
         | _, _ => False
         end) ts (n_kids (nd h i))
  end.

(** ** well-formed trees *)
Definition t_before (a b : tree) : Prop := t_start a < t_start b /\ t_stop a <= t_start b.
Definition t_fits (c p : tree) : Prop :=
  t_string c = t_string p /\ t_start p <= t_start c /\ t_stop c <= t_stop p.
Fixpoint twf (t : tree) : Prop :=
  match t with
  | T f ts => fwf f /\ StronglySorted t_before ts /\ Forall (fun c => t_fits c t) ts /\
      (fix go (ts : list tree) : Prop := match ts with [] => True | c :: ts' => twf c /\ go ts' end) ts
  end.
