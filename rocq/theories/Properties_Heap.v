(** Property theorems C17 - C22, C35, C36: the graph of Itos, parents and
    children.  Only statements, closed by [exact], with examples. *)
From Verif Require Import HeapFacts4.
Ltac by_vm := vm_compute; repeat split; first [discriminate | reflexivity | (intros; discriminate) | idtac].

(** a forest built by calls of the API: 0 = Ito('abcdef'), 1 = [0:3], 2 = [3:6]
    under 0, 3 = [1:2] under 1, 4 = an unattached [1:2] *)
Definition demo : heap :=
  run [] [ONew (lit "abcdef") None None None; OSub 0 (Some 0) (Some 3) None; OSub 0 (Some 3) None (Some (lit "x"));
          OSub 0 (Some 1) (Some 2) None; OSub 0 (Some 1) (Some 2) None; OAdd 0 [2; 1]%nat; OAdd 1 [3]%nat].
Lemma demo_wf : hwf demo.
Proof. exact (run_inv _ [] hwf_nil). Qed.
Lemma demo_acyclic : acyclic demo.
Proof. apply run_acyclic; [exact hwf_nil|exact acyclic_nil|]. cbn -[same_span]. repeat split; repeat constructor; vm_compute; intros [? ?]; discriminate. Qed.
Example demo_shape : map n_par demo = [None; Some 0; Some 0; Some 1; None]%nat /\ n_kids (nd demo 0) = [1; 2]%nat /\ n_kids (nd demo 1) = [3]%nat.
Proof. vm_compute. auto. Qed.

(** ** C17 clone: fresh parentless root with the same tree; no existing object
    changes, no object is shared; with start/stop it fails exactly when a child
    does not fit the new span *)
Theorem C17_clone : forall h i, hwf h -> acyclic h -> (i < length h)%nat ->
  exists t h', clone_h (depth_fuel h) h i None None None true = (h', Ok (length h)) /\
    rep h t i /\ rep h' t (length h) /\ n_par (nd h' (length h)) = None /\
    (forall j, (j < length h)%nat -> nd h' j = nd h j) /\
    (forall j, anc h' (length h) j -> (length h <= j)%nat) /\
    hwf h' /\ acyclic h'.
Proof. exact clone_plain. Qed.
Theorem C17_clone_respanned : forall h i a b d, hwf h -> acyclic h -> (i < length h)%nat ->
  exists t h', rep h t i /\ hwf h' /\ acyclic h' /\ extends h h' /\
  let f' := clone_f (t_f t) a b d in
  let inside c := f_str (t_f c) = f_str f' /\ f_start f' <= f_start (t_f c) /\ f_stop (t_f c) <= f_stop f' in
  (Forall inside (t_kids t) /\ clone_h (depth_fuel h) h i a b d true = (h', Ok (length h)) /\
   n_par (nd h' (length h)) = None /\ rep h' (T f' (t_kids t)) (length h) /\ (forall j, anc h' (length h) j -> (length h <= j)%nat))
  \/ (~ Forall inside (t_kids t) /\ clone_h (depth_fuel h) h i a b d true = (h', Err ValueError)).
Proof. exact clone_total. Qed.
(** its span is that of string[start:stop], with the old bounds for those not given; the rest is kept *)
Theorem C17_new_span : forall f a b d, let g := clone_f f a b d in
  fwf g /\ f_str g = f_str f /\ f_vf g = f_vf f /\ f_desc g = match d with Some x => x | None => f_desc f end /\
  ito_str g = py_slice (f_str f) (Some (match a with Some x => x | None => f_start f end)) (Some (match b with Some x => x | None => f_stop f end)) /\
  (fwf f -> a = None -> b = None -> f_start g = f_start f /\ f_stop g = f_stop f).
Proof. exact clone_f_span. Qed.
Print Assumptions C17_new_span.
(** objects with the same tree have the same data, recursively: [rep] is functional *)
Theorem C17_tree_unique : forall h t t' i, rep h t i -> rep h t' i -> t = t'.
Proof. exact rep_fun. Qed.
Print Assumptions C17_clone.
Example C17_case : snd (clone_h (depth_fuel demo) demo 1 None None None true) = Ok 5%nat /\
  map (fun j => (h_start (fst (clone_h (depth_fuel demo) demo 1 None None None true)) j, n_kids (nd (fst (clone_h (depth_fuel demo) demo 1 None None None true)) j))) [5; 6]%nat = [(0, [6%nat]); (1, [])]
  /\ snd (clone_h (depth_fuel demo) demo 1 (Some 2) None None true) = Err ValueError.
Proof. vm_compute. auto. Qed.

(** ** C18 children.add *)
Theorem C18_add : forall h p c, hwf h -> (p < length h)%nat -> (c < length h)%nat ->
  (addable h p c /\ exists l r, n_kids (nd h p) = l ++ r /\ Forall (fun k => h_before h k c) l /\ Forall (h_before h c) r /\
     kids_add h p [c] = (set_kids (set_par h c (Some p)) p (l ++ c :: r), Ok tt))
  \/ (~ addable h p c /\ kids_add h p [c] = (h, Err ValueError)).
Proof. exact kids_add_one. Qed.
(** the two writes of the success case, spelled out *)
Theorem C18_effect : forall h p c ks, (p < length h)%nat -> (c < length h)%nat ->
  let h' := set_kids (set_par h c (Some p)) p ks in
  length h' = length h /\
  forall j, n_f (nd h' j) = n_f (nd h j) /\
            n_par (nd h' j) = (if (j =? c)%nat then Some p else n_par (nd h j)) /\
            n_kids (nd h' j) = (if (j =? p)%nat then ks else n_kids (nd h j)).
Proof. exact add_effect. Qed.
(** add( *itos ) is the sequence of single adds, stopping at the first failure *)
Theorem C18_add_many : forall h p c cs,
  kids_add h p (c :: cs) = match kids_add h p [c] with (h1, Ok _) => kids_add h1 p cs | (h1, Err e) => (h1, Err e) end.
Proof. exact kids_add_many. Qed.
Print Assumptions C18_add.
Example C18_case : addable demo 2 4 -> False.
Proof. intros (_ & (_ & H & _) & _). revert H. vm_compute. auto. Qed.
Example C18_case2 : snd (kids_add demo 1 [4%nat]) = Err ValueError /\ snd (kids_add (fst (kids_pop demo 1 0)) 1 [4%nat]) = Ok tt.
Proof. vm_compute. auto. Qed.

(** ** C19 well-formedness holds after every history of calls, failing ones included *)
Theorem C19_invariant : forall os, hwf (run [] os).
Proof. exact (fun os => run_inv os [] hwf_nil). Qed.
Theorem C19_step : forall h o, hwf h -> hwf (step h o).
Proof. exact step_inv. Qed.
Print Assumptions C19_invariant.
(** a failing call in the middle: adding a second Ito that overlaps *)
Example C19_case : hwf (run demo [OAdd 4 [4]%nat; OAdd 0 [4]%nat; OPop 0 (-1); OAdd 2 [0]%nat; ODelSlice 0 None None (Some (-1)); OClear 1]) /\
  length (n_kids (nd (run demo [OAdd 4 [4]%nat; OAdd 0 [4]%nat; OPop 0 (-1)]) 0)) = 1%nat.
Proof. split; [apply run_inv; exact demo_wf|vm_compute; reflexivity]. Qed.

(** ** C20 no cycles *)
(** adding c under p closes a cycle exactly when c already is an ancestor of p *)
Theorem C20_add_exact_partial : forall h p c l r, hwf h -> acyclic h -> (p < length h)%nat -> (c < length h)%nat ->
  n_par (nd h c) = None -> c <> p ->
  (acyclic (set_kids (set_par h c (Some p)) p (l ++ c :: r)) <-> ~ anc h c p).
Proof. exact add_acyclic. Qed.
(** so no history makes a cycle unless it adds an Ito under a parent of the very same span *)
Theorem C20_acyclic_partial : forall os, run_strict [] os -> acyclic (run [] os).
Proof. exact (fun os H => run_acyclic os [] hwf_nil acyclic_nil H). Qed.
Theorem C20_cycle_needs_equal_spans_partial : forall h a b, hwf h -> anc h a b -> anc h b a ->
  h_start h a = h_start h b /\ h_stop h a = h_stop h b /\ h_string h a = h_string h b.
Proof. exact cycle_span. Qed.
(** refuted in general: a.children.add(b); b.children.add(a) *)
Theorem C20_refuted : exists os, ~ acyclic (run [] os) /\ get_root 1000 (run [] os) 0 = Err OutOfFuel.
Proof.
  exists [ONew (lit "ab") None None None; ONew (lit "ab") None None None; OAdd 0 [1]%nat; OAdd 1 [0]%nat]. split; [|vm_compute; reflexivity].
  intros H. apply (H 0%nat). apply (anc_up _ _ _ 1%nat); [reflexivity|apply anc_parent; reflexivity].
Qed.
Print Assumptions C20_acyclic_partial.
Example C20_case : acyclic demo. Proof. exact demo_acyclic. Qed.

(** ** C21 item assignment *)
(** holds for nonempty spans when every new value is unattached (after the deletion) *)
Theorem C21_setitem_int_partial : forall h p k c, hwf h -> (p < length h)%nat -> (c < length h)%nat ->
  Forall (nonempty h) (n_kids (nd h p)) -> nonempty h c ->
  (n_par (nd h c) = None \/ py_index (n_kids (nd h p)) (fst (from_indices (zlen (n_kids (nd h p))) (Some k) None)) = Ok c) ->
  hwf (fst (kids_set_int h p k c)) /\ length (fst (kids_set_int h p k c)) = length h /\
  (forall j, n_f (nd (fst (kids_set_int h p k c)) j) = n_f (nd h j)).
Proof. exact kids_set_int_inv. Qed.
Theorem C21_setitem_slice_partial : forall h p a b st cs, hwf h -> (p < length h)%nat -> Forall (fun c => (c < length h)%nat) cs -> NoDup cs ->
  Forall (nonempty h) (n_kids (nd h p)) ->
  Forall (fun c => nonempty h c /\ n_par (nd (fst (kids_del_slice h p a b st)) c) = None) cs ->
  hwf (fst (kids_set_slice h p a b st cs)) /\ length (fst (kids_set_slice h p a b st cs)) = length h /\
  (forall j, n_f (nd (fst (kids_set_slice h p a b st cs)) j) = n_f (nd h j)).
Proof. exact kids_set_slice_inv. Qed.
(** what a successful p.children[i:i] = cs stores: cs, in order, at position i *)
Theorem C21_insert_run_partial : forall p cs h i h', hwf h -> (p < length h)%nat -> Forall (fun c => (c < length h)%nat) cs -> NoDup cs ->
  Forall (fun c => n_par (nd h c) = None /\ nonempty h c) cs -> Forall (nonempty h) (n_kids (nd h p)) -> (i <= length (n_kids (nd h p)))%nat ->
  kids_put_all h p i cs = (h', Ok tt) ->
  n_kids (nd h' p) = firstn i (n_kids (nd h p)) ++ cs ++ skipn i (n_kids (nd h p)) /\
  (forall j, j <> p -> n_kids (nd h' j) = n_kids (nd h j)) /\
  (forall j, n_par (nd h' j) = if existsb (Nat.eqb j) cs then Some p else n_par (nd h j)).
Proof. exact kids_put_all_ok. Qed.
(** a failing assignment has already deleted the old value *)
Theorem C21_not_atomic_refuted : exists h p k c, hwf h /\ n_par (nd h c) = None /\
  snd (kids_set_int h p k c) = Err ValueError /\ n_kids (nd (fst (kids_set_int h p k c)) p) <> n_kids (nd h p).
Proof. exists demo, 0%nat, 1, 4%nat. split; [exact demo_wf|]. by_vm. Qed.
(** an Ito attached elsewhere is accepted and ends up in two collections *)
Theorem C21_aliasing_refuted : exists h p k c, hwf h /\ snd (kids_set_int h p k c) = Ok tt /\ ~ hwf (fst (kids_set_int h p k c)).
Proof.
  exists demo, 0%nat, 0, 3%nat. split; [exact demo_wf|]. split; [vm_compute; reflexivity|]. intros H.
  destruct (hwf_kid _ H 1%nat 3%nat) as (E & _); [vm_compute; auto|]. revert E. vm_compute. discriminate.
Qed.
(** two zero-width children with the same start are accepted *)
Theorem C21_zero_width_refuted : exists h p cs, hwf h /\ Forall (fun c => n_par (nd h c) = None) cs /\
  snd (kids_set_slice h p (Some 0) (Some 0) None cs) = Ok tt /\ ~ hwf (fst (kids_set_slice h p (Some 0) (Some 0) None cs)).
Proof.
  exists (run [] [ONew (lit "ab") None None None; OSub 0 (Some 1) (Some 1) None; OSub 0 (Some 1) (Some 1) None]), 0%nat, [1; 2]%nat.
  split; [apply run_inv; exact hwf_nil|]. split; [repeat constructor|]. split; [vm_compute; reflexivity|].
  intros H. pose proof (hwf_sorted _ H 0%nat) as Hs. vm_compute in Hs. inversion Hs as [|? ? _ Hf]; subst. inversion Hf as [|? ? Hb _]; subst.
  destruct Hb as [Hb _]. vm_compute in Hb. discriminate.
Qed.
(** children[-9] = c replaces the first child instead of raising IndexError *)
Theorem C21_negative_index_refuted : exists h p k c, hwf h /\ py_index (n_kids (nd h p)) k = Err IndexError /\
  snd (kids_set_int h p k c) = Ok tt.
Proof. exists demo, 0%nat, (-9), 4%nat. split; [exact demo_wf|]. by_vm. Qed.
Print Assumptions C21_setitem_slice_partial.
Example C21_case : snd (kids_set_int demo 0 0 4%nat) = Ok tt /\ n_kids (nd (fst (kids_set_int demo 0 0 4%nat)) 0) = [4; 2]%nat /\
  Forall (nonempty demo) (n_kids (nd demo 0)) /\ nonempty demo 4.
Proof. repeat split; repeat constructor. Qed.

(** ** C22 membership, remove, pop *)
Theorem C22_remove : forall h p c, hwf h ->
  (In c (n_kids (nd h p)) /\ kids_remove h p c = (without h p c, Ok tt)) \/
  (~ In c (n_kids (nd h p)) /\ kids_remove h p c = (h, Err ValueError)).
Proof. exact kids_remove_spec. Qed.
Theorem C22_pop : forall h p k, hwf h -> (p < length h)%nat ->
  match py_index (n_kids (nd h p)) k with
  | Ok c => kids_pop h p k = (without h p c, Ok c)
  | Err e => e = IndexError /\ kids_pop h p k = (h, Err IndexError)
  end.
Proof. exact kids_pop_spec. Qed.
(** [without h p c]: c is taken out of p.children and its parent is None; nothing else changes *)
Theorem C22_without : forall h p c, hwf h -> In c (n_kids (nd h p)) ->
  let h' := without h p c in
  hwf h' /\ length h' = length h /\ (forall j, n_f (nd h' j) = n_f (nd h j)) /\
  (forall j, n_par (nd h' j) = if (j =? c)%nat then None else n_par (nd h j)) /\
  (forall j, n_kids (nd h' j) = if (j =? p)%nat then filter (fun k => negb (k =? c)%nat) (n_kids (nd h p)) else n_kids (nd h j)).
Proof. exact without_facts. Qed.
Theorem C22_clear : forall h p, hwf h -> (p < length h)%nat ->
  let h' := fst (kids_clear h p) in snd (kids_clear h p) = Ok tt /\ n_kids (nd h' p) = [] /\
  (forall c, In c (n_kids (nd h p)) -> n_par (nd h' c) = None) /\
  (forall j, n_f (nd h' j) = n_f (nd h j)) /\ (forall j, j <> p -> n_kids (nd h' j) = n_kids (nd h j)) /\ (forall j, ~ In j (n_kids (nd h p)) -> n_par (nd h' j) = n_par (nd h j)).
Proof. exact kids_clear_spec. Qed.
(** `c in p.children` answers whether some child STARTS where c starts *)
Theorem C22_contains_partial : forall h p c, hwf h ->
  (kids_contains h p c = true <-> exists k, In k (n_kids (nd h p)) /\ h_start h k = h_start h c) /\
  (In c (n_kids (nd h p)) -> kids_contains h p c = true).
Proof. exact kids_contains_spec. Qed.
Theorem C22_contains_refuted : exists h p c, hwf h /\ ~ In c (n_kids (nd h p)) /\ kids_contains h p c = true.
Proof. exists demo, 1%nat, 4%nat. split; [exact demo_wf|]. split; [vm_compute; intros [E|[]]; discriminate|vm_compute; reflexivity]. Qed.
Print Assumptions C22_remove.
Example C22_case : In 2%nat (n_kids (nd demo 0)) /\ snd (kids_remove demo 0 2) = Ok tt /\ snd (kids_remove demo 0 3) = Err ValueError.
Proof. vm_compute. auto. Qed.

(** ** C35 walk_descendants *)
Theorem C35_walk : forall h i level, hwf h -> acyclic h -> (i < length h)%nat ->
  exists l, walk_levels (depth_fuel h) h i level false = Ok l /\ walk_levels (depth_fuel h) h i level true = Ok (rev l) /\
    NoDup (map snd l) /\
    (forall k j, In (k, j) l <-> exists n, below h i j n /\ k = level + Z.of_nat n) /\
    StronglySorted (doc_before h) (map snd l).
Proof. exact walk_total. Qed.
Theorem C35_below_is_descendant : forall h i j, (exists n, below h i j n) <-> anc h i j.
Proof. exact (fun h i j => conj (fun '(ex_intro _ n H) => below_anc h i j n H) (anc_below h i j)). Qed.
Theorem C35_order_irreflexive : forall h, hwf h -> acyclic h -> forall a, ~ doc_before h a a.
Proof. exact doc_before_irrefl. Qed.
Print Assumptions C35_walk.
Example C35_case : walk_levels (depth_fuel demo) demo 0 0 false = Ok [(0, 1%nat); (1, 3%nat); (0, 2%nat)] /\
  walk_levels (depth_fuel demo) demo 0 0 true = Ok [(0, 2%nat); (1, 3%nat); (0, 1%nat)].
Proof. vm_compute. auto. Qed.

(** ** C36 get_root and descends_from *)
Theorem C36_get_root : forall h i, hwf h -> acyclic h -> (i < length h)%nat ->
  exists r, get_root (depth_fuel h) h i = Ok r /\ root_of h r i /\ forall r', root_of h r' i -> r' = r.
Proof. exact get_root_full. Qed.
Theorem C36_descends : forall h i a, hwf h -> acyclic h -> (i < length h)%nat ->
  exists b, descends_from (depth_fuel h) h i a = Ok b /\ (b = true <-> anc h a i).
Proof. exact descends_spec. Qed.
Theorem C36_has_descendant : forall h i d, hwf h -> acyclic h -> (d < length h)%nat ->
  exists b, has_descendant (depth_fuel h) h i d = Ok b /\ (b = true <-> anc h i d).
Proof. exact (fun h i d H Ha Hd => descends_spec h d i H Ha Hd). Qed.
Print Assumptions C36_get_root.
Example C36_case : get_root (depth_fuel demo) demo 3 = Ok 0%nat /\ descends_from (depth_fuel demo) demo 3 0 = Ok true /\ descends_from (depth_fuel demo) demo 3 2 = Ok false.
Proof. vm_compute. auto. Qed.
