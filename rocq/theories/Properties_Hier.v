(** Property theorems C23 - C26: ChildItos.add_hierarchical.  Only statements,
    closed by [exact], with examples. *)
From Verif Require Import HierHeap6 HierHeap7 HierHeap8 Properties_Heap.

(** 5 = [2:5], 6 = [0:2], 7 = [4:5] of 'abcdef', all unattached; 1 and 2 are taken
    off 0 and 5 goes under it *)
Definition hdemo : heap :=
  run demo [OSub 0 (Some 2) (Some 5) None; OSub 0 (Some 0) (Some 2) None; OSub 0 (Some 4) (Some 5) None].
Lemma hdemo_wf : hwf hdemo. Proof. apply run_inv. exact demo_wf. Qed.
Lemma hdemo_acyclic : acyclic hdemo.
Proof. apply run_acyclic; [exact demo_wf|exact demo_acyclic|]. cbn -[same_span]. repeat split. Qed.

(** ** C23 hierarchical insertion *)
(** either nothing crosses: success, exactly the nodes of c (with its subtree)
    are added below p, none is lost, nothing else changes, and every node ends
    under the smallest node that contains it; or something crosses: ValueError *)
Theorem C23_add_hierarchical : forall key h p c fuel, hwf h -> acyclic h -> (p < length h)%nat -> (c < length h)%nat ->
  n_par (nd h c) = None -> c <> p -> ~ anc h c p -> fits h c p -> (2 * length h <= fuel)%nat ->
  ((forall x y, anc h p x -> self_or_anc h c y -> ~ h_cross h x y) /\
    exists h', add_hier1 fuel key h p c = (h', Ok tt) /\ hwf h' /\ acyclic h' /\ length h' = length h /\
      (forall j, n_f (nd h' j) = n_f (nd h j)) /\
      (forall j, anc h' p j <-> anc h p j \/ j = c \/ anc h c j) /\
      (forall j, j <> p -> ~ anc h' p j -> nd h' j = nd h j) /\ n_par (nd h' p) = n_par (nd h p) /\
      (forall x q y, anc h' p x -> n_par (nd h' x) = Some q -> self_or_anc h' p y -> f_overlap (n_f (nd h x)) (n_f (nd h y)) -> h_inside h x y -> ~ same_span h x y -> h_inside h q y))
  \/ (exists x y, anc h p x /\ self_or_anc h c y /\ h_cross h x y) /\
     exists h', add_hier1 fuel key h p c = (h', Err ValueError) /\ (n_kids (nd h c) = [] -> h' = h) /\ kept h h'.
Proof. exact add_hier_total. Qed.
(** several Itos in one call *)
Theorem C23_several : forall key n p cs h, hwf h -> acyclic h -> (p < length h)%nat -> NoDup cs ->
  Forall (fun c => (c < length h)%nat /\ n_par (nd h c) = None /\ c <> p /\ ~ anc h c p /\ fits h c p) cs -> (2 * length h <= n)%nat ->
  ((forall x y, among_trees h cs x \/ anc h p x -> among_trees h cs y -> ~ h_cross h x y) /\
    exists h', add_hier n key h p cs = (h', Ok tt) /\ hwf h' /\ acyclic h' /\ length h' = length h /\ (forall j, n_f (nd h' j) = n_f (nd h j)) /\
      (forall j, anc h' p j <-> anc h p j \/ among_trees h cs j) /\ (forall j, j <> p -> ~ anc h' p j -> nd h' j = nd h j) /\ n_par (nd h' p) = n_par (nd h p))
  \/ ((exists x y, (among_trees h cs x \/ anc h p x) /\ among_trees h cs y /\ h_cross h x y) /\
     exists h', add_hier n key h p cs = (h', Err ValueError) /\ kept h h').
Proof. exact add_hier_many. Qed.
(** the same on trees as values: the nodes of the result are exactly the old ones and the new ones *)
Theorem C23_trees : forall key pf ks c, forest_wf pf ks -> twf c -> inside (t_f c) pf ->
  (no_cross (f_nodes ks) (t_nodes c) /\ exists ks', add_hierarchical key pf ks c = Ok ks' /\ forest_wf pf ks' /\ Permutation (f_nodes ks') (t_nodes c ++ f_nodes ks))
  \/ (some_cross (f_nodes ks) (t_nodes c) /\ add_hierarchical key pf ks c = Err ValueError).
Proof. exact add_hier_spec. Qed.
(** the heap model and the model on trees agree *)
Theorem C23_refinement : forall key n h p c ts ct, pre h p c ts -> rep h ct c ->
  match hadd n key (n_f (nd h p)) ts ct with
  | Ok ts' => exists h', add_hier1 n key h p c = (h', Ok tt) /\ post h h' p c ts'
  | Err e => exists h', add_hier1 n key h p c = (h', Err e) /\ (n_kids (nd h c) = [] -> h' = h) /\ kept h h'
  end.
Proof. exact refines_all. Qed.
Print Assumptions C23_add_hierarchical.
(** [1:2] goes below [0:3], [0:2] takes it over, [4:5] goes below [3:6] *)
Example C23_case :
  let h := fst (add_hier 16 None hdemo 0 [6; 7]%nat) in
  snd (add_hier 16 None hdemo 0 [6; 7]%nat) = Ok tt /\
  n_kids (nd h 0) = [1; 2]%nat /\ n_kids (nd h 1) = [6]%nat /\ n_kids (nd h 6) = [3]%nat /\ n_kids (nd h 2) = [7]%nat.
Proof. by_vm. Qed.
Example C23_hyps : n_par (nd hdemo 6) = None /\ fits hdemo 6 0 /\ (forall x, anc hdemo 0 x -> In x [1; 2; 3]%nat).
Proof.
  split; [reflexivity|]. split; [by_vm|]. intros x H. apply anc_below in H. destruct H as (n & H).
  destruct (walk_total hdemo 0 0 hdemo_wf hdemo_acyclic) as (l & E & _ & _ & Hl & _); [vm_compute; lia|]. vm_compute in E. injection E as <-.
  destruct (Hl (0 + Z.of_nat n) x) as [_ X]. specialize (X (ex_intro _ n (conj H eq_refl))). cbn in X. destruct X as [X|[X|[X|[]]]]; injection X as _ <-; cbn; auto.
Qed.

(** ** C24 order independence *)
(** Itos with whatever is below them, in any order: the same tree, in which exactly the old and the new nodes are below p *)
Theorem C24_any_order : forall key key' n h p cs cs', hwf h -> acyclic h -> (p < length h)%nat -> NoDup cs ->
  Forall (fun c => (c < length h)%nat /\ n_par (nd h c) = None /\ c <> p /\ ~ anc h c p /\ fits h c p) cs ->
  (forall x, among_trees h cs x \/ anc h p x -> nonempty h x) ->
  (forall x y, among_trees h cs x \/ anc h p x -> among_trees h cs y \/ anc h p y -> same_span h x y -> x = y) ->
  (forall x y, among_trees h cs x \/ anc h p x -> among_trees h cs y -> ~ h_cross h x y) ->
  Permutation cs cs' -> (2 * length h <= n)%nat ->
  exists t h1 h2, add_hier n key h p cs = (h1, Ok tt) /\ add_hier n key' h p cs' = (h2, Ok tt) /\
    hwf h1 /\ hwf h2 /\ rep h1 t p /\ rep h2 t p /\ forall j, anc h1 p j <-> anc h p j \/ among_trees h cs j.
Proof. exact add_hier_any_order. Qed.
(** whatever the spans: all orders succeed or all raise ValueError *)
Theorem C24_all_or_none : forall key key' n h p cs cs', hwf h -> acyclic h -> (p < length h)%nat -> NoDup cs ->
  Forall (fun c => (c < length h)%nat /\ n_par (nd h c) = None /\ c <> p /\ ~ anc h c p /\ fits h c p) cs ->
  Permutation cs cs' -> (2 * length h <= n)%nat ->
  (snd (add_hier n key h p cs) = Ok tt /\ snd (add_hier n key' h p cs') = Ok tt) \/
  (snd (add_hier n key h p cs) = Err ValueError /\ snd (add_hier n key' h p cs') = Err ValueError).
Proof. exact add_hier_all_or_none. Qed.
(** with subtrees, on trees as values *)
Theorem C24_any_order_trees : forall key key' pf ks cs cs', forest_wf pf ks -> Forall twf cs -> Forall (fun c => inside (t_f c) pf) cs ->
  Forall f_nonempty (f_nodes cs ++ f_nodes ks) -> NoDup (map f_span (f_nodes cs ++ f_nodes ks)) ->
  no_cross (f_nodes cs) (f_nodes cs) -> no_cross (f_nodes ks) (f_nodes cs) -> Permutation cs cs' ->
  exists ks', add_hierarchical_all key pf ks cs = Ok ks' /\ add_hierarchical_all key' pf ks cs' = Ok ks' /\
    forest_wf pf ks' /\ Permutation (f_nodes ks') (f_nodes cs ++ f_nodes ks).
Proof. exact add_all_order. Qed.
(** why: a well-formed forest is determined by its set of (nonempty, distinct) spans *)
Theorem C24_forest_determined : forall pf ks ks', forest_wf pf ks -> forest_wf pf ks' -> Forall f_nonempty (f_nodes ks) ->
  NoDup (map f_span (f_nodes ks)) -> Permutation (f_nodes ks) (f_nodes ks') -> ks = ks'.
Proof. exact forest_unique. Qed.
Print Assumptions C24_any_order.
Example C24_case :
  let a := add_hier 16 None hdemo 1 [6; 4]%nat in let b := add_hier 16 None (fst (kids_remove hdemo 1 3)) 1 [6; 3]%nat in
  snd a = Ok tt /\ snd b = Ok tt /\ n_kids (nd (fst b) 6) = [3]%nat.
Proof. by_vm. Qed.
(** 1 = [0:3] comes with its child 3 = [1:2]; 6 = [0:2] goes between them, whichever is added first *)
Example C24_subtrees :
  let h := fst (kids_remove hdemo 0 1) in
  let a := add_hier 16 None h 0 [1; 6]%nat in let b := add_hier 16 None h 0 [6; 1]%nat in
  n_par (nd h 1) = None /\ n_kids (nd h 1) = [3]%nat /\ snd a = Ok tt /\ snd b = Ok tt /\
  map (fun j => n_kids (nd (fst a) j)) [0; 1; 6; 3]%nat = [[1; 2]; [6]; [3]; []]%nat /\ map (fun j => n_kids (nd (fst b) j)) [0; 1; 6; 3]%nat = [[1; 2]; [6]; [3]; []]%nat.
Proof. by_vm. Qed.
Definition fs (s : pystr) (a b : Z) : fito := FI s a b None None.
(** the restriction to nonempty spans is needed *)
Example C24_zero_width :
  let s := lit "abcd" in
  add_hierarchical_all None (fs s 0 4) [] (leaves [fs s 2 4; fs s 2 2; fs s 0 2]) = Ok [T (fs s 0 2) []; T (fs s 2 4) [T (fs s 2 2) []]] /\
  add_hierarchical_all None (fs s 0 4) [] (leaves [fs s 0 2; fs s 2 2; fs s 2 4]) = Ok [T (fs s 0 2) [T (fs s 2 2) []]; T (fs s 2 4) []].
Proof. by_vm. Qed.

(** ** C25 rejection *)
(** an Ito without children that fits p but crosses a descendant of p: ValueError, heap unchanged *)
Theorem C25_crossing_partial : forall key h p c fuel x, hwf h -> acyclic h -> (p < length h)%nat -> (c < length h)%nat ->
  n_par (nd h c) = None -> c <> p -> ~ anc h c p -> fits h c p -> (2 * length h <= fuel)%nat ->
  n_kids (nd h c) = [] -> anc h p x -> h_cross h x c -> add_hier1 fuel key h p c = (h, Err ValueError).
Proof.
  exact (fun key h p c fuel x H Ha Hp Hc N Hne Hn Fi Hf K Hx Hcr =>
    match add_hier_total key h p c fuel H Ha Hp Hc N Hne Hn Fi Hf with
    | or_introl (conj A _) => match A x c Hx (or_introl eq_refl) Hcr with end
    | or_intror (conj _ (ex_intro _ h' (conj E (conj Sk _)))) => eq_ind h' (fun g => add_hier1 fuel key h p c = (g, Err ValueError)) E h (Sk K)
    end).
Qed.
(** with children: ValueError, and what is left behind is still well-formed *)
Theorem C25_crossing_subtree_partial : forall key h p c fuel x y, hwf h -> acyclic h -> (p < length h)%nat -> (c < length h)%nat ->
  n_par (nd h c) = None -> c <> p -> ~ anc h c p -> fits h c p -> (2 * length h <= fuel)%nat ->
  anc h p x -> self_or_anc h c y -> h_cross h x y -> exists h', add_hier1 fuel key h p c = (h', Err ValueError) /\ kept h h'.
Proof.
  exact (fun key h p c fuel x y H Ha Hp Hc N Hne Hn Fi Hf Hx Hy Hcr =>
    match add_hier_total key h p c fuel H Ha Hp Hc N Hne Hn Fi Hf with
    | or_introl (conj A _) => match A x y Hx Hy Hcr with end
    | or_intror (conj _ (ex_intro _ h' (conj E (conj _ K)))) => ex_intro _ h' (conj E K)
    end).
Qed.
(** an Ito that does not fit is never accepted; one that is attached, or that meets an
    empty collection, is rejected without effect *)
Theorem C25_misfit_partial : forall key n h p c, hwf h -> ~ fits h c p -> snd (add_hier1 n key h p c) <> Ok tt.
Proof. exact misfit_rejected. Qed.
(** what it does raise is ValueError, whatever the Ito carries with it *)
Theorem C25_misfit_error_partial : forall key fuel h p c, hwf h -> acyclic h -> (p < length h)%nat -> (c < length h)%nat -> n_par (nd h c) = None -> c <> p -> ~ anc h c p ->
  ~ fits h c p -> (2 * length h <= fuel)%nat -> snd (add_hier1 fuel key h p c) = Err ValueError.
Proof. exact (fun key fuel h p c => misfit_value key fuel h p c). Qed.
Theorem C25_attached_partial : forall key n h p c q, n_par (nd h c) = Some q -> add_hier1 (S n) key h p c = (h, Err ValueError).
Proof. exact attached_rejected. Qed.
Theorem C25_misfit_empty_partial : forall key n h p c, n_kids (nd h p) = [] -> n_par (nd h c) = None -> ~ fits h c p ->
  add_hier1 (S n) key h p c = (h, Err ValueError).
Proof. exact misfit_empty. Qed.
(** refuted: [4:5] is inserted into the children of [0:3], and stays there, before its parent is checked *)
Theorem C25_misfit_refuted : exists h p c, hwf h /\ ~ fits h c p /\ snd (add_hier1 16 None h p c) = Err ValueError /\
  let h' := fst (add_hier1 16 None h p c) in In c (n_kids (nd h' p)) /\ n_par (nd h' c) = None /\ ~ hwf h'.
Proof.
  exists hdemo, 1%nat, 7%nat. split; [exact hdemo_wf|]. split; [intros (_ & _ & E); vm_compute in E; auto|]. split; [vm_compute; reflexivity|].
  assert (I : In 7%nat (n_kids (nd (fst (add_hier1 16 None hdemo 1 7)) 1))) by (vm_compute; auto). cbv zeta. split; [exact I|]. split; [vm_compute; reflexivity|].
  intros H. apply (hwf_kid _ H) in I. destruct I as [E _]. vm_compute in E. discriminate.
Qed.
(** refuted: [2:5] with child [4:5] meets [0:3], [3:6]: the child has been moved before the crossing is noticed *)
Theorem C25_flattened_refuted : exists h p c, hwf h /\ fits h c p /\ snd (add_hier1 16 None h p c) = Err ValueError /\
  fst (add_hier1 16 None h p c) <> h.
Proof.
  exists (run hdemo [OAdd 5 [7]%nat]), 0%nat, 5%nat. split; [apply run_inv; exact hdemo_wf|]. split; [by_vm|]. split; [vm_compute; reflexivity|].
  intros E. apply (f_equal (fun g => n_kids (nd g 5))) in E. vm_compute in E. discriminate.
Qed.
Print Assumptions C25_crossing_partial.
Example C25_case : h_cross hdemo 1 5 /\ anc hdemo 0 1 /\ fits hdemo 5 0 /\ add_hier1 16 None hdemo 0 5 = (hdemo, Err ValueError).
Proof. split; [left; by_vm|]. split; [apply anc_parent; reflexivity|]. by_vm. Qed.

(** ** C26 equal spans *)
(** with a key: nodes of equal span stay nested in non-decreasing key order, in any tree of nonempty spans *)
Theorem C26_key_partial : forall key pf ks c ks', forest_wf pf ks -> twf c -> inside (t_f c) pf -> Forall f_nonempty (f_nodes ks ++ t_nodes c) ->
  key_ordered key ks -> key_ordered key [c] -> add_hierarchical (Some key) pf ks c = Ok ks' -> key_ordered key ks'.
Proof. exact add_hier_keys. Qed.
Theorem C26_key_all_partial : forall key pf cs ks ks', forest_wf pf ks -> Forall twf cs -> Forall (fun c => inside (t_f c) pf) cs ->
  Forall f_nonempty (f_nodes ks ++ f_nodes cs) -> key_ordered key ks -> Forall (fun c => key_ordered key [c]) cs ->
  add_hierarchical_all (Some key) pf ks cs = Ok ks' ->
  forest_wf pf ks' /\ Permutation (f_nodes ks') (f_nodes cs ++ f_nodes ks) /\ key_ordered key ks'.
Proof. exact add_all_keys. Qed.
(** a family of equal nonempty spans becomes one chain, sorted by key / in insertion order *)
Theorem C26_chain_key_partial : forall key pf fs a b, a < b -> Forall (fun f => fwf f /\ inside f pf /\ f_span f = (a, b)) fs ->
  exists fs', add_hierarchical_all (Some key) pf [] (leaves fs) = Ok (chain fs') /\ Permutation fs' fs /\ StronglySorted (fun x y => key x <= key y) fs'.
Proof. exact chain_key. Qed.
Theorem C26_chain_none_partial : forall pf fs a b, a < b -> Forall (fun f => fwf f /\ inside f pf /\ f_span f = (a, b)) fs ->
  add_hierarchical_all None pf [] (leaves fs) = Ok (chain fs).
Proof. exact chain_none. Qed.
(** key None, Itos without children, any spans: [key] numbers the Itos by insertion time *)
Theorem C26_none_partial : forall key pf fs ks', fwf pf -> Forall (fun f => fwf f /\ inside f pf /\ f_nonempty f) fs ->
  StronglySorted (fun x y => key x <= key y) fs -> add_hierarchical_all None pf [] (leaves fs) = Ok ks' ->
  forest_wf pf ks' /\ Permutation (f_nodes ks') fs /\ key_ordered key ks'.
Proof. exact add_all_none_order. Qed.
Definition fd (s : pystr) (a b : Z) (d : string) : fito := FI s a b (Some (lit d)) None.
Definition desc_len (f : fito) : Z := match f_desc f with Some d => zlen d | None => 0 end.
(** refuted with a zero-width sibling: the new [0:2] of larger key is put outside the old one *)
Theorem C26_zero_width_refuted : exists key pf ks c ks', forest_wf pf ks /\ twf c /\ inside (t_f c) pf /\ key_ordered key ks /\ key_ordered key [c] /\
  add_hierarchical (Some key) pf ks c = Ok ks' /\ ~ key_ordered key ks'.
Proof.
  exists desc_len, (fs (lit "abcd") 0 4), [T (fd (lit "abcd") 0 2 "a") []; T (fs (lit "abcd") 2 2) []], (T (fd (lit "abcd") 0 2 "bb") []),
    [T (fd (lit "abcd") 0 2 "bb") [T (fd (lit "abcd") 0 2 "a") []; T (fs (lit "abcd") 2 2) []]].
  split. { split; [repeat constructor; cbn; lia|]. split; [repeat constructor; cbn; lia|]. repeat constructor; vm_compute; discriminate. }
  split; [repeat constructor; vm_compute; discriminate|]. split; [by_vm|]. split; [intros x y []|]. split; [intros x y []|]. split; [vm_compute; reflexivity|].
  intros H. specialize (H (fd (lit "abcd") 0 2 "bb") (fd (lit "abcd") 0 2 "a")). vm_compute in H. apply H; auto.
Qed.
(** refuted for key None when the added Ito brings a child of its own span: parent and child change places *)
Theorem C26_none_subtree_refuted : exists pf ks a b ks', forest_wf pf ks /\ twf (T a [T b []]) /\ f_span a = f_span b /\
  add_hierarchical None pf ks (T a [T b []]) = Ok ks' /\ In (b, a) (f_pairs ks') /\ ~ In (a, b) (f_pairs ks').
Proof.
  exists (fs (lit "abcd") 0 4), [T (fs (lit "abcd") 0 1) []], (fd (lit "abcd") 2 4 "a"), (fd (lit "abcd") 2 4 "b"),
    [T (fs (lit "abcd") 0 1) []; T (fd (lit "abcd") 2 4 "b") [T (fd (lit "abcd") 2 4 "a") []]].
  split. { split; [repeat constructor; cbn; lia|]. split; [repeat constructor; cbn; lia|]. repeat constructor; vm_compute; discriminate. }
  split; [repeat constructor; vm_compute; discriminate|]. split; [reflexivity|]. split; [vm_compute; reflexivity|]. split; [vm_compute; auto|].
  vm_compute. intros [E|[]]. discriminate.
Qed.
Print Assumptions C26_key_partial.
Example C26_case : let s := lit "abcd" in
  add_hierarchical_all (Some desc_len) (fs s 0 4) [] (leaves [fd s 1 3 "bb"; fd s 1 3 "a"; fd s 1 3 "ccc"]) = Ok (chain [fd s 1 3 "a"; fd s 1 3 "bb"; fd s 1 3 "ccc"]).
Proof. by_vm. Qed.
