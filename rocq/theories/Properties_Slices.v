(** Property theorem C123: children by index and by slice.  Only statements, closed by
    [exact], with examples. *)
From Verif Require Import HeapFacts4 Properties_Heap SliceFacts.
From Verif Require Import ChildSlices SpecSlices.

(** 0 = Ito('abcdef') with the children 1 = [0:1], 2 = [2:3], 3 = [4:5]; 4 = [0:1] and 5 = [4:5] unattached *)
Definition comb : heap :=
  run [] [ONew (lit "abcdef") None None None; OSub 0 (Some 0) (Some 1) None; OSub 0 (Some 2) (Some 3) None; OSub 0 (Some 4) (Some 5) None;
          OSub 0 (Some 0) (Some 1) None; OSub 0 (Some 4) (Some 5) None; OAdd 0 [1; 2; 3]%nat].
Lemma comb_wf : hwf comb. Proof. exact (run_inv _ [] hwf_nil). Qed.

(** ** reading *)
Theorem C123_get : forall h p k,
  match kids_get_int h p k with
  | Ok c => exists i, idx_at (zlen (n_kids (nd h p))) k i /\ nth_error (n_kids (nd h p)) i = Some c
  | Err e => e = IndexError /\ ~ - zlen (n_kids (nd h p)) <= k < zlen (n_kids (nd h p))
  end.
Proof. exact get_int_spec. Qed.
Theorem C123_get_slice : forall h p a b st, odflt st 1 <> 0 -> exists l, kids_get_slice h p a b st = Ok l /\
  forall t c, nth_error l t = Some c <-> exists k, slc_at (zlen (n_kids (nd h p))) a b (odflt st 1) t k /\ nth_error (n_kids (nd h p)) k = Some c.
Proof. exact get_slice_spec. Qed.
(** a step of 0 is refused, and nothing changes *)
Theorem C123_zero_step : forall h p a b st cs, odflt st 1 = 0 ->
  kids_get_slice h p a b st = Err ValueError /\ kids_del_slice h p a b st = (h, Err ValueError) /\ kids_set_slice h p a b st cs = (h, Err ValueError).
Proof. intros h p a b st cs E. unfold kids_get_slice, kids_set_slice, kids_del_slice. rewrite (zero_step _ a b st E). auto. Qed.

(** ** deleting: exactly the children that reading gives; [without] is described by C22_without *)
Theorem C123_del : forall h p k, hwf h -> (p < length h)%nat ->
  match kids_get_int h p k with
  | Ok c => kids_del_int h p k = (without h p c, Ok tt)
  | Err e => kids_del_int h p k = (h, Err e)
  end.
Proof. exact del_int_spec. Qed.
Theorem C123_del_slice : forall h p a b st, hwf h -> (p < length h)%nat -> odflt st 1 <> 0 ->
  exists l h', kids_get_slice h p a b st = Ok l /\ kids_del_slice h p a b st = (h', Ok tt) /\ hwf h' /\ length h' = length h /\
    (forall j, n_f (nd h' j) = n_f (nd h j)) /\
    (forall j, n_kids (nd h' j) = if (j =? p)%nat then filter (fun c => negb (existsb (Nat.eqb c) l)) (n_kids (nd h p)) else n_kids (nd h j)) /\
    (forall j, n_par (nd h' j) = if existsb (Nat.eqb j) l then None else n_par (nd h j)).
Proof. exact del_slice_spec. Qed.

(** ** assigning: the new Itos stand where the old ones stood, or (one of them may not stand there) ValueError *)
Theorem C123_set_partial : forall h p k c old, hwf h -> (p < length h)%nat -> (c < length h)%nat -> nonempty h c -> Forall (nonempty h) (n_kids (nd h p)) ->
  kids_get_int h p k = Ok old -> n_par (nd h c) = None \/ c = old ->
  exists l r, n_kids (nd h p) = l ++ old :: r /\ idx_at (zlen (n_kids (nd h p))) k (length l) /\
    ((may_stand h p l r c /\ exists h', kids_set_int h p k c = (h', Ok tt) /\ hwf h' /\ length h' = length h /\ (forall j, n_f (nd h' j) = n_f (nd h j)) /\
       (forall j, n_kids (nd h' j) = if (j =? p)%nat then l ++ c :: r else n_kids (nd h j)) /\
       (forall j, n_par (nd h' j) = if (j =? c)%nat then Some p else if (j =? old)%nat then None else n_par (nd h j)))
    \/ (~ may_stand h p l r c /\ kids_set_int h p k c = (without h p old, Err ValueError))).
Proof. exact set_int_spec. Qed.
Theorem C123_set_slice_partial : forall h p a b st cs, odflt st 1 = 1 -> hwf h -> (p < length h)%nat -> NoDup cs -> Forall (nonempty h) (n_kids (nd h p)) ->
  exists l m r, n_kids (nd h p) = l ++ m ++ r /\ zlen l = slc_first (zlen (n_kids (nd h p))) a 1 /\ zlen l + zlen m = Z.max (zlen l) (slc_limit (zlen (n_kids (nd h p))) b 1) /\
  (Forall (fun c => (c < length h)%nat /\ nonempty h c /\ (n_par (nd h c) = None \/ In c m)) cs ->
    (may_stand_all h p l r cs /\ exists h', kids_set_slice h p a b st cs = (h', Ok tt) /\ hwf h' /\ length h' = length h /\ (forall j, n_f (nd h' j) = n_f (nd h j)) /\
       (forall j, n_kids (nd h' j) = if (j =? p)%nat then l ++ cs ++ r else n_kids (nd h j)) /\
       (forall j, n_par (nd h' j) = if existsb (Nat.eqb j) cs then Some p else if existsb (Nat.eqb j) m then None else n_par (nd h j)))
    \/ (~ may_stand_all h p l r cs /\ exists h', kids_set_slice h p a b st cs = (h', Err ValueError) /\ hwf h' /\ length h' = length h /\ (forall j, n_f (nd h' j) = n_f (nd h j)))).
Proof. exact set_slice_spec. Qed.
(** with a step, the new Itos are all put at the slice's start: children[::2] = [..] with
    Itos of the very spans that are replaced is refused, and the old ones are gone *)
Theorem C123_extended_refuted : exists h p a b cs, hwf h /\ Forall (fun c => n_par (nd h c) = None) cs /\
  (exists old, kids_get_slice h p a b (Some 2) = Ok old /\ map (fun j => n_f (nd h j)) old = map (fun j => n_f (nd h j)) cs) /\
  snd (kids_set_slice h p a b (Some 2) cs) = Err ValueError /\ n_kids (nd (fst (kids_set_slice h p a b (Some 2) cs)) p) = [4; 2]%nat.
Proof.
  exists comb, 0%nat, None, None, [4; 5]%nat. split; [exact comb_wf|]. split; [repeat constructor|]. split; [exists [1; 3]%nat; split; vm_compute; reflexivity|]. split; vm_compute; reflexivity.
Qed.
Print Assumptions C123_get_slice.
Print Assumptions C123_del_slice.
Print Assumptions C123_set_slice_partial.
Example C123_case : kids_get_int comb 0 (-1) = Ok 3%nat /\ kids_get_int comb 0 3 = Err IndexError /\
  kids_get_slice comb 0 None None (Some (-1)) = Ok [3; 2; 1]%nat /\ kids_get_slice comb 0 (Some (-1)) (Some 0) (Some (-2)) = Ok [3]%nat /\
  n_kids (nd (fst (kids_del_slice comb 0 None None (Some 2))) 0) = [2]%nat /\
  snd (kids_set_slice comb 0 (Some 0) (Some (-1)) None [4]%nat) = Ok tt /\ n_kids (nd (fst (kids_set_slice comb 0 (Some 0) (Some (-1)) None [4]%nat)) 0) = [4; 3]%nat.
Proof. by_vm. Qed.
Example C123_hypotheses : kids_get_int comb 0 (-1) = Ok 3%nat /\ n_par (nd comb 5) = None /\ nonempty comb 5 /\ Forall (nonempty comb) (n_kids (nd comb 0)) /\
  snd (kids_set_int comb 0 (-1) 5%nat) = Ok tt /\ n_kids (nd (fst (kids_set_int comb 0 (-1) 5%nat)) 0) = [1; 2; 5]%nat /\ snd (kids_set_int comb 0 0 5%nat) = Err ValueError.
Proof. repeat split; repeat constructor. Qed.
