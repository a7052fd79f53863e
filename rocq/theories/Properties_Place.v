(** C132: the pieces an Ito is cut into stand where their text is. *)
From Verif Require Import PlaceFacts Properties_Py.
Import ListNotations.

Theorem C132_slice : forall i a b r, fwf i -> getitem_slice i a b None = Ok r ->
  exists x y, cut_off x (deref i r) y i /\
    zlen x = clipped (ito_len i) 0 a /\ zlen y = ito_len i - Z.max (clipped (ito_len i) 0 a) (clipped (ito_len i) (ito_len i) b).
Proof. exact slice_place. Qed.
Theorem C132_index : forall i k r, fwf i -> 0 <= k < ito_len i -> getitem_int i k = Ok r ->
  exists x y, cut_off x (deref i r) y i /\ zlen x = k /\ zlen y = ito_len i - k - 1.
Proof. exact int_place. Qed.

(** nothing but characters to strip goes, and only from the side(s) named *)
Theorem C132_strip : forall isspace i chars, fwf i -> chars <> Some [] ->
  let l := deref i (str_lstrip isspace i chars) in
  let r := deref i (str_rstrip isspace i chars) in
  let b := deref i (str_strip isspace i chars) in
  exists p, (forall c, p c = true <-> in_set isspace chars c) /\
  (exists x, cut_off x l [] i /\ all_of p x /\ begins_out p (ito_str l)) /\
  (exists y, cut_off [] r y i /\ all_of p y /\ ends_out p (ito_str r)) /\
  (exists x y, cut_off x b y i /\ all_of p x /\ all_of p y /\ begins_out p (ito_str b) /\ ends_out p (ito_str b)).
Proof.
  intros isspace i chars H N l r b. exists (eff_set isspace chars). split; [|split; [exact (lstrip_place isspace i chars H)|split; [exact (rstrip_place isspace i chars H)|exact (strip_place isspace i chars H)]]].
  intros c. unfold eff_set, in_set. destruct chars as [[|x s]|]; [congruence| |reflexivity].
  unfold mem_char. rewrite existsb_exists. split; [intros (y & Y & E); apply Z.eqb_eq in E; congruence|intros Y; exists c; split; [exact Y|apply Z.eqb_refl]].
Qed.

Theorem C132_removeprefix : forall i p, fwf i -> exists r, str_removeprefix i p = Ok r /\
  ((exists t, ito_str i = p ++ t) -> cut_off p (deref i r) [] i) /\ ((forall t, ito_str i <> p ++ t) -> r = RSelf).
Proof. exact removeprefix_place. Qed.
Theorem C132_removesuffix : forall i p, fwf i -> p <> [] -> exists r, str_removesuffix i p = Ok r /\
  ((exists t, ito_str i = t ++ p) -> cut_off [] (deref i r) p i) /\ ((forall t, ito_str i <> t ++ p) -> r = RSelf).
Proof. exact removesuffix_place. Qed.

(** the lines with their ends are laid end to end over the Ito; the lines
    without are these, one by one, less their line end *)
Theorem C132_splitlines : forall i d1 d2, fwf i ->
  tiles (f_str i) (f_start i) (f_stop i) (str_splitlines i true d1) /\
  Forall2 line_of (str_splitlines i true d1) (str_splitlines i false d2).
Proof. exact lines_place. Qed.

Theorem C132_split_partial : forall isspace i m fuel rs, fwf i -> f_start i = 0 -> str_wsplit fuel isspace i m = Ok rs ->
  strewn isspace (f_str i) (f_start i) (f_stop i) rs.
Proof. exact wsplit_place. Qed.
Theorem C132_rsplit_partial : forall isspace i m fuel rs, fwf i -> f_start i = 0 -> str_rwsplit fuel isspace i m = Ok rs ->
  strewn isspace (f_str i) (f_start i) (f_stop i) rs.
Proof. exact rwsplit_place. Qed.
(** an Ito that begins later: the word b stands between the two pieces *)
Theorem C132_split_refuted : exists i rs, fwf i /\ str_wsplit 100 sp32 i (-1) = Ok rs /\ ~ strewn sp32 (f_str i) (f_start i) (f_stop i) rs.
Proof.
  exists (FI (lit "___a b c") 3 8 None None). eexists. split; [unfold fwf; repeat split; vm_compute; discriminate|]. split; [vm_compute; reflexivity|].
  cbn [strewn f_str f_start f_stop]. intros (_ & _ & _ & _ & _ & _ & _ & A & _). specialize (A 98). vm_compute in A. discriminate A. auto.
Qed.

(** every piece has the string, the descriptor and the value function of the Ito;
    the affix removers drop the value function *)
Theorem C132_sibling_partial : forall isspace i, 
  (forall a b c r, getitem_slice i a b c = Ok r -> sibling i (deref i r)) /\
  (forall k r, getitem_int i k = Ok r -> sibling i (deref i r)) /\
  (forall r, In r (ito_iter i) -> sibling i (deref i r)) /\
  (forall chars, sibling i (deref i (str_lstrip isspace i chars)) /\ sibling i (deref i (str_rstrip isspace i chars)) /\ sibling i (deref i (str_strip isspace i chars))) /\
  (forall sep m rs r, str_split i sep m = Ok rs \/ str_rsplit i sep m = Ok rs -> In r rs -> sibling i (deref i r)) /\
  (forall fuel m rs x, str_wsplit fuel isspace i m = Ok rs \/ str_rwsplit fuel isspace i m = Ok rs -> In x rs -> sibling i x).
Proof.
  intros isspace i. split; [exact (sib_slice i)|]. split; [exact (sib_int i)|].
  split; [intros r I; exact (proj1 (Forall_forall _ _) (sib_iter i) r I)|].
  split; [intros chars; split; [apply sib_lstrip|split; [apply sib_rstrip|apply sib_strip]]|]. split.
  - intros sep m rs r [E|E] I; [exact (proj1 (Forall_forall _ _) (sib_split i sep m rs E) r I)|exact (proj1 (Forall_forall _ _) (sib_rsplit i sep m rs E) r I)].
  - intros fuel m rs x [E|E] I; [exact (proj1 (Forall_forall _ _) (sib_wsplit _ _ _ _ _ E) x I)|exact (proj1 (Forall_forall _ _) (sib_rwsplit _ _ _ _ _ E) x I)].
Qed.
Theorem C132_affix_partial : forall i p r, str_removeprefix i p = Ok r \/ str_removesuffix i p = Ok r ->
  f_str (deref i r) = f_str i /\ f_desc (deref i r) = f_desc i /\ (r = RSelf \/ f_vf (deref i r) = None).
Proof. exact remove_desc. Qed.
Theorem C132_affix_refuted : exists i r, fwf i /\ str_removeprefix i (lit "a") = Ok r /\ ~ sibling i (deref i r).
Proof.
  exists (FI (lit "ab") 0 2 None (Some 7)). eexists. split; [unfold fwf; repeat split; vm_compute; discriminate|].
  split; [vm_compute; reflexivity|]. intros (_ & _ & E). discriminate E.
Qed.

(** the hypotheses are met: two equal words, told apart by where they stand *)
Example C132_case : let i := FI (lit " ab  ab ") 0 8 None None in fwf i /\
  option_map (map (fun x => (f_start x, f_stop x))) (match str_wsplit 100 sp32 i (-1) with Ok l => Some l | _ => None end) = Some [(1, 3); (5, 7)] /\
  option_map (map (fun x => (f_start x, f_stop x))) (match str_rwsplit 100 sp32 i 1 with Ok l => Some l | _ => None end) = Some [(0, 3); (5, 7)].
Proof. split; [unfold fwf; repeat split; vm_compute; discriminate|]. split; vm_compute; reflexivity. Qed.
Example C132_case_lines : let i := FI (lit "xab" ++ [13; 10; 99; 10; 10]) 1 8 None None in fwf i /\
  map (fun x => (f_start x, f_stop x)) (str_splitlines i true None) = [(1, 5); (5, 7); (7, 8)] /\
  map (fun x => (f_start x, f_stop x)) (str_splitlines i false None) = [(1, 3); (5, 6); (7, 7)].
Proof. split; [unfold fwf; repeat split; vm_compute; discriminate|]. split; vm_compute; reflexivity. Qed.
Example C132_case_cut : let i := FI (lit "xaaba") 1 5 None None in fwf i /\
  (f_start (deref i (str_lstrip sp32 i (Some (lit "a")))), f_stop (deref i (str_rstrip sp32 i (Some (lit "a"))))) = (3, 4) /\
  str_removeprefix i (lit "a") = Ok (RNew (FI (lit "xaaba") 2 5 None None)) /\
  str_removesuffix i (lit "a") = Ok (RNew (FI (lit "xaaba") 1 4 None None)).
Proof. split; [unfold fwf; repeat split; vm_compute; discriminate|]. repeat split; vm_compute; reflexivity. Qed.

Print Assumptions C132_slice.
Print Assumptions C132_index.
Print Assumptions C132_strip.
Print Assumptions C132_removeprefix.
Print Assumptions C132_removesuffix.
Print Assumptions C132_splitlines.
Print Assumptions C132_split_partial.
Print Assumptions C132_rsplit_partial.
Print Assumptions C132_split_refuted.
Print Assumptions C132_sibling_partial.
Print Assumptions C132_affix_partial.
Print Assumptions C132_affix_refuted.
