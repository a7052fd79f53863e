(** C133: cuts of cuts. *)
From Verif Require Import Combin Properties_Py PlaceFacts LawFacts Properties_Place ApiFacts.
Import ListNotations.

(** i[a:b][c:d] is one slice of i, with bounds clipped first to i and then to i[a:b] *)
Theorem C133_compose : forall i a b c d r1 r2, fwf i -> getitem_slice i a b None = Ok r1 -> getitem_slice (deref i r1) c d None = Ok r2 ->
  let n := ito_len i in
  let p := clipped n 0 a in
  let m := Z.max p (clipped n n b) - p in
  exists r, getitem_slice i (Some (p + clipped m 0 c)) (Some (p + Z.max (clipped m 0 c) (clipped m m d))) None = Ok r /\ deref i r = deref (deref i r1) r2.
Proof. exact slice_compose. Qed.
(** i[:k] and i[k:] lie end to end over i, for every integer k, and joined give i's text and place back *)
Theorem C133_halves : forall i k, fwf i -> exists r1 r2, getitem_slice i None (Some k) None = Ok r1 /\ getitem_slice i (Some k) None None = Ok r2 /\
  tiles (f_str i) (f_start i) (f_stop i) [deref i r1; deref i r2] /\
  ito_str i = ito_str (deref i r1) ++ ito_str (deref i r2) /\
  forall desc, ito_join [deref i r1; deref i r2] desc = Ok (FI (f_str i) (f_start i) (f_stop i) desc None).
Proof.
  intros i k H. destruct (slice_halves i k H) as (r1 & r2 & H1 & H2 & T). exists r1, r2. split; [exact H1|]. split; [exact H2|]. split; [exact T|]. pose proof H as [B1 B2].
  split; [|intros desc; apply join_tiles; [lia|lia|discriminate|exact T]].
  cbn [tiles] in T. destruct T as (S1 & A1 & L1 & S2 & A2 & L2 & E).
  rewrite (ito_str_zsub i H), !ito_str_zsub by (unfold fwf; rewrite ?S1, ?S2; lia). rewrite S1, S2, A1, A2, E. symmetry. apply zsub_app_split; lia.
Qed.

(** strip is rstrip after lstrip; the other order gives the same Ito when a character
    stays; when none does, strip stands at the end and the other order at the start *)
Theorem C133_strip : forall isspace i chars, fwf i -> chars <> Some [] ->
  let lstrip := fun j => deref j (str_lstrip isspace j chars) in
  let rstrip := fun j => deref j (str_rstrip isspace j chars) in
  let strip := fun j => deref j (str_strip isspace j chars) in
  strip i = rstrip (lstrip i) /\
  ((exists c, In c (ito_str i) /\ ~ in_set isspace chars c) -> strip i = lstrip (rstrip i)) /\
  ((forall c, In c (ito_str i) -> in_set isspace chars c) ->
     f_start (strip i) = f_stop i /\ f_stop (strip i) = f_stop i /\ f_start (lstrip (rstrip i)) = f_start i /\ f_stop (lstrip (rstrip i)) = f_start i) /\
  lstrip (lstrip i) = lstrip i /\ rstrip (rstrip i) = rstrip i /\ strip (strip i) = strip i.
Proof.
  intros isspace i chars H N lstrip rstrip strip.
  assert (P : forall c, eff_set isspace chars c = true <-> in_set isspace chars c).
  { intros c. unfold eff_set, in_set. destruct chars as [[|x s]|]; [congruence| |reflexivity].
    unfold mem_char. rewrite existsb_exists. split; [intros (y & Y & E); apply Z.eqb_eq in E; congruence|intros Y; exists c; split; [exact Y|apply Z.eqb_refl]]. }
  split; [apply strip_is_rl|]. split.
  { intros (c & Ic & Nc). symmetry. apply (strip_comm isspace i chars c H Ic). destruct (eff_set isspace chars c) eqn:E; [|reflexivity]. elim Nc. apply P, E. }
  split.
  { intros A. destruct (strip_all isspace i chars H) as (S1 & S2 & S3 & S4); [intros c Ic; apply P, A, Ic|]. unfold strip, lstrip, rstrip. rewrite S3, S4. tauto. }
  exact (strip_again isspace i chars H).
Qed.

(** without a limit split and rsplit give the same Itos, if no part of the separator overlaps itself *)
Theorem C133_split : forall i sep m m', fwf i -> sep <> [] -> no_self_overlap sep -> m < 0 -> m' < 0 ->
  exists l r, str_split i sep m = Ok l /\ str_rsplit i sep m' = Ok r /\ map (deref i) l = map (deref i) r.
Proof. exact split_both. Qed.
(** one that does: 'aaa' *)
Example C133_split_overlap : let i := FI (lit "aaa") 0 3 None None in
  option_map (map (fun x => (f_start (deref i x), f_stop (deref i x)))) (match str_split i (lit "aa") (-1) with Ok l => Some l | _ => None end) = Some [(0, 0); (2, 3)] /\
  option_map (map (fun x => (f_start (deref i x), f_stop (deref i x)))) (match str_rsplit i (lit "aa") (-1) with Ok l => Some l | _ => None end) = Some [(0, 1); (3, 3)].
Proof. split; vm_compute; reflexivity. Qed.
(** and so do split(None) and rsplit(None), for an Ito that begins at 0 *)
Theorem C12_both_partial : forall isspace i m m' fuel, fwf i -> f_start i = 0 -> (Z.to_nat (ito_len i) < fuel)%nat -> m < 0 -> m' < 0 ->
  exists l, str_wsplit fuel isspace i m = Ok l /\ str_rwsplit fuel isspace i m' = Ok l.
Proof. exact words_both. Qed.

(** the hypotheses are met *)
Example C133_case : let i := FI (lit "__abcdef__") 2 8 (Some (lit "d")) (Some 3) in fwf i /\
  getitem_slice i (Some (-5)) (Some 5) None = Ok (RNew (FI (lit "__abcdef__") 3 7 (Some (lit "d")) (Some 3))) /\
  getitem_slice (FI (lit "__abcdef__") 3 7 (Some (lit "d")) (Some 3)) (Some 1) (Some (-1)) None = Ok (RNew (FI (lit "__abcdef__") 4 6 (Some (lit "d")) (Some 3))) /\
  getitem_slice i (Some 2) (Some 4) None = Ok (RNew (FI (lit "__abcdef__") 4 6 (Some (lit "d")) (Some 3))).
Proof. split; [unfold fwf; repeat split; vm_compute; discriminate|]. repeat split. Qed.
Example C133_case_strip : let i := FI (lit "_ ab _") 1 5 None None in let j := FI (lit "_   _") 1 4 None None in fwf i /\ fwf j /\
  (exists c, In c (ito_str i) /\ ~ in_set sp32 None c) /\ deref i (str_strip sp32 i None) = FI (lit "_ ab _") 2 4 None None /\
  (forall c, In c (ito_str j) -> in_set sp32 None c) /\ deref j (str_strip sp32 j None) = FI (lit "_   _") 4 4 None None /\
  no_self_overlap (lit "ab").
Proof.
  split; [unfold fwf; repeat split; vm_compute; discriminate|]. split; [unfold fwf; repeat split; vm_compute; discriminate|].
  split; [exists 97; split; [vm_compute; tauto|vm_compute; discriminate]|]. split; [vm_compute; reflexivity|].
  split; [intros c Ic; vm_compute in Ic; decompose [or] Ic; subst; try contradiction; vm_compute; reflexivity|]. split; [vm_compute; reflexivity|].
  intros k Hk. change (zlen (lit "ab")) with 2 in *. assert (k = 1) as -> by lia. vm_compute. discriminate.
Qed.
Print Assumptions C133_compose.
Print Assumptions C133_halves.
Print Assumptions C133_strip.
Print Assumptions C133_split.
Print Assumptions C12_both_partial.
