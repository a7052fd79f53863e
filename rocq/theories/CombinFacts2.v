(** Proofs about partition, from_re's limit, group keys, invert_children,
    strip_to_children and adopt. *)
From Verif Require Import CombinFacts HierHeap6.

(** -- partition -- *)
Lemma clone_false n h i a b d : clone_h (S n) h i a b d false = (h ++ [Nd (clone_f (n_f (nd h i)) a b d) None []], Ok (length h)).
Proof. reflexivity. Qed.
Lemma find_none_none s sub : sub <> [] -> py_find s sub None None = match find_in sub s with Some k => k | None => -1 end.
Proof.
  intros H. unfold py_find. replace (adj_start (zlen s) None) with 0 by reflexivity. replace (adj_end (zlen s) None) with (zlen s) by reflexivity.
  rewrite zsub_full, Z.sub_0_r. destruct (Z.ltb_spec (zlen s) (zlen sub)) as [Hl|Hl].
  - destruct (find_in sub s) as [k|] eqn:E; [|reflexivity]. apply find_in_range in E. lia.
  - destruct (find_in sub s) as [k|] eqn:E; [lia|reflexivity].
Qed.
Lemma rfind_none_none s sub : sub <> [] -> py_rfind s sub None None = match rfind_in sub s with Some k => k | None => -1 end.
Proof.
  intros H. unfold py_rfind. replace (adj_start (zlen s) None) with 0 by reflexivity. replace (adj_end (zlen s) None) with (zlen s) by reflexivity.
  rewrite zsub_full, Z.sub_0_r. destruct (Z.ltb_spec (zlen s) (zlen sub)) as [Hl|Hl].
  - destruct (rfind_in sub s) as [k|] eqn:E; [|reflexivity]. apply rfind_in_range in E. lia.
  - destruct (rfind_in sub s) as [k|] eqn:E; [lia|reflexivity].
Qed.

(** three new objects at the end of the heap *)
Lemma nd_app3 h x y z : nd (h ++ [x] ++ [y] ++ [z]) (length h) = x /\ nd (h ++ [x] ++ [y] ++ [z]) (S (length h)) = y /\
  nd (h ++ [x] ++ [y] ++ [z]) (S (S (length h))) = z.
Proof.
  unfold nd. split; [|split]; rewrite app_nth2 by lia.
  - rewrite Nat.sub_diag. reflexivity.
  - replace (S (length h) - length h)%nat with 1%nat by lia. reflexivity.
  - replace (S (S (length h)) - length h)%nat with 2%nat by lia. reflexivity.
Qed.
Lemma extends_app h l : extends h (h ++ l).
Proof. split; [rewrite app_length; lia|]. intros j Hj. unfold nd. apply app_nth1. exact Hj. Qed.

(** the three pieces at a found separator *)
Lemma part3 h i k (sp : pystr) : hwf h -> (i < length h)%nat -> 0 <= k -> k + zlen sp <= ito_len (n_f (nd h i)) ->
  let f := n_f (nd h i) in let j := k + h_start h i in let k2 := j + zlen sp in
  obind (clone_h (depth_fuel h) h i None (Some j) None false) (fun h1 a =>
  obind (clone_h (depth_fuel h1) h1 i (Some j) (Some k2) None false) (fun h2 b =>
  obind (clone_h (depth_fuel h2) h2 i (Some k2) None None false) (fun h3 c => (h3, @Ok (nat * nat * nat) (a, b, c)))))
  = (h ++ [Nd (FI (f_str f) (f_start f) j (f_desc f) (f_vf f)) None []] ++ [Nd (FI (f_str f) j k2 (f_desc f) (f_vf f)) None []] ++
         [Nd (FI (f_str f) k2 (f_stop f) (f_desc f) (f_vf f)) None []], Ok (length h, S (length h), S (S (length h)))).
Proof.
  intros H Hi Hk Hk2. cbv zeta. unfold depth_fuel. pose proof (hwf_span h H i) as Hw. pose proof Hw as [Hw1 Hw2]. unfold ito_len in Hk2.
  pose proof (zlen_nonneg sp) as Hs. unfold h_start.
  set (f := n_f (nd h i)) in *. set (j := k + f_start f). set (k2 := j + zlen sp).
  assert (E1 : clone_f f None (Some j) None = FI (f_str f) (f_start f) j (f_desc f) (f_vf f)).
  { rewrite clone_f_in by (cbn [odflt]; subst j; lia || exact Hw). reflexivity. }
  assert (E2 : clone_f f (Some j) (Some k2) None = FI (f_str f) j k2 (f_desc f) (f_vf f)).
  { rewrite clone_f_in by (cbn [odflt]; subst j k2; lia || exact Hw). reflexivity. }
  assert (E3 : clone_f f (Some k2) None None = FI (f_str f) k2 (f_stop f) (f_desc f) (f_vf f)).
  { rewrite clone_f_in by (cbn [odflt]; subst j k2; lia || exact Hw). reflexivity. }
  rewrite clone_false. unfold obind at 1. cbn [fst snd].
  rewrite clone_false. unfold obind at 1. cbn [fst snd].
  rewrite clone_false. unfold obind. cbn [fst snd].
  assert (D1 : forall n, nd (h ++ [n]) i = nd h i) by (intros n; apply (proj2 (extends_app h [n])); exact Hi).
  assert (D2 : forall n m, nd ((h ++ [n]) ++ [m]) i = nd h i).
  { intros n m. rewrite <- app_assoc. apply (proj2 (extends_app h ([n] ++ [m]))); exact Hi. }
  rewrite D2, !D1. fold f. rewrite E1, E2, E3. rewrite !app_length. cbn [length].
  rewrite <- !app_assoc. do 2 f_equal. f_equal; [f_equal|]; lia.
Qed.


Lemma partition_found (right : bool) h i sp : hwf h -> (i < length h)%nat -> sp <> [] ->
  (if right then rfind_in sp (ito_str (n_f (nd h i))) else find_in sp (ito_str (n_f (nd h i)))) <> None ->
  exists h' a b c, (if right then str_rpartition else str_partition) h i (Some sp) = (h', Ok (a, b, c)) /\
    extends h h' /\ hwf h' /\ fresh_leaf h h' a /\ fresh_leaf h h' b /\ fresh_leaf h h' c /\
    (ito_str (n_f (nd h' a)), ito_str (n_f (nd h' b)), ito_str (n_f (nd h' c))) =
      (if right then py_rpartition else py_partition) (ito_str (n_f (nd h i))) sp /\
    h_start h' a = h_start h i /\ h_stop h' a = h_start h' b /\ h_stop h' b = h_start h' c /\ h_stop h' c = h_stop h i /\
    Forall (fun x => f_str (n_f (nd h' x)) = h_string h i /\ f_desc (n_f (nd h' x)) = f_desc (n_f (nd h i)) /\ f_vf (n_f (nd h' x)) = f_vf (n_f (nd h i))) [a; b; c].
Proof.
  intros H Hi Hsp Hf. pose proof (hwf_span h H i) as Hw.
  assert (HF : exists k, (if right then rfind_in sp (ito_str (n_f (nd h i))) else find_in sp (ito_str (n_f (nd h i)))) = Some k)
    by (destruct (if right then _ else _); [eexists; reflexivity|congruence]).
  destruct HF as [k Ek]. clear Hf.
  assert (HR : 0 <= k /\ k + zlen sp <= zlen (ito_str (n_f (nd h i))) /\ zsub (ito_str (n_f (nd h i))) k (k + zlen sp) = sp).
  { destruct right.
    - pose proof (rfind_in_range _ _ _ Ek) as [A B]. split; [exact A|split; [exact B|]]. apply rfind_in_Some in Ek. apply Ek.
    - pose proof (find_in_range _ _ _ Ek) as [A B]. split; [exact A|split; [exact B|]]. apply find_in_Some in Ek. apply Ek. }
  destruct HR as (HR1 & HR2 & HR3). rewrite (ito_str_len _ Hw) in HR2.
  pose proof (part3 h i k sp H Hi HR1 HR2) as P. cbv zeta in P.
  set (f := n_f (nd h i)) in *. set (j := k + h_start h i) in *. set (k2 := j + zlen sp) in *.
  set (n1 := Nd (FI (f_str f) (f_start f) j (f_desc f) (f_vf f)) None []) in *.
  set (n2 := Nd (FI (f_str f) j k2 (f_desc f) (f_vf f)) None []) in *.
  set (n3 := Nd (FI (f_str f) k2 (f_stop f) (f_desc f) (f_vf f)) None []) in *.
  assert (Ecall : (if right then str_rpartition else str_partition) h i (Some sp) =
     (h ++ [n1] ++ [n2] ++ [n3], Ok (length h, S (length h), S (S (length h))))).
  { assert (M : forall A (x y : A), match sp with [] => x | _ :: _ => y end = y) by (intros A x y; destruct sp; [congruence|reflexivity]).
    destruct right; unfold str_rpartition, str_partition; rewrite M;
    [rewrite str_rfind_eq by (try exact Hw; left; exact Hsp); rewrite rfind_none_none by exact Hsp
    |rewrite str_find_eq by (try exact Hw; left; exact Hsp); rewrite find_none_none by exact Hsp]; fold f; rewrite Ek;
    (destruct (Z.ltb_spec k 0); [lia|]); exact P. }
  exists (h ++ [n1] ++ [n2] ++ [n3]), (length h), (S (length h)), (S (S (length h))).
  destruct (nd_app3 h n1 n2 n3) as (A1 & A2 & A3).
  assert (Hlen : length (h ++ [n1] ++ [n2] ++ [n3]) = (3 + length h)%nat) by (rewrite !app_length; cbn [length]; lia).
  pose proof Hw as [Hw1 Hw2]. pose proof (zlen_nonneg sp) as Hs. unfold ito_len in HR2. unfold h_start in j. fold f in j.
  assert (W1 : fwf (n_f n1)) by (split; cbn; subst k2 j; lia).
  assert (W2 : fwf (n_f n2)) by (split; cbn; subst k2 j; lia).
  assert (W3 : fwf (n_f n3)) by (split; cbn; subst k2 j; lia).
  split; [exact Ecall|]. split; [apply extends_app|]. split.
  { change (h ++ [n1] ++ [n2] ++ [n3]) with (h ++ [n1] ++ ([n2] ++ [n3])). rewrite !app_assoc. apply (hwf_new ((h ++ [n1]) ++ [n2]) (n_f n3)); [|exact W3].
    apply (hwf_new (h ++ [n1]) (n_f n2)); [|exact W2]. apply (hwf_new h (n_f n1)); [exact H|exact W1]. }
  unfold fresh_leaf, h_start, h_stop, h_string. rewrite A1, A2, A3, Hlen. cbn [n1 n2 n3 n_f n_par n_kids f_str f_start f_stop f_desc].
  split; [split; [lia|auto]|]. split; [split; [lia|auto]|]. split; [split; [lia|auto]|].
  split.
  { assert (T1 : ito_str (n_f n1) = zsub (ito_str f) 0 k).
    { rewrite (ito_str_zsub _ W1), (ito_str_zsub f Hw), zsub_zsub by lia. cbn. f_equal; subst j; lia. }
    assert (T2 : ito_str (n_f n2) = sp).
    { rewrite <- HR3. rewrite (ito_str_zsub _ W2), (ito_str_zsub f Hw), zsub_zsub by lia. cbn. f_equal; subst k2 j; lia. }
    assert (T3 : ito_str (n_f n3) = zsub (ito_str f) (k + zlen sp) (zlen (ito_str f))).
    { rewrite (ito_str_len f Hw). unfold ito_len. rewrite (ito_str_zsub _ W3), (ito_str_zsub f Hw), zsub_zsub by lia. cbn. f_equal; subst k2 j; lia. }
    cbn [n1 n2 n3 n_f] in T1, T2, T3. rewrite T1, T2, T3. destruct right; [unfold py_rpartition|unfold py_partition]; rewrite Ek; reflexivity. }
  repeat (split; [reflexivity|]). constructor; [rewrite A1; repeat split|]. constructor; [rewrite A2; repeat split|].
  constructor; [rewrite A3; repeat split|]. constructor.
Qed.

(** separator absent, no children *)
Lemma clone_leaf n h i a b d : n_kids (nd h i) = [] ->
  clone_h (S n) h i a b d true = (h ++ [Nd (clone_f (n_f (nd h i)) a b d) None []], Ok (length h)).
Proof. intros E. cbn [clone_h]. unfold obind, new_node. cbn [fst snd]. rewrite E. reflexivity. Qed.
Lemma partition_absent (right : bool) h i sp : hwf h -> (i < length h)%nat -> sp <> [] -> n_kids (nd h i) = [] ->
  (if right then rfind_in sp (ito_str (n_f (nd h i))) else find_in sp (ito_str (n_f (nd h i)))) = None ->
  exists h' a b c, (if right then str_rpartition else str_partition) h i (Some sp) = (h', Ok (a, b, c)) /\ extends h h' /\ hwf h' /\ (if right then c = i /\ fresh_leaf h h' a /\ fresh_leaf h h' b else a = i /\ fresh_leaf h h' b /\ fresh_leaf h h' c) /\ (ito_str (n_f (nd h' a)), ito_str (n_f (nd h' b)), ito_str (n_f (nd h' c))) =
      (if right then py_rpartition else py_partition) (ito_str (n_f (nd h i))) sp /\ (if right then h_start h' a = h_stop h i /\ h_start h' b = h_stop h i
     else h_start h' a = h_start h i /\ h_stop h' a = h_start h' b /\ h_stop h' b = h_start h' c /\ h_stop h' c = h_stop h i) /\
    Forall (fun x => f_str (n_f (nd h' x)) = h_string h i /\ f_desc (n_f (nd h' x)) = f_desc (n_f (nd h i)) /\ f_vf (n_f (nd h' x)) = f_vf (n_f (nd h i))) [a; b; c].
Proof.
  intros H Hi Hsp Hk Ek. pose proof (hwf_span h H i) as Hw. pose proof Hw as [Hw1 Hw2].
  set (f := n_f (nd h i)) in *. set (n1 := Nd (FI (f_str f) (f_stop f) (f_stop f) (f_desc f) (f_vf f)) None []).
  assert (W1 : fwf (n_f n1)) by (split; cbn; lia).
  assert (E1 : clone_f f (Some (f_stop f)) None None = n_f n1).
  { rewrite clone_f_in by (cbn [odflt]; lia || exact Hw). reflexivity. }
  assert (M : forall A (x y : A), match sp with [] => x | _ :: _ => y end = y) by (intros A x y; destruct sp; [congruence|reflexivity]).
  assert (C : forall (g : nat -> nat -> nat * nat * nat), obind (clone_h (depth_fuel h) h i (Some (h_stop h i)) None None true) (fun h1 b =>
           obind (clone_h (depth_fuel h1) h1 i (Some (h_stop h1 i)) None None true) (fun h2 c =>
           (h2, Ok (g b c)))) = (h ++ [n1] ++ [n1], Ok (g (length h) (S (length h))))).
  { intros g. unfold depth_fuel. rewrite clone_leaf by exact Hk. unfold obind at 1. cbn [fst snd].
    assert (D1 : forall n, nd (h ++ [n]) i = nd h i) by (intros n; apply (proj2 (extends_app h [n])); exact Hi).
    rewrite clone_leaf by (rewrite D1; exact Hk). unfold obind. cbn [fst snd]. unfold h_stop. rewrite !D1. fold f. rewrite E1.
    rewrite <- app_assoc, app_length. cbn [length]. replace (length h + 1)%nat with (S (length h)) by lia. reflexivity. }
  assert (X : extends h (h ++ [n1] ++ [n1])) by apply extends_app.
  assert (A1 : nd (h ++ [n1] ++ [n1]) (length h) = n1) by (unfold nd; rewrite app_nth2 by lia; rewrite Nat.sub_diag; reflexivity).
  assert (A2 : nd (h ++ [n1] ++ [n1]) (S (length h)) = n1) by (unfold nd; rewrite app_nth2 by lia; replace (S (length h) - length h)%nat with 1%nat by lia; reflexivity).
  assert (A0 : nd (h ++ [n1] ++ [n1]) i = nd h i) by (apply (proj2 X); exact Hi).
  assert (L : length (h ++ [n1] ++ [n1]) = S (S (length h))) by (rewrite !app_length; cbn [length]; lia).
  assert (HW : hwf (h ++ [n1] ++ [n1])).
  { rewrite app_assoc. apply (hwf_new (h ++ [n1]) (n_f n1)); [|exact W1]. apply (hwf_new h (n_f n1)); [exact H|exact W1]. }
  assert (T1 : ito_str (n_f n1) = []) by (rewrite (ito_str_zsub _ W1), zsub_nil by (cbn; lia); reflexivity).
  assert (FL : fresh_leaf h (h ++ [n1] ++ [n1]) (length h) /\ fresh_leaf h (h ++ [n1] ++ [n1]) (S (length h))).
  { unfold fresh_leaf. rewrite L, A1, A2. split; (split; [lia|split; reflexivity]). }
  destruct right.
  - exists (h ++ [n1] ++ [n1]), (length h), (S (length h)), i. split; [|split; [exact X|split; [exact HW|split; [split; [reflexivity|exact FL]|split; [|split]]]]].
    + unfold str_rpartition. rewrite M, str_rfind_eq by (try exact Hw; left; exact Hsp). rewrite rfind_none_none by exact Hsp. fold f. rewrite Ek. cbn [Z.ltb Z.compare].
      exact (C (fun b c => (b, c, i))).
    + rewrite A0, A1, A2, T1. unfold py_rpartition. fold f. rewrite Ek. reflexivity.
    + unfold h_start, h_stop. rewrite A1, A2. split; reflexivity.
    + repeat (constructor; [rewrite ?A0, ?A1, ?A2; repeat split|]). constructor.
  - exists (h ++ [n1] ++ [n1]), i, (length h), (S (length h)). split; [|split; [exact X|split; [exact HW|split; [split; [reflexivity|exact FL]|split; [|split]]]]].
    + unfold str_partition. rewrite M, str_find_eq by (try exact Hw; left; exact Hsp). rewrite find_none_none by exact Hsp. fold f. rewrite Ek. cbn [Z.ltb Z.compare].
      exact (C (fun b c => (i, b, c))).
    + rewrite A0, A1, A2, T1. unfold py_partition. fold f. rewrite Ek. reflexivity.
    + unfold h_start, h_stop. rewrite A0, A1, A2. repeat split; reflexivity.
    + repeat (constructor; [rewrite ?A0, ?A1, ?A2; repeat split|]). constructor.
Qed.
(** separator absent, a child that is not a zero-width Ito at the end: ValueError *)
Lemma rep_kid_in h t i c : rep h t i -> In c (n_kids (nd h i)) -> exists tc, In tc (t_kids t) /\ rep h tc c.
Proof. intros R Hc. apply rep_kids in R. destruct (Forall2_in_r _ _ _ _ R Hc) as (tc & A & B). exists tc. auto. Qed.
Lemma partition_children (right : bool) h i sp c : hwf h -> acyclic h -> (i < length h)%nat -> sp <> [] ->
  In c (n_kids (nd h i)) -> h_start h c < h_stop h i ->
  (if right then rfind_in sp (ito_str (n_f (nd h i))) else find_in sp (ito_str (n_f (nd h i)))) = None ->
  snd ((if right then str_rpartition else str_partition) h i (Some sp)) = Err ValueError.
Proof.
  intros H Ha Hi Hsp Hc Hlt Ek. pose proof (hwf_span h H i) as Hw. pose proof Hw as [Hw1 Hw2].
  assert (M : forall A (x y : A), match sp with [] => x | _ :: _ => y end = y) by (intros A x y; destruct sp; [congruence|reflexivity]).
  assert (C : snd (clone_h (depth_fuel h) h i (Some (h_stop h i)) None None true) = Err ValueError).
  { destruct (clone_total h i (Some (h_stop h i)) None None H Ha Hi) as (t & h' & R & _ & _ & _ & [(F & _)|(_ & E)]); [|rewrite E; reflexivity].
    exfalso. destruct (rep_kid_in h t i c R Hc) as (tc & Hin & Rc). rewrite Forall_forall in F. specialize (F tc Hin).
    destruct F as (_ & F & _). unfold t_start in F. cbn [t_f] in F. rewrite <- (rep_f h t i R), <- (rep_f h tc c Rc) in F.
    rewrite clone_f_in in F by (cbn [odflt]; unfold h_stop; lia || exact Hw). cbn in F. unfold h_start, h_stop in *. lia. }
  destruct right; [unfold str_rpartition; rewrite M, str_rfind_eq by (try exact Hw; left; exact Hsp); rewrite rfind_none_none by exact Hsp
                  |unfold str_partition; rewrite M, str_find_eq by (try exact Hw; left; exact Hsp); rewrite find_none_none by exact Hsp];
  rewrite Ek; cbn [Z.ltb Z.compare]; unfold obind at 1;
  (destruct (clone_h (depth_fuel h) h i (Some (h_stop h i)) None None true) as [h1 [x|e]]; cbn [snd] in C; [discriminate|injection C as ->; reflexivity]).
Qed.

(** -- from_re: the limit -- *)
Lemma fr_none keys df : forall ms h rv n, fr_loop h keys df None rv n ms =
  match run_matches h keys df ms with
  | (h', Ok ls) => (h', Ok (rv ++ concat ls, (n + length ms)%nat))
  | (h', Err e) => (h', Err e)
  end.
Proof.
  induction ms as [|m ms IH]; intros h rv n; cbn [fr_loop run_matches concat length].
  - rewrite app_nil_r, Nat.add_0_r. reflexivity.
  - unfold obind. destruct (from_match h m (df m) (keys m)) as [h1 [l|e]]; cbn [fst snd]; [|reflexivity].
    rewrite IH. destruct (run_matches h1 keys df ms) as [h2 [ls|e]]; cbn [fst snd concat]; [|reflexivity].
    rewrite <- app_assoc. replace (S n + length ms)%nat with (n + S (length ms))%nat by lia. reflexivity.
Qed.
Lemma fr_limit keys df k : forall ms h rv n, exists m, (m <= length ms)%nat /\
  fr_loop h keys df (Some k) rv n ms =
  match run_matches h keys df (firstn m ms) with
  | (h', Ok ls) => (h', Ok (rv ++ concat ls, (n + m)%nat))
  | (h', Err e) => (h', Err e)
  end /\
  (forall j c, (0 < j < m)%nat -> prefix_count h keys df ms j = Some c -> zlen rv + c < k) /\
  ((m < length ms)%nat -> forall c, prefix_count h keys df ms m = Some c -> (0 < m)%nat /\ k <= zlen rv + c).
Proof.
  induction ms as [|x ms IH]; intros h rv n; cbn [fr_loop].
  - exists 0%nat. cbn. rewrite app_nil_r, Nat.add_0_r. repeat split; lia.
  - destruct (from_match h x (df x) (keys x)) as [h1 [l|e]] eqn:E; unfold obind; cbn [fst snd].
    + destruct (Z.leb_spec k (zlen (rv ++ l))) as [Hk|Hk].
      * exists 1%nat. cbn [length]. split; [lia|]. split; [|split; [lia|]].
        -- cbn [firstn run_matches]. rewrite E. unfold obind. cbn [fst snd concat]. rewrite app_nil_r, Nat.add_1_r. reflexivity.
        -- intros _ c. unfold prefix_count. cbn [firstn run_matches]. rewrite E. unfold obind. cbn [fst snd concat]. rewrite app_nil_r. intros [= <-].
           split; [lia|]. rewrite zlen_app in Hk. lia.
      * destruct (IH h1 (rv ++ l) (S n)) as (m & Hm & F & Hlo & Hhi). exists (S m). cbn [length].
        split; [lia|]. rewrite zlen_app in *.
        assert (PC : forall j c, prefix_count h keys df (x :: ms) (S j) = Some c -> prefix_count h1 keys df ms j = Some (c - zlen l)).
        { intros j c. unfold prefix_count. cbn [firstn run_matches]. rewrite E. unfold obind. cbn [fst snd].
          destruct (run_matches h1 keys df (firstn j ms)) as [h2 [ls|e]]; cbn [fst snd concat]; [|discriminate]. rewrite zlen_app. intros [= <-]. f_equal. lia. }
        split; [|split].
        -- rewrite F. cbn [firstn run_matches]. rewrite E. unfold obind. cbn [fst snd].
           destruct (run_matches h1 keys df (firstn m ms)) as [h2 [ls|e]]; cbn [fst snd concat]; [|reflexivity].
           rewrite <- app_assoc. replace (S n + m)%nat with (n + S m)%nat by lia. reflexivity.
        -- intros [|[|j]] c Hj Hc; [lia| |].
           ++ apply PC in Hc. unfold prefix_count in Hc. cbn [firstn run_matches concat] in Hc. injection Hc as Hc. change (zlen (@nil nat)) with 0 in Hc. lia.
           ++ apply PC in Hc. apply Hlo in Hc; lia.
        -- intros Hlt c Hc. apply PC in Hc. apply Hhi in Hc; lia.
    + exists 1%nat. cbn [length firstn run_matches]. rewrite E. unfold obind. cbn [fst snd].
      split; [lia|]. split; [reflexivity|]. split; [lia|]. intros _ c. unfold prefix_count. cbn [firstn run_matches]. rewrite E. cbn. discriminate.
Qed.

Lemma from_re_nolimit h re gf df ms : gf_valid re gf ->
  from_re h re gf df None ms = match run_matches h (re_keys re gf) df ms with
                               | (h', Ok ls) => (h', Ok (concat ls, length ms))
                               | (h', Err e) => (h', Err e)
                               end.
Proof.
  intros V. unfold from_re. replace (match gf with GFKeys l => gk_validate re l | GFPred _ => Ok tt end) with (Ok tt) by (destruct gf; [symmetry; exact V|reflexivity]).
  cbv zeta. change (fun m => match gf with GFKeys l => l | GFPred p => gk_from_filter (gk_preferred re) (p m) end) with (re_keys re gf).
  rewrite fr_none. cbn [app plus]. destruct (run_matches h (re_keys re gf) df ms) as [h' [ls|e]]; reflexivity.
Qed.
Lemma from_re_limit h re gf df k ms : gf_valid re gf ->
  exists m, (m <= length ms)%nat /\
  from_re h re gf df (Some k) ms = match run_matches h (re_keys re gf) df (firstn m ms) with
                               | (h', Ok ls) => (h', Ok (take_limit k (concat ls), m))
                               | (h', Err e) => (h', Err e)
                               end /\
  (forall j c, (0 < j < m)%nat -> prefix_count h (re_keys re gf) df ms j = Some c -> c < k) /\
  ((m < length ms)%nat -> forall c, prefix_count h (re_keys re gf) df ms m = Some c -> k <= c).
Proof.
  intros V. unfold from_re. replace (match gf with GFKeys l => gk_validate re l | GFPred _ => Ok tt end) with (Ok tt) by (destruct gf; [symmetry; exact V|reflexivity]).
  cbv zeta. change (fun m => match gf with GFKeys l => l | GFPred p => gk_from_filter (gk_preferred re) (p m) end) with (re_keys re gf).
  destruct (fr_limit (re_keys re gf) df k ms h [] 0%nat) as (m & Hm & E & Lo & Hi). exists m. split; [exact Hm|]. split; [|split].
  - rewrite E. destruct (run_matches h (re_keys re gf) df (firstn m ms)) as [h' [ls|e]]; unfold obind; cbn [fst snd app plus]; [|reflexivity].
    unfold take_limit. destruct (Z.ltb_spec 0 k); [reflexivity|]. replace (Z.to_nat k) with 0%nat by lia. reflexivity.
  - intros j c Hj Hc. specialize (Lo j c Hj Hc). change (zlen (@nil nat)) with 0 in Lo. lia.
  - intros Hlt c Hc. destruct (Hi Hlt c Hc) as [_ Hk]. change (zlen (@nil nat)) with 0 in Hk. lia.
Qed.

Lemma run_matches_prefix keys df : forall ms h h' ls m, run_matches h keys df ms = (h', Ok ls) ->
  exists h'', run_matches h keys df (firstn m ms) = (h'', Ok (firstn m ls)).
Proof.
  induction ms as [|x ms IH]; intros h h' ls m; cbn [run_matches].
  - intros [= <- <-]. exists h. rewrite !firstn_nil. reflexivity.
  - unfold obind. destruct (from_match h x (df x) (keys x)) as [h1 [l|e]] eqn:E; cbn [fst snd]; [|discriminate].
    destruct (run_matches h1 keys df ms) as [h2 [ls2|e]] eqn:E2; cbn [fst snd]; [|discriminate]. intros [= <- <-].
    destruct m as [|m]; [exists h; reflexivity|]. cbn [firstn run_matches]. rewrite E. unfold obind. cbn [fst snd].
    destruct (IH h1 h2 ls2 m E2) as (h3 & ->). exists h3. reflexivity.
Qed.
Lemma run_matches_length keys df : forall ms h h' ls, run_matches h keys df ms = (h', Ok ls) -> length ls = length ms.
Proof.
  induction ms as [|x ms IH]; intros h h' ls; cbn [run_matches]; [intros [= <- <-]; reflexivity|].
  unfold obind. destruct (from_match h x (df x) (keys x)) as [h1 [l|e]]; cbn [fst snd]; [|discriminate].
  destruct (run_matches h1 keys df ms) as [h2 [ls2|e]] eqn:E2; cbn [fst snd]; [|discriminate]. intros [= <- <-]. cbn [length]. f_equal. eapply IH. exact E2.
Qed.
(** the limited result is the beginning of the unlimited one *)
Lemma from_re_prefix h re gf df k ms h' all n : from_re h re gf df None ms = (h', Ok (all, n)) ->
  exists h'' m, from_re h re gf df (Some k) ms = (h'', Ok (take_limit k all, m)).
Proof.
  intros E. assert (V : gf_valid re gf).
  { unfold from_re in E. destruct gf as [l|p]; cbn [gf_valid]; [|exact I]. destruct (gk_validate re l) as [[]|e]; [reflexivity|discriminate]. }
  rewrite (from_re_nolimit h re gf df ms V) in E. destruct (run_matches h (re_keys re gf) df ms) as [h1 [ls|e]] eqn:R; [|discriminate]. injection E as <- <- <-.
  destruct (from_re_limit h re gf df k ms V) as (m & Hm & -> & _ & Hi). destruct (run_matches_prefix _ _ _ _ _ _ m R) as (h2 & E2). rewrite E2.
  exists h2, m. do 2 f_equal. f_equal. unfold take_limit. destruct (Nat.eq_dec m (length ms)) as [->|Hne].
  - rewrite <- (run_matches_length _ _ _ _ _ _ R), firstn_all. reflexivity.
  - specialize (Hi ltac:(lia)). unfold prefix_count in Hi. rewrite E2 in Hi. specialize (Hi _ eq_refl).
    rewrite <- (firstn_skipn m ls) at 2. rewrite concat_app, firstn_app.
    replace (Z.to_nat k - length (concat (firstn m ls)))%nat with 0%nat by (unfold zlen in Hi; lia). cbn [firstn]. rewrite app_nil_r. reflexivity.
Qed.

(** -- group keys -- *)
Lemma list_set_length {A} (l : list A) : forall i x, length (list_set l i x) = length l.
Proof. induction l as [|y l IH]; intros [|i] x; cbn; auto. Qed.
Lemma list_set_nth {A} (d : A) : forall l i x j, (i < length l)%nat -> nth j (list_set l i x) d = if (j =? i)%nat then x else nth j l d.
Proof.
  induction l as [|y l IH]; intros [|i] x [|j] H; cbn in *; try lia; auto. apply IH. lia.
Qed.
Lemma preferred_aux ngr : forall idx (rv : list gkey), length rv = S ngr -> NoDup (map snd idx) ->
  Forall (fun e => (1 <= snd e <= ngr)%nat) idx ->
  let r := fold_left (fun rv ni => list_set rv (snd ni) (KStr (fst ni))) idx rv in
  length r = S ngr /\
  forall g, (forall s, In (s, g) idx -> nth g r (KInt 0) = KStr s) /\ ((forall s, ~ In (s, g) idx) -> nth g r (KInt 0) = nth g rv (KInt 0)).
Proof.
  induction idx as [|[s0 g0] idx IH]; intros rv L ND F; cbv zeta; cbn [fold_left fst snd].
  - split; [exact L|]. intros g. split; [intros s []|reflexivity].
  - inversion ND as [|? ? Hni ND']; subst. inversion F as [|? ? F0 F']; subst. cbn [snd] in *.
    destruct (IH (list_set rv g0 (KStr s0))) as (L' & R); [rewrite list_set_length; exact L|exact ND'|exact F'|].
    cbv zeta in R. split; [exact L'|]. intros g. destruct (R g) as [R1 R2]. split.
    + intros s [[= -> ->]|Hin]; [|apply R1; exact Hin].
      rewrite R2; [rewrite list_set_nth by lia; rewrite Nat.eqb_refl; reflexivity|].
      intros s' Hs'. apply Hni. apply in_map_iff. exists (s', g). auto.
    + intros Hn. rewrite R2; [|intros s Hs; apply (Hn s); right; exact Hs].
      rewrite list_set_nth by lia. destruct (Nat.eqb_spec g g0) as [->|]; [|reflexivity]. exfalso. apply (Hn s0). left. reflexivity.
Qed.
Lemma preferred_spec re : re_ok re ->
  length (gk_preferred re) = S (re_groups re) /\
  forall g, (g <= re_groups re)%nat -> preferred_key re g (nth g (gk_preferred re) (KInt 0)).
Proof.
  intros (N1 & N2 & F). unfold gk_preferred.
  destruct (preferred_aux (re_groups re) (re_index re) (map (fun i => KInt (Z.of_nat i)) (seq 0 (S (re_groups re))))) as (L & R);
    [rewrite map_length, seq_length; reflexivity|exact N2|exact F|]. cbv zeta in *.
  set (r := fold_left _ _ _) in *. split; [exact L|]. intros g Hg. destruct (R g) as [R1 R2].
  assert (Hd : nth g (map (fun i => KInt (Z.of_nat i)) (seq 0 (S (re_groups re)))) (KInt 0) = KInt (Z.of_nat g)).
  { rewrite (nth_indep _ _ (KInt (Z.of_nat 0))) by (rewrite map_length, seq_length; lia).
    change (KInt (Z.of_nat 0)) with ((fun i => KInt (Z.of_nat i)) 0%nat). rewrite map_nth, seq_nth by lia. reflexivity. }
  rewrite Hd in R2. split; [|split; [intros s Hs; apply R1; exact Hs|intros Hn; apply R2; exact Hn]].
  destruct (find (fun e => (snd e =? g)%nat) (re_index re)) as [[s g']|] eqn:Ef.
  - apply find_some in Ef. cbn [snd] in Ef. destruct Ef as [Hin Eg]. apply Nat.eqb_eq in Eg. subst g'. rewrite (R1 s Hin). exact Hin.
  - rewrite R2; [split; [reflexivity|exact Hg]|]. intros s Hs. apply (find_none _ _ Ef) in Hs. cbn in Hs. rewrite Nat.eqb_refl in Hs. discriminate.
Qed.
Lemma denotes_fun re k g g' : re_ok re -> denotes re k g -> denotes re k g' -> g = g'.
Proof.
  intros (N1 & _ & _) D D'. destruct k as [z|s]; cbn in D, D'; [lia|].
  revert D D'. induction (re_index re) as [|[s0 g0] l IH]; [intros []|]. cbn [map fst] in N1. inversion N1 as [|? ? Hni N1']; subst.
  intros [E1|H1] [E2|H2]; [congruence| | |apply IH; auto].
  - injection E1 as -> ->. exfalso. apply Hni. apply in_map_iff. exists (s, g'). auto.
  - injection E2 as -> ->. exfalso. apply Hni. apply in_map_iff. exists (s, g). auto.
Qed.
Lemma assoc_name_spec s l : NoDup (map fst l) -> match assoc_name s l with Some g => In (s, g) l | None => forall g, ~ In (s, g) l end.
Proof.
  intros N. unfold assoc_name. destruct (find _ l) as [[s' g]|] eqn:E.
  - apply find_some in E. cbn [fst snd] in *. destruct E as [Hin E]. apply eqb_str_eq in E. subst. exact Hin.
  - intros g Hin. apply (find_none _ _ E) in Hin. cbn [fst] in Hin. rewrite eqb_str_refl in Hin. discriminate.
Qed.
(** the groups already taken *)
Lemma validate_aux re : re_ok re -> forall gks tmp, length tmp = S (re_groups re) ->
  let taken g := nth g tmp None <> None in
  (exists gs, Forall2 (denotes re) gks gs /\ NoDup gs /\ Forall (fun g => ~ taken g) gs /\ gk_validate_loop re tmp gks = Ok tt) \/
  ((forall gs, Forall2 (denotes re) gks gs -> ~ (NoDup gs /\ Forall (fun g => ~ taken g) gs)) /\ gk_validate_loop re tmp gks = Err ValueError).
Proof.
  intros HR. pose proof HR as (N1 & N2 & F). induction gks as [|gk gks IH]; intros tmp L; cbv zeta; cbn [gk_validate_loop].
  - left. exists []. repeat split; constructor.
  - assert (Hi : (exists i, denotes re gk i /\ (match gk with
            | KStr s => match assoc_name s (re_index re) with Some i => Ok i | None => Err ValueError end
            | KInt z => if (0 <=? z) && (z <? zlen tmp) then Ok (Z.to_nat z) else Err ValueError
            end) = Ok i) \/ ((forall i, ~ denotes re gk i) /\ (match gk with
            | KStr s => match assoc_name s (re_index re) with Some i => Ok i | None => Err ValueError end
            | KInt z => if (0 <=? z) && (z <? zlen tmp) then Ok (Z.to_nat z) else Err ValueError
            end) = Err ValueError)).
    { destruct gk as [z|s]; cbn [denotes].
      - unfold zlen. rewrite L. destruct (Z.leb_spec 0 z); cbn [andb]; [|right; split; [lia|reflexivity]].
        destruct (Z.ltb_spec z (Z.of_nat (S (re_groups re)))); [left; exists (Z.to_nat z); split; [lia|reflexivity]|right; split; [lia|reflexivity]].
      - pose proof (assoc_name_spec s (re_index re) N1) as A. destruct (assoc_name s (re_index re)) as [i|]; [left; exists i; auto|right; auto]. }
    destruct Hi as [(i & Di & Ei)|(Dn & Ei)]; rewrite Ei; cbn [bind].
    + assert (Hil : (i < length tmp)%nat).
      { rewrite L. destruct gk as [z|s]; cbn [denotes] in Di; [lia|]. rewrite Forall_forall in F. specialize (F _ Di). cbn in F. lia. }
      destruct (nth i tmp None) as [o|] eqn:En.
      * right. split; [|reflexivity]. intros gs HF [_ HT]. inversion HF as [|? g ? gs' Dg HF']; subst. inversion HT as [|? ? HT1 _]; subst.
        rewrite (denotes_fun re gk g i HR Dg Di) in HT1. apply HT1. rewrite En. discriminate.
      * destruct (IH (list_set tmp i (Some gk))) as [(gs & HF & ND & HT & E)|(Hno & E)]; [rewrite list_set_length; exact L| |]; rewrite E; [left|right].
        -- exists (i :: gs). split; [constructor; assumption|].
           assert (HTi : Forall (fun g => g <> i /\ ~ (nth g tmp None <> None)) gs).
           { eapply Forall_impl; [|exact HT]. cbn beta. intros g Hg. rewrite list_set_nth in Hg by exact Hil.
             destruct (Nat.eqb_spec g i) as [Eg|Eg]; [exfalso; apply Hg; discriminate|auto]. }
           split; [constructor; [|exact ND]|].
           { intros Hin. rewrite Forall_forall in HTi. destruct (HTi i Hin). congruence. }
           split; [|reflexivity]. constructor; [rewrite En; congruence|]. eapply Forall_impl; [|exact HTi]. cbn beta. tauto.
        -- split; [|reflexivity]. intros gs HF [ND HT]. inversion HF as [|? g ? gs' Dg HF']; subst.
           assert (g = i) by (exact (denotes_fun re gk g i HR Dg Di)). subst g. inversion ND as [|? ? Hni ND']; subst. inversion HT as [|? ? _ HT']; subst.
           apply (Hno gs' HF'). split; [exact ND'|]. rewrite Forall_forall in HT' |- *. intros g Hg. rewrite list_set_nth by exact Hil.
           destruct (Nat.eqb_spec g i) as [Eg|Eg]; [rewrite Eg in Hg; contradiction|]. apply HT'. exact Hg.
    + right. split; [|reflexivity]. intros gs HF. inversion HF as [|? g ? gs' Dg HF']; subst. exfalso. exact (Dn g Dg).
Qed.
Lemma validate_spec re gks : re_ok re ->
  ((exists gs, Forall2 (denotes re) gks gs /\ NoDup gs) /\ gk_validate re gks = Ok tt) \/
  (~ (exists gs, Forall2 (denotes re) gks gs /\ NoDup gs) /\ gk_validate re gks = Err ValueError).
Proof.
  intros HR. unfold gk_validate.
  assert (HT : forall gs, Forall (fun g => ~ (nth g (repeat (@None gkey) (S (re_groups re))) None <> None)) gs).
  { intros gs. apply Forall_forall. intros g _ Hg. apply Hg. apply nth_repeat. }
  destruct (validate_aux re HR gks (repeat None (S (re_groups re)))) as [(gs & HF & ND & _ & E)|(Hno & E)]; [apply repeat_length|left|right].
  - split; [exists gs; auto|exact E].
  - split; [|exact E]. intros (gs & HF & ND). apply (Hno gs HF). split; [exact ND|apply HT].
Qed.
(** which groups a filter accepts: under the preferred key or the number *)
Lemma from_filter_aux re filt : forall pref k,
  (forall j, (j < length pref)%nat -> denotes re (nth j pref (KInt 0)) (k + j)%nat /\ (k + j <= re_groups re)%nat) ->
  let acc g := filt (nth (g - k) pref (KInt 0)) || filt (KInt (Z.of_nat g)) in
  Forall2 (fun x g => (denotes re x g /\ filt x = true) /\ (filt (nth (g - k) pref (KInt 0)) = true -> x = nth (g - k) pref (KInt 0)))
    (flat_map (fun igk => if filt (snd igk) then [snd igk] else if filt (KInt (Z.of_nat (fst igk))) then [KInt (Z.of_nat (fst igk))] else [])
              (combine (seq k (length pref)) pref))
    (filter acc (seq k (length pref))).
Proof.
  induction pref as [|x pref IH]; intros k HD; cbv zeta; cbn [length seq combine flat_map filter fst snd]; [constructor|].
  assert (E : filter (fun g => filt (nth (g - k) (x :: pref) (KInt 0)) || filt (KInt (Z.of_nat g))) (seq (S k) (length pref)) =
              filter (fun g => filt (nth (g - S k) pref (KInt 0)) || filt (KInt (Z.of_nat g))) (seq (S k) (length pref))).
  { apply filter_ext_in. intros g Hg. apply in_seq in Hg. replace (g - k)%nat with (S (g - S k)) by lia. reflexivity. }
  rewrite E. rewrite Nat.sub_diag. change (nth 0 (x :: pref) (KInt 0)) with x.
  assert (I := IH (S k)). cbv zeta in I.
  assert (I' : Forall2 (fun y g => (denotes re y g /\ filt y = true) /\ (filt (nth (g - k) (x :: pref) (KInt 0)) = true -> y = nth (g - k) (x :: pref) (KInt 0)))
    (flat_map (fun igk => if filt (snd igk) then [snd igk] else if filt (KInt (Z.of_nat (fst igk))) then [KInt (Z.of_nat (fst igk))] else [])
              (combine (seq (S k) (length pref)) pref))
    (filter (fun g => filt (nth (g - S k) pref (KInt 0)) || filt (KInt (Z.of_nat g))) (seq (S k) (length pref)))).
  { assert (I2 := I ltac:(intros j Hj; specialize (HD (S j)); cbn [length nth] in HD; replace (S k + j)%nat with (k + S j)%nat by lia; apply HD; lia)).
    clear I IH E HD. revert I2. assert (Q : Forall (fun g => (S k <= g)%nat) (filter (fun g => filt (nth (g - S k) pref (KInt 0)) || filt (KInt (Z.of_nat g))) (seq (S k) (length pref)))).
    { apply Forall_forall. intros g Hg. apply filter_In in Hg. destruct Hg as [Hg _]. apply in_seq in Hg. lia. }
    intros I2. revert Q. induction I2 as [|y g ys gs [A B] _ IHs]; intros Q; [constructor|]. inversion Q as [|? ? Q1 Q2]; subst. constructor; [|apply IHs; exact Q2].
    split; [exact A|]. replace (g - k)%nat with (S (g - S k)) by lia. exact B. }
  destruct (HD 0%nat) as [D0 B0]; [cbn; lia|]. cbn [nth] in D0. rewrite Nat.add_0_r in D0, B0.
  destruct (filt x) eqn:Ex; cbn [orb app]; [constructor; [split; [split; assumption|rewrite Nat.sub_diag; reflexivity]|exact I']|].
  destruct (filt (KInt (Z.of_nat k))) eqn:Ek; cbn [app]; [constructor; [split; [split; [split; [reflexivity|exact B0]|exact Ek]|rewrite Nat.sub_diag; cbn [nth]; congruence]|exact I']|exact I'].
Qed.
Lemma f2_weak {A B} (P Q : A -> B -> Prop) l m : (forall x y, P x y -> Q x y) -> Forall2 P l m -> Forall2 Q l m.
Proof. intros H. induction 1; constructor; auto. Qed.
Lemma from_filter_pref re filt : re_ok re ->
  let accepted g := filt (nth g (gk_preferred re) (KInt 0)) || filt (KInt (Z.of_nat g)) in
  Forall2 (fun x g => (denotes re x g /\ filt x = true) /\ (filt (nth g (gk_preferred re) (KInt 0)) = true -> x = nth g (gk_preferred re) (KInt 0)))
    (gk_from_filter (gk_preferred re) filt) (filter accepted (seq 0 (S (re_groups re)))).
Proof.
  intros HR. cbv zeta. destruct (preferred_spec re HR) as [L P]. unfold gk_from_filter. rewrite <- L.
  pose proof (from_filter_aux re filt (gk_preferred re) 0) as A. cbv zeta in A.
  assert (E : filter (fun g => filt (nth (g - 0) (gk_preferred re) (KInt 0)) || filt (KInt (Z.of_nat g))) (seq 0 (length (gk_preferred re))) =
              filter (fun g => filt (nth g (gk_preferred re) (KInt 0)) || filt (KInt (Z.of_nat g))) (seq 0 (length (gk_preferred re)))).
  { apply filter_ext. intros g. rewrite Nat.sub_0_r. reflexivity. }
  rewrite <- E. assert (A' := A ltac:(intros j Hj; cbn [plus]; split; [apply P; lia|lia])). clear A E.
  eapply f2_weak; [|exact A']. intros x g [H1 H2]. rewrite Nat.sub_0_r in H2. auto.
Qed.
Lemma from_filter_spec re filt : re_ok re ->
  let accepted g := filt (nth g (gk_preferred re) (KInt 0)) || filt (KInt (Z.of_nat g)) in
  Forall2 (fun x g => denotes re x g /\ filt x = true) (gk_from_filter (gk_preferred re) filt) (filter accepted (seq 0 (S (re_groups re)))).
Proof. intros H. eapply f2_weak; [|exact (from_filter_pref re filt H)]. intros x g [A _]. exact A. Qed.
(** the same without the algorithm: the accepted groups in ascending order, each
    under its preferred key if the filter accepts that *)
Lemma preferred_fun re g k k' : re_ok re -> preferred_key re g k -> preferred_key re g k' -> k = k'.
Proof.
  intros _ (D & N & I) (D' & N' & I'). destruct k as [z|s].
  - destruct k' as [z'|s']; [destruct D as [-> _], D' as [-> _]; reflexivity|]. exact (N s' D').
  - symmetry. exact (N' s D).
Qed.
Lemma filter_order re filt : re_ok re -> exists gs,
  Forall2 (fun x g => denotes re x g /\ filt x = true /\ forall k, preferred_key re g k -> filt k = true -> x = k) (gk_from_filter (gk_preferred re) filt) gs /\
  StronglySorted lt gs /\ forall g, In g gs <-> exists k, denotes re k g /\ filt k = true.
Proof.
  intros H. destruct (preferred_spec re H) as [L P]. pose proof (from_filter_pref re filt H) as F. cbv zeta in F.
  exists (filter (fun g => filt (nth g (gk_preferred re) (KInt 0)) || filt (KInt (Z.of_nat g))) (seq 0 (S (re_groups re)))). split; [|split].
  - assert (Q : Forall (fun g => (g <= re_groups re)%nat) (filter (fun g => filt (nth g (gk_preferred re) (KInt 0)) || filt (KInt (Z.of_nat g))) (seq 0 (S (re_groups re))))).
    { apply Forall_forall. intros g Hg. apply filter_In in Hg. destruct Hg as [Hg _]. apply in_seq in Hg. lia. }
    revert Q. induction F as [|x g xs gs [[A B] C] _ IH]; intros Q; [constructor|]. inversion Q; subst. constructor; [|apply IH; assumption].
    split; [exact A|]. split; [exact B|]. intros k Pk Fk. rewrite (preferred_fun re g k _ H Pk (P g ltac:(assumption))) in *. auto.
  - assert (S0 : forall n a, StronglySorted lt (seq a n)).
    { induction n as [|n IHn]; intros a; cbn [seq]; constructor; [apply IHn|]. apply Forall_forall. intros x Hx. apply in_seq in Hx. lia. }
    specialize (S0 (S (re_groups re)) 0%nat). clear F. induction S0 as [|x l S0 IH F]; cbn [filter]; [constructor|]. destruct (_ || _); [|exact IH]. constructor; [exact IH|].
    apply Forall_forall. intros y Hy. apply filter_In in Hy. exact (proj1 (Forall_forall _ _) F y (proj1 Hy)).
  - intros g. rewrite filter_In, in_seq, orb_true_iff. split.
    + intros [R [E|E]]; [exists (nth g (gk_preferred re) (KInt 0)); split; [apply P; lia|exact E]|exists (KInt (Z.of_nat g)); split; [split; [reflexivity|lia]|exact E]].
    + intros (k & D & E). assert (G : (g <= re_groups re)%nat).
      { destruct k as [z|s]; [apply D|]. destruct H as (_ & _ & B). exact (proj2 (proj1 (Forall_forall _ _) B (s, g) D)). }
      split; [lia|]. destruct (P g G) as (D' & N & I'). destruct k as [z|s]; [right; destruct D as [-> _]; exact E|left; rewrite (N s D); exact E].
Qed.
