(** Proofs about invert_children, strip_to_children and adopt. *)
From Verif Require Export CombinFacts CombinFacts2 HierHeap6.

Lemma new_nodes_nd h fs j : nd (fst (new_nodes h fs)) j =
  if (j <? length h)%nat then nd h j else match nth_error fs (j - length h) with Some f => Nd f None [] | None => dnode end.
Proof.
  unfold new_nodes, nd. cbn [fst]. destruct (Nat.ltb_spec j (length h)) as [Hj|Hj]; [apply app_nth1; exact Hj|].
  rewrite app_nth2 by lia. revert j Hj. generalize (length h). intros n j Hj.
  remember (j - n)%nat as m eqn:Em. clear Em Hj j n. revert m. induction fs as [|f fs IH]; intros [|m]; cbn; auto.
Qed.
Lemma hwf_new_nodes fs : forall h, hwf h -> Forall fwf fs -> hwf (fst (new_nodes h fs)).
Proof.
  unfold new_nodes. cbn [fst]. induction fs as [|f fs IH]; intros h H F; cbn [map]; [rewrite app_nil_r; exact H|].
  inversion F as [|? ? F1 F2]; subst. change (h ++ Nd f None [] :: ?l) with (h ++ [Nd f None []] ++ l). rewrite app_assoc.
  apply IH; [apply hwf_new; assumption|exact F2].
Qed.
Lemma new_nodes_f h fs : map (fun j => n_f (nd (fst (new_nodes h fs)) j)) (seq (length h) (length fs)) = fs.
Proof.
  apply (nth_ext _ _ (n_f dnode) (n_f dnode)); [rewrite map_length, seq_length; reflexivity|].
  rewrite map_length, seq_length. intros k Hk.
  rewrite (nth_indep _ _ (n_f (nd (fst (new_nodes h fs)) 0))) by (rewrite map_length, seq_length; exact Hk).
  change (n_f (nd (fst (new_nodes h fs)) 0)) with ((fun j => n_f (nd (fst (new_nodes h fs)) j)) 0%nat). rewrite map_nth, seq_nth by exact Hk.
  rewrite new_nodes_nd. destruct (Nat.ltb_spec (length h + k) (length h)); [lia|].
  replace (length h + k - length h)%nat with k by lia. rewrite (nth_error_nth' fs (n_f dnode) Hk). reflexivity.
Qed.
Lemma SS_map {A B} (f : A -> B) (R : B -> B -> Prop) l : StronglySorted R (map f l) <-> StronglySorted (fun x y => R (f x) (f y)) l.
Proof.
  induction l as [|x l IH]; cbn [map]; split; intros H; try constructor; inversion H as [|? ? H1 H2]; subst; try (apply IH; exact H1).
  - rewrite Forall_map in H2. exact H2.
  - rewrite Forall_map. exact H2.
Qed.
Lemma SS_impl {A} (R R' : A -> A -> Prop) l : (forall x y, In x l -> In y l -> R x y -> R' x y) -> StronglySorted R l -> StronglySorted R' l.
Proof.
  induction l as [|x l IH]; intros HI H; [constructor|]. inversion H as [|? ? H1 H2]; subst. constructor.
  - apply IH; [|exact H1]. intros a b Ha Hb. apply HI; right; assumption.
  - rewrite Forall_forall in *. intros y Hy. apply HI; [left; reflexivity|right; exact Hy|apply H2; exact Hy].
Qed.


Lemma invert_spec h i desc : hwf h -> (i < length h)%nat ->
  exists h' rv, invert_children h i desc = (h', Ok rv) /\ extends h h' /\ hwf h' /\ (length h <= rv)%nat /\ n_par (nd h' rv) = None /\
    n_f (nd h' rv) = n_f (nd h i) /\
    gaps_of (h_start h i) (h_stop h i) (kid_spans h i) (map (fun g => n_f (nd h' g)) (n_kids (nd h' rv))) /\
    Forall (fun g => (length h <= g)%nat /\ n_kids (nd h' g) = [] /\ n_f (nd h' g) = FI (h_string h i) (h_start h' g) (h_stop h' g) desc None) (n_kids (nd h' rv)).
Proof.
  intros H Hi. pose proof (hwf_span h H i) as Hw. pose proof Hw as [Hw1 Hw2]. unfold invert_children, depth_fuel. rewrite clone_false. unfold obind at 1. cbn [fst snd].
  rewrite (clone_f_self _ Hw). set (f := n_f (nd h i)) in *. set (h1 := h ++ [Nd f None []]).
  assert (X1 : extends h h1) by apply extends_app.
  assert (H1 : hwf h1) by (apply hwf_new; assumption).
  assert (Ei : nd h1 i = nd h i) by (apply (proj2 X1); exact Hi).
  assert (Er : nd h1 (length h) = Nd f None []) by (unfold h1; rewrite nd_app, Nat.eqb_refl; reflexivity).
  assert (L1 : length h1 = S (length h)) by (unfold h1; rewrite app_length; cbn; lia).
  rewrite Ei, Er. cbn [n_f]. fold f.
  unfold ito_len. destruct (Z.eqb_spec (f_stop f - f_start f) 0) as [E0|E0].
  { exists h1, (length h). split; [reflexivity|]. split; [exact X1|]. split; [exact H1|]. split; [lia|]. rewrite Er. cbn [n_f n_par n_kids map].
    split; [reflexivity|]. split; [reflexivity|]. split; [|constructor]. unfold h_start, h_stop. fold f.
    split; [constructor|]. split; [constructor|]. split; [intros k Hk; lia|constructor]. }
  assert (Kw : forall c, In c (n_kids (nd h i)) -> nd h1 c = nd h c /\ f_start f <= h_start h c /\ h_stop h c <= f_stop f /\ h_start h c <= h_stop h c /\ f_str (n_f (nd h c)) = f_str f).
  { intros c Hc. destruct (hwf_kid h H i c Hc) as (_ & (F1 & F2 & F3) & _ & Hcl). destruct (hwf_span h H c) as [Hcw _].
    split; [apply (proj2 X1); exact Hcl|]. unfold h_start, h_stop, h_string in *. fold f in F1, F2, F3. repeat split; auto; lia. }
  assert (NG : Forall2 (ng_abs (f_str f) (f_start f)) (map (fun c => NIto (n_f (nd h1 c))) (n_kids (nd h i))) (kid_spans h i)).
  { unfold kid_spans. induction (n_kids (nd h i)) as [|c ks IH]; cbn [map]; constructor.
    - destruct (Kw c (or_introl eq_refl)) as (Ec & _ & _ & _ & Es). rewrite Ec. split; [exact Es|reflexivity].
    - apply IH. intros x Hx. apply Kw. right. exact Hx. }
  destruct (from_gaps_ok (UIto f) _ (kid_spans h i) desc Hw NG) as (gs & Eg & G & GF).
  { cbn [u_offset u_text]. rewrite (ito_str_len f Hw). unfold ito_len. split; [|split].
    - unfold ascending, kid_spans. rewrite SS_map. cbn [fst snd]. apply (SS_impl (h_before h)); [|apply (hwf_sorted h H)].
      intros x y Hx Hy. destruct (Kw x Hx) as (_ & _ & _ & ? & _). destruct (Kw y Hy) as (_ & _ & _ & ? & _). unfold h_before. lia.
    - unfold kid_spans. rewrite Forall_map. cbn [fst snd]. apply Forall_forall. intros c Hc. destruct (Kw c Hc) as (_ & ? & ? & ? & _). lia.
    - lia. }
  cbn [u_offset u_text u_string] in *. rewrite (ito_str_len f Hw) in G. unfold ito_len in G. replace (f_start f + (f_stop f - f_start f)) with (f_stop f) in G by lia.
  rewrite Eg. pose proof G as (G1 & G2 & G3 & G4).
  assert (GW : Forall fwf gs).
  { rewrite Forall_forall in GF, G2 |- *. intros g Hg. specialize (G2 g Hg). specialize (GF g Hg). split; [lia|].
    rewrite GF. cbn [f_str f_stop]. lia. }
  destruct (new_nodes h1 gs) as [h2 cs] eqn:En.
  assert (E2 : h2 = fst (new_nodes h1 gs)) by (rewrite En; reflexivity).
  assert (Ec : cs = seq (length h1) (length gs)) by (unfold new_nodes in En; injection En as _ <-; reflexivity).
  assert (H2 : hwf h2) by (rewrite E2; apply hwf_new_nodes; assumption).
  assert (L2 : length h2 = (length h1 + length gs)%nat) by (rewrite E2; unfold new_nodes; cbn [fst]; rewrite app_length, map_length; reflexivity).
  assert (X2 : extends h1 h2).
  { split; [lia|]. intros j Hj. rewrite E2, new_nodes_nd. destruct (Nat.ltb_spec j (length h1)); [reflexivity|lia]. }
  assert (MF : map (fun j => n_f (nd h2 j)) cs = gs) by (rewrite E2, Ec; apply new_nodes_f).
  assert (Leaf : Forall (fun c => n_par (nd h2 c) = None /\ n_kids (nd h2 c) = []) cs).
  { rewrite Ec, E2. apply Forall_forall. intros c Hc. apply in_seq in Hc. rewrite new_nodes_nd.
    destruct (Nat.ltb_spec c (length h1)); [lia|]. destruct (nth_error gs (c - length h1)); split; reflexivity. }
  assert (Er2 : nd h2 (length h) = Nd f None []) by (rewrite (proj2 X2) by lia; exact Er).
  destruct (kids_add_seq (length h) cs h2 [] H2) as (H3 & L3 & D3 & R).
  { lia. } { apply Forall_forall. intros c Hc. rewrite Ec in Hc. apply in_seq in Hc. lia. }
  { rewrite Forall_forall in Leaf |- *. intros c Hc. split; [apply Leaf; exact Hc|]. rewrite Ec in Hc. apply in_seq in Hc. lia. }
  { rewrite Er2. reflexivity. }
  { cbn [app]. unfold kids_sorted. rewrite <- MF in G1, G2. rewrite SS_map in G1. rewrite Forall_map in G2. rewrite Forall_forall in G2.
    apply (SS_impl (fun x y => f_stop (n_f (nd h2 x)) <= f_start (n_f (nd h2 y)))); [|exact G1].
    intros x y Hx Hy Hxy. specialize (G2 x Hx). unfold h_before, h_start, h_stop. lia. }
  destruct R as [(_ & Eo & K3 & P3)|(NF & _)].
  2:{ exfalso. apply NF. rewrite <- MF in G2, GF. rewrite Forall_map in G2, GF. rewrite Forall_forall in *. intros c Hc.
      specialize (G2 c Hc). specialize (GF c Hc). unfold fits, h_string, h_start, h_stop. rewrite Er2. cbn [n_f]. rewrite GF. cbn [f_str f_start f_stop]. split; [reflexivity|lia]. }
  destruct (kids_add h2 (length h) cs) as [h3 o] eqn:Ek. cbn [fst snd] in *. subst o. unfold obind. cbn [fst snd].
  exists h3, (length h). split; [reflexivity|].
  assert (X3 : extends h h3).
  { split; [lia|]. intros j Hj.
    assert (E : nd h2 j = nd h j) by (rewrite (proj2 X2) by lia; apply (proj2 X1); exact Hj).
    specialize (D3 j). specialize (K3 j). specialize (P3 j).
    destruct (Nat.eqb_spec j (length h)); [lia|].
    assert (M : memb j cs = false).
    { destruct (memb j cs) eqn:M; [|reflexivity]. apply memb_In in M. rewrite Ec in M. apply in_seq in M. lia. }
    rewrite M in P3. rewrite <- E. destruct (nd h3 j), (nd h2 j); cbn in *; congruence. }
  split; [exact X3|]. split; [exact H3|]. split; [lia|].
  assert (K0 : n_kids (nd h3 (length h)) = cs) by (rewrite K3, Nat.eqb_refl; reflexivity).
  assert (MF3 : map (fun g => n_f (nd h3 g)) cs = gs) by (rewrite <- MF; apply map_ext; intros; apply D3).
  rewrite K0, MF3. split.
  { rewrite P3, Er2. destruct (memb (length h) cs) eqn:M; [|reflexivity]. apply memb_In in M. rewrite Ec in M. apply in_seq in M. lia. }
  split; [rewrite D3, Er2; reflexivity|]. split; [exact G|].
  rewrite <- MF3 in GF. rewrite Forall_map in GF. rewrite Forall_forall in *. intros c Hc. specialize (Leaf c Hc).
  assert (Hc' := Hc). rewrite Ec in Hc'. apply in_seq in Hc'. split; [lia|]. split; [|apply GF; exact Hc].
  rewrite K3. destruct (Nat.eqb_spec c (length h)); [lia|]. apply Leaf.
Qed.

(** children and gaps tile i: each position lies in exactly one of them *)
Lemma SS_unique {A} (R : A -> A -> Prop) (P : A -> Prop) l : (forall x y, R x y -> P x -> P y -> False) ->
  StronglySorted R l -> forall x y, In x l -> In y l -> P x -> P y -> x = y.
Proof.
  intros HR HS. induction HS as [|a l HS IH HF]; intros x y Hx Hy Px Py; [destruct Hx|]. rewrite Forall_forall in HF.
  destruct Hx as [<-|Hx], Hy as [<-|Hy]; auto; exfalso; [apply (HR a y)|apply (HR a x)]; auto.
Qed.
Lemma invert_tiles h i desc h' rv : hwf h -> (i < length h)%nat -> invert_children h i desc = (h', Ok rv) ->
  forall k, h_start h i <= k < h_stop h i ->
  exists! x, In x (n_kids (nd h i) ++ n_kids (nd h' rv)) /\ h_start h' x <= k < h_stop h' x.
Proof.
  intros H Hi E k Hk. destruct (invert_spec h i desc H Hi) as (h2 & rv2 & E2 & X & H' & Hrv & _ & _ & (G1 & G2 & G3 & _) & GF). rewrite E in E2. injection E2 as <- <-.
  assert (Kn : forall c, In c (n_kids (nd h i)) -> nd h' c = nd h c /\ (c < length h)%nat).
  { intros c Hc. destruct (hwf_kid h H i c Hc) as (_ & _ & _ & Hl). split; [apply (proj2 X); exact Hl|exact Hl]. }
  assert (Kb : forall c, In c (n_kids (nd h i)) -> h_start h' c <= k < h_stop h' c -> covered (kid_spans h i) k).
  { intros c Hc Hin. destruct (Kn c Hc) as [Ec _]. exists (h_start h c, h_stop h c). split; [apply in_map_iff; exists c; auto|]. cbn [fst snd]. unfold h_start, h_stop in *. rewrite Ec in Hin. exact Hin. }
  assert (Gb : forall g, In g (n_kids (nd h' rv)) -> h_start h' g <= k < h_stop h' g -> ~ covered (kid_spans h i) k).
  { intros g Hg Hin. apply G3; [exact Hk|]. exists (n_f (nd h' g)). split; [apply in_map_iff; exists g; auto|exact Hin]. }
  assert (Uq : forall x y, In x (n_kids (nd h i) ++ n_kids (nd h' rv)) -> In y (n_kids (nd h i) ++ n_kids (nd h' rv)) ->
     h_start h' x <= k < h_stop h' x -> h_start h' y <= k < h_stop h' y -> x = y).
  { intros x y Hx Hy Px Py. apply in_app_or in Hx, Hy. destruct Hx as [Hx|Hx], Hy as [Hy|Hy].
    - destruct (Kn x Hx) as [Ex _]. destruct (Kn y Hy) as [Ey _]. unfold h_start, h_stop in Px, Py. rewrite Ex in Px. rewrite Ey in Py.
      apply (SS_unique (h_before h) (fun z => h_start h z <= k < h_stop h z) (n_kids (nd h i))); auto; [|apply (hwf_sorted h H)].
      unfold h_before. intros; lia.
    - exfalso. apply (Gb y Hy Py). apply (Kb x Hx Px).
    - exfalso. apply (Gb x Hx Px). apply (Kb y Hy Py).
    - apply (SS_unique (h_before h') (fun z => h_start h' z <= k < h_stop h' z) (n_kids (nd h' rv))); auto; [|apply (hwf_sorted h' H')].
      unfold h_before. intros; lia. }
  destruct (existsb (fun c => (h_start h c <=? k) && (k <? h_stop h c)) (n_kids (nd h i))) eqn:Ex.
  - apply existsb_exists in Ex. destruct Ex as (c & Hc & B). apply andb_prop in B. destruct B as [B1 B2]. apply Z.leb_le in B1. apply Z.ltb_lt in B2.
    exists c. destruct (Kn c Hc) as [Ec _].
    assert (P : In c (n_kids (nd h i) ++ n_kids (nd h' rv)) /\ h_start h' c <= k < h_stop h' c).
    { split; [apply in_or_app; left; exact Hc|]. unfold h_start, h_stop in *. rewrite Ec. lia. }
    split; [exact P|]. intros y [Hy Py]. apply Uq; tauto.
  - assert (N : ~ covered (kid_spans h i) k).
    { intros (n & Hn & B). unfold kid_spans in Hn. apply in_map_iff in Hn. destruct Hn as (c & <- & Hc). cbn [fst snd] in B.
      assert (existsb (fun c => (h_start h c <=? k) && (k <? h_stop h c)) (n_kids (nd h i)) = true); [|congruence].
      apply existsb_exists. exists c. split; [exact Hc|]. apply andb_true_intro. split; [apply Z.leb_le|apply Z.ltb_lt]; lia. }
    apply G3 in N; [|exact Hk]. destruct N as (f & Hf & B). apply in_map_iff in Hf. destruct Hf as (g & <- & Hg).
    exists g. assert (P : In g (n_kids (nd h i) ++ n_kids (nd h' rv)) /\ h_start h' g <= k < h_stop h' g) by (split; [apply in_or_app; right; exact Hg|exact B]).
    split; [exact P|]. intros y [Hy Py]. apply Uq; tauto.
Qed.

(** -- strip_to_children -- *)
Lemma strip_spec h i c0 ks : hwf h -> acyclic h -> (i < length h)%nat -> n_kids (nd h i) = c0 :: ks ->
  let a := h_start h c0 in let b := h_stop h (last (c0 :: ks) c0) in
  (h_start h i = a /\ h_stop h i = b /\ strip_to_children h i = (h, Ok i)) \/
  ((h_start h i <> a \/ h_stop h i <> b) /\ exists t h' rv, strip_to_children h i = (h', Ok rv) /\ extends h h' /\ hwf h' /\ acyclic h' /\
     (length h <= rv)%nat /\ n_par (nd h' rv) = None /\ rep h t i /\
     rep h' (T (FI (h_string h i) a b (f_desc (n_f (nd h i))) (f_vf (n_f (nd h i)))) (t_kids t)) rv).
Proof.
  intros H Ha Hi Ek. cbv zeta. unfold strip_to_children. rewrite Ek.
  pose proof (hwf_span h H i) as Hw. pose proof Hw as [Hw1 Hw2].
  assert (Es : h_start h i = f_start (n_f (nd h i))) by reflexivity. assert (Et : h_stop h i = f_stop (n_f (nd h i))) by reflexivity. rewrite Es, Et.
  assert (B : forall c, In c (c0 :: ks) -> f_start (n_f (nd h i)) <= h_start h c <= h_stop h c /\ h_stop h c <= f_stop (n_f (nd h i)) /\ h_start h c0 <= h_start h c /\ h_stop h c <= h_stop h (last (c0 :: ks) c0)).
  { intros c Hc. rewrite <- Ek in Hc. destruct (hwf_kid h H i c Hc) as (_ & (_ & F1 & F2) & _). destruct (hwf_span h H c) as [Hc1 _].
    unfold h_start, h_stop in *. split; [lia|]. split; [lia|]. rewrite Ek in Hc. pose proof (hwf_sorted h H i) as S. rewrite Ek in S. unfold kids_sorted in S. split.
    - inversion S as [|? ? _ SF]; subst. destruct Hc as [<-|Hc]; [lia|]. rewrite Forall_forall in SF. specialize (SF c Hc). unfold h_before, h_start in SF. lia.
    - destruct (@exists_last _ (c0 :: ks)) as (l & z & El); [discriminate|]. rewrite El, last_last. rewrite El in S, Hc.
      apply SS_app_inv in S. destruct S as (_ & _ & S). apply in_app_or in Hc. destruct Hc as [Hc|[<-|[]]]; [|lia].
      specialize (S c z Hc (or_introl eq_refl)). unfold h_before, h_start, h_stop in S. destruct (hwf_span h H z). lia. }
  assert (B0 := B c0 (or_introl eq_refl)).
  assert (Bl : In (last (c0 :: ks) c0) (c0 :: ks)).
  { destruct (@exists_last _ (c0 :: ks)) as (l & z & El); [discriminate|]. rewrite El, last_last. apply in_or_app. right. left. reflexivity. }
  apply B in Bl. set (f := n_f (nd h i)) in *.
  destruct ((f_start f <? h_start h c0) || (h_stop h (last (c0 :: ks) c0) <? f_stop f)) eqn:E.
  - right. apply orb_prop in E. split.
    { destruct E as [E|E]; apply Z.ltb_lt in E; [left|right]; lia. }
    set (a := h_start h c0) in *. set (b := h_stop h (last (c0 :: ks) c0)) in *.
    destruct (clone_total h i (Some a) (Some b) None H Ha Hi) as (t & h' & R & H' & A' & X & D).
    assert (Etf : t_f t = f) by (symmetry; exact (rep_f h t i R)).
    cbv zeta in D. rewrite Etf in D. rewrite clone_f_in in D by (cbn [odflt]; (exact Hw || lia)). cbn [odflt] in D.
    destruct D as [(_ & Ec & N & R' & _)|(NF & _)].
    + exists t, h', (length h). split; [exact Ec|]. split; [exact X|]. split; [exact H'|]. split; [exact A'|]. split; [lia|]. split; [exact N|]. split; [exact R|exact R'].
    + exfalso. apply NF. apply Forall_forall. intros tc Htc. apply rep_kids in R. destruct (Forall2_in_l _ _ _ _ R Htc) as (c & Hc & Rc).
      rewrite Ek in Hc. specialize (B c Hc). assert (Hc' := Hc). rewrite <- Ek in Hc'. destruct (hwf_kid h H i c Hc') as (_ & (F1 & _) & _).
      unfold t_fits, t_string, t_start, t_stop. cbn [t_f f_str f_start f_stop]. rewrite <- (rep_f h tc c Rc).
      unfold h_string, h_start, h_stop in *. fold f in F1. split; [exact F1|lia].
  - left. apply orb_false_elim in E. destruct E as [E1 E2]. apply Z.ltb_ge in E1, E2. split; [lia|]. split; [lia|reflexivity].
Qed.

(** -- adopt -- *)
Lemma add_all_ok pf : forall cs ks, forest_wf pf ks -> Forall twf cs -> Forall (fun c => inside (t_f c) pf) cs ->
  no_cross (f_nodes cs) (f_nodes cs) -> no_cross (f_nodes ks) (f_nodes cs) ->
  exists ks', add_hierarchical_all None pf ks cs = Ok ks' /\ forest_wf pf ks' /\ Permutation (f_nodes ks') (f_nodes cs ++ f_nodes ks).
Proof.
  intros cs ks HW HC HI N1 N2. destruct (add_all_spec None pf ks cs HW HC HI N1) as [(_ & k1 & E1 & W1 & P1)|((x & y & Hx & Hy & Hc) & _)]; [|exfalso; exact (N2 x y Hx Hy Hc)].
  exists k1. auto.
Qed.
Lemma twf_f t : twf t -> fwf (t_f t).
Proof. destruct t as [f ts]. intros H. apply twf_unfold in H. apply H. Qed.
Lemma adopt_spec itos cached desc s : Forall twf itos -> itos <> [] -> Forall (fun t => t_string t = s) itos -> set_order itos cached ->
  no_cross (f_nodes cached) (f_nodes cached) ->
  exists r ks, ito_adopt itos cached desc = Ok (T r ks) /\ f_str r = s /\ f_desc r = desc /\ spans_inputs (map t_f itos) r /\ twf (T r ks) /\
    Permutation (f_nodes ks) (f_nodes cached).
Proof.
  intros HW Hne HS (HO & _ & _) HX. unfold ito_adopt.
  destruct (join_spec (map t_f itos) desc) as [(s' & HF & j & E & Es & Ed & Ev & Hj & Sp)|((x & y & Hx & Hy & Hxy) & _)].
  - rewrite Forall_map. eapply Forall_impl; [|exact HW]. exact twf_f.
  - destruct itos; [congruence|discriminate].
  - assert (Ess : s' = s).
    { destruct itos as [|t itos]; [congruence|]. inversion HS; subst. inversion HF; subst. unfold t_string. congruence. }
    rewrite E. cbn [bind]. assert (HI : Forall (fun c => inside (t_f c) j) cached).
    { apply Forall_forall. intros c Hc. apply HO in Hc. destruct Sp as [Sp _]. rewrite Forall_map in Sp. rewrite Forall_forall in Sp, HS.
      specialize (Sp c Hc). specialize (HS c Hc). split; [unfold t_string in HS; congruence|lia]. }
    destruct (add_all_ok j cached []) as (ks & Ek & HWk & P).
    + split; [constructor|split; constructor].
    + apply Forall_forall. intros c Hc. rewrite Forall_forall in HW. apply HW. apply HO. exact Hc.
    + exact HI.
    + exact HX.
    + intros x y [].
    + rewrite Ek. cbn [bind]. exists j, ks. split; [reflexivity|]. split; [congruence|]. split; [exact Ed|]. split; [exact Sp|]. split.
      * apply twf_unfold. destruct HWk as (S1 & S2 & S3). split; [exact Hj|]. split; [exact S1|]. split; [|exact S3].
        eapply Forall_impl; [|exact S2]. intros c (I1 & I2 & I3). split; [exact I1|]. split; [exact I2|exact I3].
      * rewrite app_nil_r in P. exact P.
  - exfalso. apply Hxy. apply in_map_iff in Hx, Hy. destruct Hx as (tx & <- & Hx), Hy as (ty & <- & Hy). rewrite Forall_forall in HS.
    change (t_string tx = t_string ty). rewrite (HS tx Hx), (HS ty Hy). reflexivity.
Qed.
