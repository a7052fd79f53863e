(** Proofs: enough fuel, and Itos that do not fit are never accepted. *)
From Verif Require Export HierHeap5.
From Coq Require Import Arith.

Lemma walk_size h : forall t fuel i level l, rep h t i -> walk_levels fuel h i level false = Ok l -> t_size t = S (length l).
Proof.
  induction t as [f ts IH] using tree_ind'. intros [|fuel] i level l Hr E; [discriminate|]. rewrite walk_unfold in E. cbn [rev] in E. cbv iota in E.
  apply rep_unfold in Hr. destruct Hr as [_ F]. rewrite t_size_T. f_equal. revert l E. induction F as [|t k ts' ks Ht F IHF]; intros l E.
  - cbn in E. injection E as <-. reflexivity.
  - inversion IH as [|? ? I1 I2]; subst. cbn [walk_go] in E. fold (walk_go (fun c => walk_levels fuel h c (level + 1) false) level false) in E.
    destruct (walk_levels fuel h k (level + 1) false) as [w|] eqn:Ew; cbn [bind] in E; [|discriminate].
    destruct (walk_go _ level false ks) as [r|] eqn:Er; cbn [bind] in E; [|discriminate]. injection E as <-.
    rewrite sizes_cons, (I1 fuel k _ w Ht Ew), (IHF I2 r eq_refl). cbn [length]. rewrite app_length. lia.
Qed.
(** a tree on the heap has at most as many nodes as the heap has objects *)
Lemma rep_size h t i : hwf h -> acyclic h -> (i < length h)%nat -> rep h t i -> (t_size t <= length h)%nat.
Proof.
  intros H Ha Hi R. destruct (walk_total h i 0 H Ha Hi) as (l & E & _ & Nd & Hl & _). rewrite (walk_size h t _ i 0 l R E).
  assert (G : NoDup (i :: map snd l)).
  { constructor; [|exact Nd]. intros X. apply in_map_iff in X. destruct X as ([k j] & Ej & X). cbn in Ej. subst j. apply Hl in X. destruct X as (n & B & _). exact (Ha i (below_anc h i i n B)). }
  assert (Inc : incl (i :: map snd l) (seq 0 (length h))).
  { intros x [<-|X]; [apply in_seq; lia|]. apply in_map_iff in X. destruct X as ([k j] & Ej & X). cbn in Ej. subst j. apply Hl in X. destruct X as (n & B & _).
    apply below_anc in B. apply (anc_bound h i x H) in B. apply in_seq. lia. }
  pose proof (NoDup_incl_length G Inc) as L. cbn [length] in L. rewrite map_length, seq_length in L. exact L.
Qed.

Theorem add_hier_total key h p c fuel : hwf h -> acyclic h -> (p < length h)%nat -> (c < length h)%nat ->
  n_par (nd h c) = None -> c <> p -> ~ anc h c p -> fits h c p -> (2 * length h <= fuel)%nat ->
  ((forall x y, anc h p x -> self_or_anc h c y -> ~ h_cross h x y) /\
    exists h', add_hier1 fuel key h p c = (h', Ok tt) /\ hwf h' /\ acyclic h' /\ length h' = length h /\
      (forall j, n_f (nd h' j) = n_f (nd h j)) /\
      (forall j, anc h' p j <-> anc h p j \/ j = c \/ anc h c j) /\
      (forall j, j <> p -> ~ anc h' p j -> nd h' j = nd h j) /\ n_par (nd h' p) = n_par (nd h p) /\
      (forall x q y, anc h' p x -> n_par (nd h' x) = Some q -> self_or_anc h' p y -> f_overlap (n_f (nd h x)) (n_f (nd h y)) -> h_inside h x y -> ~ same_span h x y -> h_inside h q y))
  \/ (exists x y, anc h p x /\ self_or_anc h c y /\ h_cross h x y) /\
     exists h', add_hier1 fuel key h p c = (h', Err ValueError) /\ (n_kids (nd h c) = [] -> h' = h) /\ kept h h'.
Proof.
  intros H Ha Hp Hc N Hne Hn Fi Hf. destruct (rep_ex h p H Ha Hp) as (tp & Rp & _). destruct (rep_ex h c H Ha Hc) as (tc & Rc & _).
  pose proof (rep_size h tp p H Ha Hp Rp). pose proof (rep_size h tc c H Ha Hc Rc).
  apply (add_hier_heap key h p c tp tc fuel); auto. lia.
Qed.

(** ** what is accepted fits *)
Definition kids_fit (h : heap) : Prop := forall p k, In k (n_kids (nd h p)) -> fits h k p.
Definition same_f (h h' : heap) : Prop := forall j, n_f (nd h' j) = n_f (nd h j).
Lemma same_f_fits h h' a b : same_f h h' -> fits h a b <-> fits h' a b.
Proof. intros D. split; apply data_fits; auto; apply D. Qed.
Lemma kids_fit_mono h h' : same_f h h' -> (forall p k, In k (n_kids (nd h' p)) -> In k (n_kids (nd h p)) \/ fits h k p) -> kids_fit h -> kids_fit h'.
Proof. intros D Hk K p k Hin. apply (same_f_fits h h' k p D). destruct (Hk p k Hin); auto. Qed.
Lemma kids_upd h p ks j : n_kids (nd (set_kids h p ks) j) = n_kids (nd h j) \/ (j = p /\ n_kids (nd (set_kids h p ks) j) = ks).
Proof. unfold set_kids. rewrite nd_upd. destruct (Nat.eqb_spec j p) as [->|]; cbn [andb]; [|auto]. destruct (p <? length h)%nat; cbn; auto. Qed.
Lemma same_f_trans a b c : same_f a b -> same_f b c -> same_f a c.
Proof. intros H1 H2 j. rewrite H2. apply H1. Qed.
Lemma clear_pars_f cs : forall h, same_f h (clear_pars h cs) /\ forall j, n_kids (nd (clear_pars h cs) j) = n_kids (nd h j).
Proof.
  induction cs as [|c cs IH]; intros h; [split; [intros j|]; reflexivity|]. destruct (IH (set_par h c None)) as [I1 I2]. change (clear_pars h (c :: cs)) with (clear_pars (set_par h c None) cs). split.
  - intros j. rewrite I1. apply f_set_par.
  - intros j. rewrite I2. apply kids_set_par.
Qed.
Lemma del_at_f h p pos : same_f h (kids_del_at h p pos) /\ forall j k, In k (n_kids (nd (kids_del_at h p pos) j)) -> In k (n_kids (nd h j)).
Proof.
  unfold kids_del_at. cbv zeta. match goal with |- context[clear_pars h ?x] => destruct (clear_pars_f x h) as [C1 C2] end. split.
  - intros j. rewrite f_set_kids. apply C1.
  - intros j k. match goal with |- context[set_kids ?a ?b ?c] => destruct (kids_upd a b c j) as [E|[-> E]] end; rewrite E; [rewrite C2; auto|]. rewrite C2. apply drop_positions_incl.
Qed.

Lemma kids_add_f p : forall cs h, kids_fit h -> same_f h (fst (kids_add h p cs)) /\ kids_fit (fst (kids_add h p cs)).
Proof.
  induction cs as [|c cs IH]; intros h K; [split; [intros j; reflexivity|exact K]|]. cbn [kids_add].
  assert (G : same_f h (fst (kids_add1 h p c)) /\ kids_fit (fst (kids_add1 h p c))).
  { assert (G0 : same_f h h /\ kids_fit h) by (split; [intros j; reflexivity|exact K]).
    unfold kids_add1. destruct (n_par (nd h c)); [exact G0|]. cbv zeta. destruct (bfind_start _ _) as [fd i]. destruct fd; [exact G0|].
    destruct (negb _); [exact G0|]. destruct (set_parent_ok h c p) eqn:E; cbn [negb]; [|exact G0]. cbn [fst]. clear G0.
    assert (D : same_f h (set_kids (set_par h c (Some p)) p (insert_at i c (n_kids (nd (set_par h c (Some p)) p))))) by (intros j; rewrite f_set_kids, f_set_par; reflexivity).
    split; [exact D|]. apply (kids_fit_mono h); [exact D| |exact K]. intros q k. 
    match goal with |- context[set_kids ?a ?b ?c] => destruct (kids_upd a b c q) as [Eq|[-> Eq]] end; rewrite Eq; rewrite kids_set_par; [auto|].
    unfold insert_at. intros X. apply in_app_iff in X. destruct X as [X|[<-|X]].
    - left. rewrite <- (firstn_skipn i). apply in_or_app. auto.
    - right. apply set_parent_ok_iff in E. tauto.
    - left. rewrite <- (firstn_skipn i). apply in_or_app. auto. }
  unfold obind. destruct (kids_add1 h p c) as [h1 [[]|e]]; cbn [fst] in *; [|exact G]. destruct G as [G1 G2]. destruct (IH h1 G2) as [I1 I2].
  split; [eapply same_f_trans; eassumption|exact I2].
Qed.
Lemma bisect_bounds key x : forall fuel lo hi, (lo <= hi)%nat -> (lo <= bisect_left fuel key x lo hi <= hi)%nat /\ (lo <= bisect_right fuel key x lo hi <= hi)%nat.
Proof.
  induction fuel as [|n IH]; intros lo hi Hl; cbn [bisect_left bisect_right]; [lia|]. destruct (Nat.ltb_spec lo hi) as [Hlt|]; [|lia].
  pose proof (half_between lo hi Hlt) as Hm. cbv zeta. set (mid := ((lo + hi) / 2)%nat) in *. pose proof (IH lo mid ltac:(lia)). pose proof (IH (mid + 1)%nat hi ltac:(lia)).
  destruct (key mid <? x), (x <? key mid); lia.
Qed.
Lemma rest_bounds ss es a b d i i' : (i < length ss)%nat \/ length es = length ss -> hier_rest ss es a b d i = ARec i' -> (i' < length ss)%nat.
Proof.
  intros Hi. unfold hier_rest. destruct (bfind_stop es b) as [fj j] eqn:Eb.
  assert (Hj : (j <= length es)%nat) by (unfold bfind_stop in Eb; cbv zeta in Eb; pose proof (bisect_bounds (key_at es) b (S (length es)) 0 (length es) ltac:(lia)); set (r := bisect_right _ _ _ _ _) in *; clearbody r; destruct (_ || _); injection Eb as <- <-; lia).
  destruct (_ && _); [discriminate|]. destruct (_ && _); [discriminate|]. destruct (i =? j)%nat; [discriminate|].
  destruct (Nat.eqb_spec j (S i)); cbn [andb]; [|discriminate]. destruct (_ && d i); [|discriminate]. intros [= <-]. lia.
Qed.
Lemma action_bounds ss es a b d i : length es = length ss -> hier_action ss es a b d = ARec i -> (i < length ss)%nat.
Proof.
  intros Hl. unfold hier_action. destruct (bfind_start ss a) as [fd k] eqn:Eb.
  assert (Hk : (k <= length ss)%nat /\ (fd = true -> (k < length ss)%nat)).
  { unfold bfind_start in Eb. cbv zeta in Eb. pose proof (bisect_bounds (key_at ss) a (S (length ss)) 0 (length ss) ltac:(lia)) as [B _].
    set (r := bisect_left _ _ _ _ _) in *; clearbody r.
    destruct (Nat.eqb_spec r (length ss)); cbn [orb] in Eb; [injection Eb as <- <-; split; [lia|discriminate]|].
    destruct (negb _); injection Eb as <- <-; split; try lia; try discriminate. }
  destruct fd.
  - destruct (b <? key_at es k); [intros [= <-]; apply Hk; reflexivity|apply rest_bounds; auto].
  - destruct (Nat.ltb_spec 0 k); [|apply rest_bounds; auto]. destruct (b <=? _); [intros [= <-]; lia|]. destruct (a <? _); [discriminate|apply rest_bounds; auto].
Qed.
(** an accepted Ito fits the parent it was added to *)
Lemma accepted_fits key : forall n h p c h', kids_fit h -> add_hier1 n key h p c = (h', Ok tt) -> same_f h h' /\ kids_fit h' /\ fits h c p.
Proof.
  induction n as [|n IH]; intros h p c h' K E; [discriminate|]. rewrite add_hier1_S in E. destruct (n_par (nd h c)); [discriminate|].
  destruct (n_kids (nd h p)) as [|k0 ks0] eqn:Eks.
  - destruct (set_parent_ok h c p) eqn:Ep; [|discriminate]. injection E as <-. apply set_parent_ok_iff in Ep. destruct Ep as [Fi _].
    assert (D : same_f h (set_kids (set_par h c (Some p)) p ([] ++ [c]))) by (intros j; rewrite f_set_kids, f_set_par; reflexivity).
    split; [exact D|]. split; [|exact Fi]. apply (kids_fit_mono h); [exact D| |exact K]. intros q k.
    match goal with |- context[set_kids ?a ?b ?c] => destruct (kids_upd a b c q) as [Eq|[-> Eq]] end; rewrite Eq; [rewrite kids_set_par; auto|].
    intros [<-|[]]. right. exact Fi.
  - clear Eks k0 ks0.
    assert (Fl : forall m h h1, kids_fit h -> flat_go (fun h d => add_hier1 n key h p d) c m h = (h1, Ok tt) -> same_f h h1 /\ kids_fit h1).
    { induction m as [|m IHm]; intros g g1 Kg Eg; cbn [flat_go] in Eg.
      - destruct (n_kids (nd g c)); [|discriminate]. injection Eg as <-. split; [intros j; reflexivity|exact Kg].
      - destruct (n_kids (nd g c)) as [|? ?] eqn:Ek; [injection Eg as <-; split; [intros j; reflexivity|exact Kg]|].
        fold (flat_go (fun h d => add_hier1 n key h p d) c) in Eg. unfold kids_pop, kids_del_int in Eg. destruct (py_pos _ _) as [i|e]; [|discriminate].
        unfold obind in Eg. cbn [fst snd] in Eg. destruct (del_at_f g c [i]) as [D1 D2].
        assert (K1 : kids_fit (kids_del_at g c [i])) by (apply (kids_fit_mono g); auto).
        destruct (add_hier1 n key (kids_del_at g c [i]) p _) as [g2 [[]|e]] eqn:E2; [|discriminate]. destruct (IH _ _ _ _ K1 E2) as (X1 & X2 & _).
        destruct (IHm g2 g1 X2 Eg) as [Y1 Y2]. split; [|exact Y2]. eapply same_f_trans; [exact D1|]. eapply same_f_trans; eassumption. }
    unfold obind in E. destruct (flat_go _ c _ h) as [h1 [[]|e]] eqn:Ef; [|discriminate]. destruct (Fl _ _ _ K Ef) as [D1 K1]. cbn [fst snd] in E.
    rewrite (same_f_fits h h1 c p D1). unfold place_go in E. cbv zeta in E.
    assert (G : same_f h1 h' /\ kids_fit h' /\ fits h1 c p); [|destruct G as (X1 & X2 & X3); split; [eapply same_f_trans; eassumption|auto]].
    set (ks := n_kids (nd h1 p)) in *. destruct (hier_action _ _ _ _ _) as [i| |i j] eqn:Ea; [|discriminate|].
    + destruct (IH _ _ _ _ K1 E) as (X1 & X2 & X3). split; [exact X1|]. split; [exact X2|].
      assert (Hi : (i < length ks)%nat) by (apply action_bounds in Ea; unfold starts_of, stops_of in *; rewrite ?map_length in *; auto).
      assert (Hk : fits h1 (nth i ks 0%nat) p) by (apply K1; apply nth_In; exact Hi). destruct X3 as (A1 & A2 & A3), Hk as (B1 & B2 & B3). split; [rewrite A1; exact B1|]. clearbody ks. clear - A2 A3 B2 B3. lia.
    + unfold do_wrap in E. cbv zeta in E. fold ks in E.
      match type of E with obind ?w _ = _ => assert (G : same_f h1 (fst w) /\ kids_fit (fst w)) end.
      { destruct (i =? j)%nat; [split; [intros q; reflexivity|exact K1]|]. unfold kids_del_slice. destruct (slice_positions _ _ _ _) as [pos|e]; [|split; [intros q; reflexivity|exact K1]].
        unfold obind. destruct (del_at_f h1 p pos) as [D2 D3]. assert (K2 : kids_fit (kids_del_at h1 p pos)) by (apply (kids_fit_mono h1); auto).
        destruct (kids_add_f c (firstn (j - i) (skipn i ks)) _ K2) as [D4 K4]. split; [eapply same_f_trans; eassumption|exact K4]. }
      unfold obind at 1 in E. destruct (if (i =? j)%nat then _ else _) as [h2 [[]|e]]; [|discriminate]. cbn [fst] in G. destruct G as [D2 K2].
      destruct (set_parent_ok _ c p) eqn:Ep; [|discriminate]. injection E as <-. rewrite set_kids_par_ok in Ep. apply set_parent_ok_iff in Ep. destruct Ep as [Fi _].
      assert (D3 : same_f h2 (set_par (set_kids h2 p (insert_at i c (n_kids (nd h2 p)))) c (Some p))) by (intros q; rewrite f_set_par, f_set_kids; reflexivity).
      split; [eapply same_f_trans; eassumption|]. split; [|apply (same_f_fits h1 h2 c p D2); exact Fi].
      apply (kids_fit_mono h2); [exact D3| |exact K2]. intros q k. rewrite kids_set_par.
      match goal with |- context[set_kids ?a ?b ?c] => destruct (kids_upd a b c q) as [Eq|[-> Eq]] end; rewrite Eq; [auto|].
      unfold insert_at. intros X. apply in_app_iff in X. destruct X as [X|[<-|X]]; [left|right; exact Fi|left]; rewrite <- (firstn_skipn i); apply in_or_app; auto.
Qed.
Theorem misfit_rejected key n h p c : hwf h -> ~ fits h c p -> snd (add_hier1 n key h p c) <> Ok tt.
Proof.
  intros H Hf E. destruct (add_hier1 n key h p c) as [h' r] eqn:Ea. cbn [snd] in E. subst r. apply Hf. refine (proj2 (proj2 (accepted_fits key n h p c h' _ Ea))).
  intros q k Hk. apply (hwf_kid h H q k Hk).
Qed.
Lemma attached_rejected key n h p c q : n_par (nd h c) = Some q -> add_hier1 (S n) key h p c = (h, Err ValueError).
Proof. intros E. rewrite add_hier1_S, E. reflexivity. Qed.
Lemma misfit_empty key n h p c : n_kids (nd h p) = [] -> n_par (nd h c) = None -> ~ fits h c p -> add_hier1 (S n) key h p c = (h, Err ValueError).
Proof. intros E N Hf. rewrite add_hier1_S, N, E. destruct (set_parent_ok h c p) eqn:Ep; [|reflexivity]. apply set_parent_ok_iff in Ep. tauto. Qed.
Lemma NoDup_app_intro {A} (l r : list A) : NoDup l -> NoDup r -> (forall x, In x l -> In x r -> False) -> NoDup (l ++ r).
Proof.
  intros Hl Hr Hd. induction Hl as [|x l Hx Hl IH]; [exact Hr|]. cbn. constructor.
  - intros X. apply in_app_iff in X. destruct X as [X|X]; [contradiction|]. exact (Hd x (or_introl eq_refl) X).
  - apply IH. intros y Y1 Y2. exact (Hd y (or_intror Y1) Y2).
Qed.
Lemma NoDup_map_in {A B} (g : A -> B) l : NoDup l -> (forall x y, In x l -> In y l -> g x = g y -> x = y) -> NoDup (map g l).
Proof.
  induction 1 as [|x l Hx Hl IH]; intros Hinj; cbn; constructor.
  - intros X. apply in_map_iff in X. destruct X as (y & E & Hy). apply Hx. rewrite <- (Hinj y x (or_intror Hy) (or_introl eq_refl) E). exact Hy.
  - apply IH. intros y z Hy Hz. apply Hinj; right; assumption.
Qed.
(** the descendants of i as ids, in document order *)
Lemma rep_ids h : hwf h -> acyclic h -> forall t i, rep h t i -> exists js, map (fun j => n_f (nd h j)) js = f_nodes (t_kids t) /\ NoDup js /\ forall j, In j js -> anc h i j.
Proof.
  intros H Ha. induction t as [f ts IH] using tree_ind'. intros i Hr. apply rep_unfold in Hr. destruct Hr as [Hf F]. cbn [t_kids].
  assert (G : forall ks1 ks0 ts1, n_kids (nd h i) = ks0 ++ ks1 -> Forall2 (rep h) ts1 ks1 -> (forall t, In t ts1 -> In t ts) ->
        exists js, map (fun j => n_f (nd h j)) js = f_nodes ts1 /\ NoDup js /\ forall j, In j js -> exists k, In k ks1 /\ self_or_anc h k j).
  { induction ks1 as [|k ks1 IHk]; intros ks0 ts1 Ek F1 Hin; inversion F1 as [|t ? ts2 ? Rt F2]; subst; [exists []; repeat split; [constructor|intros j []]|].
    rewrite Forall_forall in IH. destruct (IH t (Hin t (or_introl eq_refl)) k Rt) as (j1 & M1 & N1 & A1).
    destruct (IHk (ks0 ++ [k]) ts2) as (j2 & M2 & N2 & A2); [rewrite Ek, <- app_assoc; reflexivity|exact F2|intros; apply Hin; right; assumption|].
    exists (k :: j1 ++ j2). split; [cbn [map]; rewrite map_app, M1, M2, f_nodes_cons; pose proof (rep_f h t k Rt) as Ef; destruct t as [tf tk]; cbn [t_f] in Ef; rewrite Ef; reflexivity|].
    assert (Dis : forall x, self_or_anc h k x -> In x j2 -> False).
    { intros x X1 X2. apply A2 in X2. destruct X2 as (k' & Hk' & X2). apply in_split in Hk'. destruct Hk' as (m & r & ->). exact (kids_disjoint h H Ha i ks0 k m k' r x Ek X1 X2). }
    split.
    - constructor.
      + intros X. apply in_app_iff in X. destruct X as [X|X]; [exact (Ha k (A1 k X))|]. apply (Dis k); [left; reflexivity|exact X].
      + apply NoDup_app_intro; auto. intros x X1 X2. apply (Dis x); [right; auto|exact X2].
    - intros j [<-|Hj]; [exists k; split; [left; reflexivity|left; reflexivity]|]. apply in_app_iff in Hj. destruct Hj as [Hj|Hj]; [exists k; split; [left; reflexivity|right; auto]|].
      destruct (A2 j Hj) as (k' & Hk' & X). exists k'. split; [right; exact Hk'|exact X]. }
  destruct (G (n_kids (nd h i)) [] ts eq_refl F (fun t Ht => Ht)) as (js & M & N & A). exists js. split; [exact M|]. split; [exact N|].
  intros j Hj. destruct (A j Hj) as (k & Hk & X). pose proof (kid_par h i k H Hk) as Pk. destruct X as [->|X]; [apply anc_parent; exact Pk|]. eapply anc_trans; [apply anc_parent; exact Pk|exact X].
Qed.
Theorem add_hier_order_total key key' n h p cs cs' : hwf h -> acyclic h -> (p < length h)%nat -> NoDup cs ->
  Forall (fun c => (c < length h)%nat /\ n_par (nd h c) = None /\ n_kids (nd h c) = [] /\ c <> p /\ fits h c p /\ nonempty h c) cs ->
  (forall x, anc h p x -> nonempty h x) ->
  (forall x y, (In x cs \/ anc h p x) -> (In y cs \/ anc h p y) -> same_span h x y -> x = y) ->
  (forall x y, In x cs \/ anc h p x -> In y cs -> ~ h_cross h x y) ->
  Permutation cs cs' -> (2 * length h <= n)%nat ->
  exists t h1 h2, add_hier n key h p cs = (h1, Ok tt) /\ add_hier n key' h p cs' = (h2, Ok tt) /\
    hwf h1 /\ hwf h2 /\ rep h1 t p /\ rep h2 t p.
Proof.
  intros H Ha Hp Hnd Hcs Hne Hdis Hcr Hpm Hn. destruct (rep_ex h p H Ha Hp) as (tp & Rp & _). pose proof (rep_size h tp p H Ha Hp Rp) as Sz.
  pose proof (rep_kids h tp p Rp) as R. rewrite Forall_forall in Hcs.
  destruct (rep_ids h H Ha tp p Rp) as (js & Mj & Nj & Aj).
  assert (Hlen : (length cs <= length h)%nat).
  { rewrite <- (seq_length (length h) 0). apply (NoDup_incl_length Hnd). intros x Hx. apply in_seq. destruct (Hcs x Hx). lia. }
  assert (Fcs : Forall (fun c => (c < length h)%nat /\ n_par (nd h c) = None /\ n_kids (nd h c) = [] /\ c <> p /\ fits h c p /\ nonempty h c) cs) by (apply Forall_forall; exact Hcs).
  destruct (Nat.le_gt_cases (length cs + t_size tp) n) as [Hle|Hgt]; [|lia].
  destruct (add_hier_order key key' n h p cs cs' tp) as (ts' & h1 & h2 & E1 & E2 & W1 & W2 & R1 & R2 & _); auto.
  - rewrite <- Mj. apply Forall_forall. intros f Hf. apply in_map_iff in Hf. destruct Hf as (j & <- & Hj). apply (Hne j (Aj j Hj)).
  - rewrite <- Mj, map_map, <- map_app. apply NoDup_map_in.
    + apply NoDup_app_intro; auto. intros x X1 X2. destruct (Hcs x X1) as (_ & Nx & _). apply Aj in X2. apply anc_up_inv in X2. destruct X2 as (q & Eq & _). congruence.
    + intros x y Hx Hy E. apply Hdis; [apply in_app_iff in Hx; destruct Hx; auto|apply in_app_iff in Hy; destruct Hy; auto|]. injection E as X1 X2. split; assumption.
  - exists (T (n_f (nd h p)) ts'), h1, h2. auto 8.
Qed.
