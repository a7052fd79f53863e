(** Proofs: pipelines leave every heap well-formed at every moment (C119). *)
From Verif Require Export SpecPipe ArborFacts PipeFacts.
From Coq Require Import Arith.

(** ** the structural form of [orderly]; n is the number of Itos a moment before *)
Fixpoint ord (b : bool) (n : nat) (s : strm) (h : heap) : Prop :=
  match s with
  | Stop => hwf h /\ (n <= length h)%nat
  | Raise _ => b = false \/ hwf h /\ (n <= length h)%nat
  | Yield i k => hwf h /\ (n <= length h)%nat /\ (i < length h)%nat /\ forall g, hwf g -> (length h <= length g)%nat -> ord b (length g) k g
  | Act f k => hwf h /\ (n <= length h)%nat /\ ord b (length h) (k h) (f h)
  end.
Lemma ord_less b s h n m : (n <= m)%nat -> ord b m s h -> ord b n s h.
Proof. intros L. destruct s; cbn; intros H; intuition lia. Qed.
Lemma ord_len b s h n m : ord b n s h -> (m <= length h)%nat -> ord b m s h.
Proof. destruct s; cbn; intros H L; intuition lia. Qed.
Lemma ord_hwf b n s h : ord b n s h -> raised b s \/ hwf h /\ (n <= length h)%nat.
Proof. destruct s; cbn; intros H; [tauto| |tauto|tauto]. destruct H as [H|H]; [left; split; [exact H|eauto]|right; exact H]. Qed.
Lemma moment_trans s h s1 h1 s2 h2 : moment s h s1 h1 -> moment s1 h1 s2 h2 -> moment s h s2 h2.
Proof. induction 1; intros M; [exact M|constructor; auto|econstructor; eauto]. Qed.
Lemma ord_moment b s h s' h' : moment s h s' h' -> forall n, ord b n s h -> exists m, (raised b s' \/ (n <= m)%nat) /\ ord b m s' h'.
Proof.
  induction 1 as [s h|f k h s' h' M IH|i k h g s' h' Wg Lg M IH]; intros n O.
  - exists n. auto.
  - destruct O as (_ & L & O). destruct (IH _ O) as (m & [X|X] & Om); exists m; (split; [|exact Om]); [auto|right; lia].
  - destruct O as (_ & L & _ & O). destruct (IH _ (O g Wg Lg)) as (m & [X|X] & Om); exists m; (split; [|exact Om]); [auto|right; lia].
Qed.
Lemma orderly_ord b : forall s h, orderly b s h <-> ord b (length h) s h.
Proof.
  intros s h. split.
  - revert h. induction s as [|e|i k IH|f k IH]; intros h O; cbn.
    + destruct (O _ _ (mo_now _ _)) as [(_ & e & E)|(W & _)]; [discriminate|]. auto.
    + destruct (O _ _ (mo_now _ _)) as [(E & _)|(W & _)]; auto.
    + destruct (O _ _ (mo_now _ _)) as [(_ & e & E)|(W & Y & _)]; [discriminate|]. split; [exact W|]. split; [lia|]. split; [exact (Y i k eq_refl)|].
      intros g Wg Lg. apply IH. intros s1 h1 M. apply O. exact (mo_given i k h g s1 h1 Wg Lg M).
    + destruct (O _ _ (mo_now _ _)) as [(_ & e & E)|(W & _ & L)]; [discriminate|]. split; [exact W|]. split; [lia|].
      assert (O1 : ord b (length (f h)) (k h) (f h)) by (apply IH; intros s1 h1 M; apply O; constructor; exact M).
      destruct (L _ _ (mo_work f k h _ _ (mo_now _ _))) as [(E & e & X)|X]; [rewrite X; left; exact E|exact (ord_less b _ _ _ _ X O1)].
  - intros O s1 h1 M. destruct (ord_moment b _ _ _ _ M _ O) as (m & _ & Om). destruct (ord_hwf b m s1 h1 Om) as [X|[W L]]; [left; exact X|right]. split; [exact W|]. split.
    + intros j k ->. apply Om.
    + intros s2 h2 M2. destruct (ord_moment b _ _ _ _ M2 _ (ord_len b s1 h1 m _ Om (le_n _))) as (m2 & X & O2). destruct (ord_hwf b m2 s2 h2 O2) as [Y|[_ Y]]; [left; exact Y|]. destruct X as [X|X]; [left; exact X|right; lia].
Qed.

(** ** from every well-formed heap of at least n Itos *)
Definition tidy (b : bool) (n : nat) (s : strm) : Prop := forall h, hwf h -> (n <= length h)%nat -> ord b (length h) s h.
Lemma safe_tidy b n s : safe b n s <-> tidy b n s.
Proof. split; intros S h W L; apply orderly_ord; apply S; assumption. Qed.
Lemma tidy_mono b s n m : (n <= m)%nat -> tidy b n s -> tidy b m s.
Proof. intros L T h W Lh. apply T; [exact W|lia]. Qed.
Definition lt_all (n : nat) (l : list nat) : Prop := Forall (fun i => (i < n)%nat) l.
Lemma lt_app n l r : lt_all n l -> lt_all n r -> lt_all n (l ++ r).
Proof. intros A B. apply Forall_app. auto. Qed.
Lemma lt_mono n m l : (n <= m)%nat -> lt_all n l -> lt_all m l.
Proof. intros L. apply Forall_impl. intros. lia. Qed.
Lemma stop_tidy b n : tidy b n Stop.
Proof. intros h W L. cbn. auto. Qed.
Lemma raise_tidy b n e : tidy b n (Raise e).
Proof. intros h W L. cbn. auto. Qed.
Lemma cons_tidy b n i k : (i < n)%nat -> (forall m, (n <= m)%nat -> tidy b m k) -> tidy b n (Yield i k).
Proof. intros Hi K h W L. cbn. split; [exact W|]. split; [lia|]. split; [lia|]. intros g Wg Lg. apply (K (length g)); [lia|exact Wg|lia]. Qed.
Lemma yield_tidy b n i : (i < n)%nat -> tidy b n (Yield i Stop).
Proof. intros Hi. apply cons_tidy; [exact Hi|]. intros m _. apply stop_tidy. Qed.

(** a method that keeps heaps of at least n Itos well-formed, unless it raises *)
Definition method_ok {A} (b : bool) (n : nat) (m : heap -> out A) (Q : nat -> A -> Prop) : Prop :=
  forall h, hwf h -> (n <= length h)%nat ->
    match snd (m h) with
    | Ok a => hwf (fst (m h)) /\ (length h <= length (fst (m h)))%nat /\ Q (length (fst (m h))) a
    | Err _ => b = false \/ hwf (fst (m h)) /\ (length h <= length (fst (m h)))%nat
    end.
Lemma act_tidy {A} b n (m : heap -> out A) Q k : method_ok b n m Q -> (forall n' a, (n <= n')%nat -> Q n' a -> tidy b n' (k a)) -> tidy b n (act m k).
Proof.
  intros M K h W L. unfold act. cbn [ord]. split; [exact W|]. split; [lia|]. specialize (M h W L). destruct (snd (m h)) as [a|e]; [|exact M].
  destruct M as (W1 & L1 & Qa). apply (ord_less b _ _ _ _ L1). apply (K (length (fst (m h))) a); [lia|exact Qa|exact W1|lia].
Qed.
Lemma ask_tidy {A} b n (m : heap -> res A) k : (forall n' a, (n <= n')%nat -> tidy b n' (k a)) -> tidy b n (ask m k).
Proof.
  intros K. apply (act_tidy b n _ (fun _ _ => True)); [|intros; apply K; assumption]. intros h W L. cbn [fst snd]. destruct (m h); [|right]; auto.
Qed.
Lemma of_list_tidy b : forall l n, lt_all n l -> tidy b n (of_list l).
Proof.
  induction l as [|x l IH]; intros n F; [apply stop_tidy|]. inversion F; subst. cbn [of_list]. apply cons_tidy; [assumption|]. intros m L. apply IH. exact (lt_mono n m l L H2).
Qed.

(** ** combinators, by induction on a generator running from a heap *)
Lemma sapp_ord b c : forall a n h, (forall m, (n <= m)%nat -> tidy b m c) -> ord b n a h -> ord b n (sapp a c) h.
Proof.
  induction a as [|e|i k IH|f k IH]; intros n h C O; cbn [sapp ord] in *.
  - destruct O as [W L]. apply (ord_less b _ _ _ _ L). apply (C (length h)); [exact L|exact W|lia].
  - exact O.
  - destruct O as (W & L & Hi & O). repeat (split; [assumption|]). intros g Wg Lg. apply IH; [intros m Lm; apply C; lia|apply O; assumption].
  - destruct O as (W & L & O). repeat (split; [assumption|]). apply IH; [intros m Lm; apply C; lia|exact O].
Qed.
Lemma sapp_tidy b n a c : tidy b n a -> (forall m, (n <= m)%nat -> tidy b m c) -> tidy b n (sapp a c).
Proof. intros A C h W L. apply sapp_ord; [intros m Lm; apply C; lia|apply A; assumption]. Qed.
Lemma sfor_ord b f : forall s n h, (forall m i, (n <= m)%nat -> (i < m)%nat -> tidy b m (f i)) -> ord b n s h -> ord b n (sfor s f) h.
Proof.
  induction s as [|e|i k IH|g k IH]; intros n h F O; cbn [sfor ord] in *; auto.
  - destruct O as (W & L & Hi & O). apply (ord_less b _ _ _ _ L). apply sapp_tidy with (n := length h); [apply F; assumption| |exact W|lia].
    intros m Lm h' W' L'. apply IH; [intros m' i' Lm'; apply F; lia|apply O; [exact W'|lia]].
  - destruct O as (W & L & O). repeat (split; [assumption|]). apply IH; [intros m i Lm; apply F; lia|exact O].
Qed.
Lemma scollect_ord b k : forall s n h acc, (forall m l, (n <= m)%nat -> lt_all m l -> tidy b m (k l)) -> lt_all n acc -> ord b n s h -> ord b n (scollect s acc k) h.
Proof.
  induction s as [|e|i s IH|g s IH]; intros n h acc K Ha O; cbn [scollect ord] in *; auto.
  - destruct O as [W L]. apply (ord_less b _ _ _ _ L). apply (K (length h)); [exact L|exact (lt_mono n _ _ L Ha)|exact W|lia].
  - destruct O as (W & L & Hi & O). apply (ord_less b _ _ _ _ L). apply IH; [intros m l Lm; apply K; lia| |apply O; [exact W|lia]].
    apply lt_app; [exact (lt_mono n _ _ L Ha)|repeat constructor; exact Hi].
  - destruct O as (W & L & O). repeat (split; [assumption|]). apply IH; [intros m l Lm; apply K; lia|exact (lt_mono n _ _ L Ha)|exact O].
Qed.
Lemma sdrop_ord b k : forall s n h, (forall m, (n <= m)%nat -> tidy b m k) -> ord b n s h -> ord b n (sdrop s k) h.
Proof.
  induction s as [|e|i s IH|g s IH]; intros n h K O; cbn [sdrop ord] in *; auto.
  - destruct O as [W L]. apply (ord_less b _ _ _ _ L). apply (K (length h)); [exact L|exact W|lia].
  - destruct O as (W & L & Hi & O). apply (ord_less b _ _ _ _ L). apply IH; [intros m Lm; apply K; lia|apply O; [exact W|lia]].
  - destruct O as (W & L & O). repeat (split; [assumption|]). apply IH; [intros m Lm; apply K; lia|exact O].
Qed.
Lemma sfirst_ord b k : forall s n h, (forall m, (n <= m)%nat -> tidy b m k) -> ord b n s h -> ord b n (sfirst s k) h.
Proof.
  induction s as [|e|i s IH|g s IH]; intros n h K O; cbn [sfirst ord] in *; auto.
  - destruct O as [W L]. apply (ord_less b _ _ _ _ L). apply (K (length h)); [exact L|exact W|lia].
  - destruct O as (W & L & O). repeat (split; [assumption|]). apply IH; [intros m Lm; apply K; lia|exact O].
Qed.

(** ** methods *)
Lemma clone_ok b n i a z d k : (i < n)%nat -> method_ok b n (clone_of i a z d k) (fun m j => (j < m)%nat).
Proof.
  intros Hi h W L. destruct (clone_h_inv (depth_fuel h) h i a z d k W ltac:(lia)) as (W1 & [E1 _] & J). unfold clone_of. destruct (clone_h _ h i a z d k) as [h1 [j|e]]; cbn [fst snd] in *; [|right]; auto.
  split; [exact W1|]. split; [exact E1|]. specialize (J j eq_refl). tauto.
Qed.
Lemma new_ok h f : hwf h -> fwf f -> hwf (fst (new_node h f)) /\ (length h <= length (fst (new_node h f)))%nat /\ (length h < length (fst (new_node h f)))%nat.
Proof. intros W F. unfold new_node. cbn [fst]. split; [apply hwf_new; assumption|]. rewrite app_length. cbn [length]. lia. Qed.
Lemma join_method b n l d : l <> [] -> method_ok b n (fun h => join_h h l d) (fun m j => (j < m)%nat).
Proof.
  intros Hl h W L. unfold join_h. assert (F : Forall fwf (map (fun i => n_f (nd h i)) l)) by (apply Forall_forall; intros f Hf; apply in_map_iff in Hf; destruct Hf as (i & <- & _); apply (hwf_span h W)).
  destruct (join_spec (map (fun i => n_f (nd h i)) l) d F) as [(s & _ & j & E & _ & _ & _ & Wj & _)|(_ & E)]; [destruct l; [congruence|discriminate]| |]; rewrite E.
  - destruct (new_ok h j W Wj) as (X1 & X2 & X3). unfold new_node in *. cbn [fst snd] in *. auto.
  - cbn [fst snd]. auto.
Qed.
Lemma obind_Ok {A B} h (a : A) (f : heap -> A -> out B) : obind (h, Ok a) f = f h a.
Proof. reflexivity. Qed.
Lemma fm_loop_wf s df : forall caps h stack roots, hwf h -> lt_all (length h) stack -> lt_all (length h) roots ->
  let r := fm_loop h s df stack roots caps in hwf (fst r) /\ (length h <= length (fst r))%nat /\ (forall l, snd r = Ok l -> lt_all (length (fst r)) l).
Proof.
  induction caps as [|[sp gk] caps IH]; intros h stack roots W Hs Hr; cbn [fm_loop]; cbv zeta.
  - cbn [fst snd]. split; [exact W|]. split; [lia|]. intros l [= <-]. exact Hr.
  - unfold new_str. destruct (new_ok h (ito_of_str s (Some (fst sp)) (Some (snd sp)) (df gk)) W) as (W1 & L1 & L2); [destruct (ito_of_str_wf s (Some (fst sp)) (Some (snd sp)) (df gk)); split; assumption|].
    unfold new_node in *. cbn [fst snd] in *. rewrite !obind_Ok. set (h1 := h ++ _) in *. set (c := length h) in *.
    assert (Hp : lt_all (length h1) (pop_until h1 c stack)).
    { apply (lt_mono (length h)); [exact L1|]. clear - Hs. induction Hs as [|x st Hx Hs IHs]; cbn [pop_until]; [constructor|]. match goal with |- context [if ?x then _ else _] => destruct x end; try exact IHs; constructor; assumption. }
    destruct (pop_until h1 c stack) as [|p st].
    + destruct (IH h1 [c] (roots ++ [c]) W1) as (X1 & X2 & X3); [repeat constructor; exact L2|apply lt_app; [exact (lt_mono _ _ _ L1 Hr)|repeat constructor; exact L2]|]. split; [exact X1|]. split; [exact (Nat.le_trans _ _ _ L1 X2)|exact X3].
    + inversion Hp as [|? ? Hp1 Hp2]; subst. destruct (kids_add_inv h1 p [c] W1 Hp1 (Forall_cons c L2 (Forall_nil _))) as (W2 & L3 & _). unfold obind. destruct (kids_add h1 p [c]) as [h2 [u|e]]; cbn [fst snd] in *.
      * destruct (IH h2 (c :: p :: st) roots W2) as (X1 & X2 & X3); [rewrite L3; repeat constructor; assumption|rewrite L3; exact (lt_mono _ _ _ L1 Hr)|]. split; [exact X1|]. split; [rewrite L3 in X2; exact (Nat.le_trans _ _ _ L1 X2)|exact X3].
      * split; [exact W2|]. split; [lia|discriminate].
Qed.
Lemma fr_loop_wf keys df limit : forall ms h rv k, hwf h -> lt_all (length h) rv ->
  let r := fr_loop h keys df limit rv k ms in hwf (fst r) /\ (length h <= length (fst r))%nat /\ (forall l, snd r = Ok l -> lt_all (length (fst r)) (fst l)).
Proof.
  induction ms as [|m ms IH]; intros h rv k W Hr; cbn [fr_loop]; cbv zeta.
  - cbn [fst snd]. split; [exact W|]. split; [lia|]. intros l [= <-]. exact Hr.
  - destruct (fm_loop_wf (rm_string m) (df m) (sort_caps (captures m (keys m))) h [] [] W (Forall_nil _) (Forall_nil _)) as (W1 & L1 & F1). unfold from_match.
    destruct (fm_loop _ _ _ _ _ _) as [h1 [l|e]]; unfold obind; cbn [fst snd] in *; [|split; [exact W1|]; split; [exact L1|discriminate]].
    assert (R1 : lt_all (length h1) (rv ++ l)) by (apply lt_app; [exact (lt_mono _ _ _ L1 Hr)|exact (F1 l eq_refl)]).
    assert (G : let r := fr_loop h1 keys df limit (rv ++ l) (S k) ms in hwf (fst r) /\ (length h <= length (fst r))%nat /\ (forall x, snd r = Ok x -> lt_all (length (fst r)) (fst x))).
    { destruct (IH h1 (rv ++ l) (S k) W1 R1) as (X1 & X2 & X3). cbv zeta. split; [exact X1|]. split; [lia|exact X3]. }
    destruct limit as [z|]; [|exact G]. destruct (z <=? _); [|exact G]. cbn [fst snd]. split; [exact W1|]. split; [exact L1|]. intros x [= <-]. exact R1.
Qed.
Lemma firstn_lt n a l : lt_all n l -> lt_all n (firstn a l).
Proof. intros H. rewrite <- (firstn_skipn a l) in H. apply Forall_app in H. apply H. Qed.
Lemma from_re_wf h re gf df limit ms : hwf h ->
  let r := from_re h re gf df limit ms in hwf (fst r) /\ (length h <= length (fst r))%nat /\ (forall l, snd r = Ok l -> lt_all (length (fst r)) (fst l)).
Proof.
  intros W. unfold from_re. cbv zeta. destruct (match gf with GFKeys l => _ | GFPred _ => _ end); [|cbn [fst snd]; split; [exact W|]; split; [lia|discriminate]].
  destruct (fr_loop_wf (fun m => match gf with GFKeys l => l | GFPred p => gk_from_filter (gk_preferred re) (p m) end) df limit ms h [] 0 W (Forall_nil _)) as (W1 & L1 & F1).
  destruct (fr_loop h _ df limit [] 0 ms) as [h1 [r|e]]; unfold obind; cbn [fst snd] in *; (split; [exact W1|]); (split; [exact L1|]); [|discriminate].
  intros l [= <-]. cbn [fst]. specialize (F1 r eq_refl). destruct limit as [z|]; [|exact F1]. destruct (0 <? z); [apply firstn_lt; exact F1|constructor].
Qed.

(** ** postorators *)
Lemma windowed_ord b size pred d : forall s n h w, lt_all n w -> ord b n s h -> ord b n (windowed size pred d w s) h.
Proof.
  induction s as [|e|i k IH|g k IH]; intros n h w Hw O; cbn [windowed]; cbn [ord] in O.
  - destruct O as [W L]. apply (ord_less b _ _ _ _ L). apply (of_list_tidy b w (length h)); [exact (lt_mono _ _ _ L Hw)|exact W|lia].
  - exact O.
  - destruct O as (W & L & Hi & O). assert (Hw' : lt_all (length h) (w ++ [i])) by (apply lt_app; [exact (lt_mono _ _ _ L Hw)|repeat constructor; exact Hi]). apply (ord_less b _ _ _ _ L).
    assert (K : forall m w', (length h <= m)%nat -> lt_all m w' -> tidy b m (windowed size pred d w' k)).
    { intros m w' Lm Hm g Wg Lg. apply IH; [exact (lt_mono _ _ _ Lg Hm)|apply O; [exact Wg|lia]]. }
    destruct (_ =? _)%nat; [|apply (K (length h) _ (le_n _) Hw'); [exact W|lia]].
    eapply ask_tidy; [|exact W|apply le_n]. intros n1 [|] L1.
    + apply (act_tidy b n1 _ _ _ (join_method b n1 (w ++ [i]) d ltac:(destruct w; discriminate))). intros n2 j L2 Hj. apply cons_tidy; [exact Hj|]. intros m Lm. apply K; [lia|constructor].
    + destruct (w ++ [i]) as [|x w'] eqn:Ew; [apply raise_tidy|]. inversion Hw' as [|? ? Hx Hw2]; subst. apply cons_tidy; [lia|]. intros m Lm. apply K; [lia|]. refine (lt_mono _ _ _ _ Hw2). lia.
  - destruct O as (W & L & O). cbn [ord]. repeat (split; [assumption|]). apply IH; [exact (lt_mono _ _ _ L Hw)|exact O].
Qed.
Definition reduce_ok (reduce : list nat -> heap -> out nat) : Prop := forall l h, hwf h -> Forall (fun i => (i < length h)%nat) l ->
      hwf (fst (reduce l h)) /\ (length h <= length (fst (reduce l h)))%nat /\ (forall j, snd (reduce l h) = Ok j -> (j < length (fst (reduce l h)))%nat).
Lemma reduce_method b reduce n l : reduce_ok reduce -> lt_all n l -> method_ok b n (reduce l) (fun m j => (j < m)%nat).
Proof.
  intros R Hl h W L. destruct (R l h W (lt_mono _ _ _ L Hl)) as (X1 & X2 & X3). destruct (snd (reduce l h)) as [j|e]; [|right; auto]. auto.
Qed.
Lemma stacked_ord b reduce push pop : reduce_ok reduce -> forall s n h st, lt_all n st -> ord b n s h -> ord b n (stacked reduce push pop st s) h.
Proof.
  intros R. induction s as [|e|i k IH|g k IH]; intros n h st Hst O; cbn [stacked]; cbn [ord] in O.
  - destruct O as [W L]. apply (ord_less b _ _ _ _ L). destruct st as [|x st]; [apply (stop_tidy b (length h)); [exact W|lia]|].
    eapply act_tidy; [exact (reduce_method b reduce (length h) _ R (lt_mono _ _ _ L Hst))| |exact W|lia]. intros n' j _ Hj. apply yield_tidy. exact Hj.
  - exact O.
  - destruct O as (W & L & Hi & O). apply (ord_less b _ _ _ _ L). apply (lt_mono _ _ _ L) in Hst.
    assert (K : forall m st', (length h <= m)%nat -> lt_all m st' -> tidy b m (stacked reduce push pop st' k)).
    { intros m st' Lm Hm g Wg Lg. apply IH; [exact (lt_mono _ _ _ Lg Hm)|apply O; [exact Wg|lia]]. }
    assert (S0 : forall m, (length h <= m)%nat -> tidy b m (ask (fun h => push h [] i) (fun x : bool => if x then stacked reduce push pop [i] k else Yield i (stacked reduce push pop [] k)))).
    { intros m Lm. apply ask_tidy. intros n1 [|] L1; [apply K; [lia|repeat constructor; lia]|]. apply cons_tidy; [lia|]. intros m' Lm'. apply K; [lia|constructor]. }
    destruct st as [|x st]; [apply (S0 (length h) (le_n _)); [exact W|lia]|].
    assert (Hs' : lt_all (length h) ((x :: st) ++ [i])) by (apply lt_app; [exact Hst|repeat constructor; exact Hi]).
    destruct pop as [p|]; [|apply (K (length h) _ (le_n _) Hs'); [exact W|lia]].
    eapply ask_tidy; [|exact W|apply le_n]. intros n1 [|] L1; [|apply K; [exact L1|exact (lt_mono _ _ _ L1 Hs')]].
    apply (act_tidy b n1 _ _ _ (reduce_method b reduce n1 _ R (lt_mono _ _ _ L1 Hst))). intros n2 j L2 Hj. apply cons_tidy; [exact Hj|]. intros m Lm. apply S0. lia.
  - destruct O as (W & L & O). cbn [ord]. repeat (split; [assumption|]). apply IH; [exact (lt_mono _ _ _ L Hst)|exact O].
Qed.
Lemma post_tidy b p n s : post_orderly b p -> tidy b n s -> tidy b n (run_post p s).
Proof.
  destruct p as [|size pr d|r pu po|f]; cbn [run_post post_orderly]; intros P S; auto.
  - intros h W L. apply windowed_ord; [constructor|apply S; assumption].
  - intros h W L. apply stacked_ord; [exact P|constructor|apply S; assumption].
  - apply safe_tidy, P, safe_tidy, S.
Qed.

(** ** transforms *)
Lemma split_clone_tidy b i d n ab : (i < n)%nat -> method_ok b n (split_clone i d ab) lt_all.
Proof.
  intros Hi h W L. unfold split_clone. destruct (_ =? _); [cbn [fst snd]; split; [exact W|]; split; [lia|constructor]|].
  pose proof (clone_ok b n i (Some (fst ab)) (Some (snd ab)) (Some d) false Hi h W L) as C. destruct (clone_of _ _ _ _ _ h) as [h1 [j|e]]; unfold obind; cbn [fst snd] in *; [|exact C].
  destruct C as (W1 & L1 & Hj). split; [exact W1|]. split; [exact L1|]. repeat constructor. exact Hj.
Qed.
Lemma split_end_tidy b br z d i p rv n : (i < n)%nat -> lt_all n rv -> tidy b n (split_end br z d i p rv).
Proof.
  intros Hi Hr. unfold split_end.
  assert (G : forall f, tidy b n (act (fun h => split_clone i d (f h) h) (fun l => of_list (rv ++ l)))).
  { intros f. apply (act_tidy b n _ lt_all); [intros h; exact (split_clone_tidy b i d n (f h) Hi h)|]. intros n' l Ln Hl. apply of_list_tidy. apply lt_app; [exact (lt_mono _ _ _ Ln Hr)|exact Hl]. }
  destruct p as [p|]; [destruct br; (apply G || apply of_list_tidy; exact Hr)|]. destruct (_ && _); [|apply of_list_tidy; exact Hr].
  apply (act_tidy b n _ _ _ (clone_ok b n i None None (Some d) false Hi)). intros n' j Ln Hj. apply of_list_tidy. apply lt_app; [exact (lt_mono _ _ _ Ln Hr)|repeat constructor; exact Hj].
Qed.
Lemma split_loop_ord b limit br z d i : forall s count p rv n h, (i < n)%nat -> lt_all n rv -> ord b n s h -> ord b n (itor_split_loop limit br z d i count p rv s) h.
Proof.
  induction s as [|e|cur k IH|g k IH]; intros count p rv n h Hi Hr O; cbn [itor_split_loop]; cbn [ord] in O.
  - destruct O as [W L]. apply (ord_less b _ _ _ _ L). apply (split_end_tidy b br z d i p rv (length h)); [lia|exact (lt_mono _ _ _ L Hr)|exact W|lia].
  - exact O.
  - destruct O as (W & L & Hc & O). apply (ord_less b _ _ _ _ L). apply (lt_mono _ _ _ L) in Hr.
    destruct (under_limit limit count); [|apply (split_end_tidy b br z d i p rv (length h)); [lia|exact Hr|exact W|lia]].
    eapply (act_tidy b (length h) _ lt_all); [| |exact W|apply le_n].
    + intros g Wg Lg. pose proof (split_clone_tidy b i d (length h) (split_piece br g i p cur) ltac:(lia) g Wg Lg) as C. destruct (split_clone i d _ g) as [h1 [l|e]]; unfold obind; cbn [fst snd] in *; [|exact C].
      destruct C as (W1 & L1 & Hl). split; [exact W1|]. split; [exact L1|]. apply lt_app; [exact Hl|]. destruct br; try constructor. destruct (_ <? _); repeat constructor. lia.
    + intros n' l Ln Hl g Wg Lg. apply IH; [lia|apply lt_app; [refine (lt_mono _ _ _ _ Hr); lia|exact (lt_mono _ _ _ Lg Hl)]|apply O; [exact Wg|lia]].
  - destruct O as (W & L & O). cbn [ord]. repeat (split; [assumption|]). apply IH; [lia|exact (lt_mono _ _ _ L Hr)|exact O].
Qed.
Lemma invert_loop_ord b d i : forall s start last n h, (i < n)%nat -> ord b n s h -> ord b n (invert_loop d i start last s) h.
Proof.
  assert (C : forall n a z, (i < n)%nat -> tidy b n (act (clone_of i a z (Some d) true) (fun j => Yield j Stop))).
  { intros n a z Hi. apply (act_tidy b n _ _ _ (clone_ok b n i a z (Some d) true Hi)). intros n' j _ Hj. apply yield_tidy. exact Hj. }
  induction s as [|e|x k IH|g k IH]; intros start last n h Hi O; cbn [invert_loop]; cbn [ord] in O.
  - destruct O as [W L]. apply (ord_less b _ _ _ _ L). eapply (ask_tidy b (length h)); [|exact W|apply le_n]. intros n1 [|] L1; [apply C; lia|].
    destruct last as [y|]; [|apply raise_tidy]. apply ask_tidy. intros n2 ab L2. destruct (_ <? _); [apply C; lia|apply stop_tidy].
  - exact O.
  - destruct O as (W & L & Hx & O). apply (ord_less b _ _ _ _ L).
    assert (K : forall m, (length h <= m)%nat -> tidy b m (ask (fun h => Ok (h_stop h x)) (fun z => invert_loop d i z (Some x) k))).
    { intros m Lm. apply ask_tidy. intros n1 z L1 g Wg Lg. apply IH; [lia|apply O; [exact Wg|lia]]. }
    eapply (ask_tidy b (length h)); [|exact W|apply le_n]. intros n1 a L1. destruct (start <? a); [|apply K; exact L1].
    apply (act_tidy b n1 _ _ _ (clone_ok b n1 i (Some start) (Some a) (Some d) true ltac:(lia))). intros n2 j L2 Hj. apply cons_tidy; [exact Hj|]. intros m Lm. apply K. lia.
  - destruct O as (W & L & O). cbn [ord]. repeat (split; [assumption|]). apply IH; [lia|exact O].
Qed.
Lemma nuco_tidy b call : forall its n, (forall t m, (n <= m)%nat -> tidy b m (call t)) -> tidy b n (nuco call its).
Proof.
  induction its as [|t its IH]; intros n C; [apply stop_tidy|]. cbn [nuco]. intros h W L. apply sfirst_ord; [|apply (C t n (le_n _)); assumption]. intros m Lm. apply IH. intros t' m' Lm'. apply C. lia.
Qed.
Lemma transform_tidy b call t i n : (forall t i m, (i < m)%nat -> tidy b m (call t i)) -> transform_orderly b t -> (i < n)%nat -> tidy b n (transform_of call t i).
Proof.
  intros C T Hi. destruct t; cbn [transform_of transform_orderly] in *.
  - apply safe_tidy. apply T. exact Hi.
  - apply yield_tidy. exact Hi.
  - apply ask_tidy. intros n1 d L1. apply (act_tidy b n1 _ (fun _ _ => True)); [|intros n2 _ L2 _; apply yield_tidy; lia]. intros h W L. unfold set_desc. cbn [fst snd].
    split; [apply hwf_upd_f; [exact W|intros; cbn; auto]|]. unfold upd_f. rewrite upd_length. auto.
  - apply (act_tidy b n _ (fun _ _ => True)); [|intros n2 _ L2 _; apply yield_tidy; lia]. intros h W L. unfold set_vf. cbn [fst snd].
    split; [apply hwf_upd_f; [exact W|intros; cbn; auto]|]. unfold upd_f. rewrite upd_length. auto.
  - apply ask_tidy. intros n1 [|] L1; [apply yield_tidy; lia|apply stop_tidy].
  - destruct desc as [df|]; [|apply raise_tidy]. apply (act_tidy b n _ lt_all); [|intros n' l _ Hl; apply of_list_tidy; exact Hl]. intros h W L.
    destruct (from_re_wf h re gf df limit (finditer (h_string h i) (h_start h i) (h_stop h i)) W) as (W1 & L1 & F1). destruct (from_re _ _ _ _ _ _) as [h1 [r|e]]; unfold obind; cbn [fst snd] in *; [|right; auto].
    split; [exact W1|]. split; [exact L1|]. exact (F1 r eq_refl).
  - unfold split_transform. destruct (_ && _).
    + apply (act_tidy b n _ _ _ (clone_ok b n i _ _ _ _ Hi)). intros n' j _ Hj. apply yield_tidy. exact Hj.
    + intros h W L. apply split_loop_ord; [lia|constructor|apply (C splitter i n Hi); assumption].
  - apply ask_tidy. intros n1 a L1 h W L. apply invert_loop_ord; [lia|apply (C itor i n1); [lia|exact W|exact L]].
  - apply nuco_tidy. intros t m Lm. apply C. lia.
Qed.

(** ** connectors *)
Lemma remove_all_wf i : forall cs h, hwf h -> (i < length h)%nat -> hwf (fst (remove_all h i cs)) /\ length (fst (remove_all h i cs)) = length h.
Proof.
  induction cs as [|c cs IH]; intros h W Hi; cbn [remove_all]; [auto|]. destruct (kids_remove_inv h i c W Hi) as (W1 & L1 & _). unfold obind. destruct (kids_remove h i c) as [h1 [u|e]]; cbn [fst snd] in *; [|auto].
  destruct (IH h1 W1 ltac:(lia)) as [X1 X2]. split; [exact X1|lia].
Qed.
Lemma attach_method b k i cs n : (b = true -> k <> CAddHier) -> (i < n)%nat -> lt_all n cs -> method_ok b n (attach k i cs) (fun _ _ => True).
Proof.
  intros B Hi Hc h W L.
  assert (A : forall g, hwf g -> length g = length h -> hwf (fst (kids_add g i cs)) /\ (length h <= length (fst (kids_add g i cs)))%nat).
  { intros g Wg Lg. destruct (kids_add_inv g i cs Wg ltac:(lia)) as (X1 & X2 & _); [rewrite Lg; exact (lt_mono _ _ _ L Hc)|]. split; [exact X1|lia]. }
  assert (G : k <> CAddHier -> hwf (fst (attach k i cs h)) /\ (length h <= length (fst (attach k i cs h)))%nat).
  { intros Hk. destruct k; cbn [attach]; try (apply A; [exact W|reflexivity]); [congruence| |].
    - destruct (kids_del_slice_inv h i None None None W ltac:(lia)) as (W1 & L1 & _). unfold obind, kids_clear. destruct (kids_del_slice h i None None None) as [h1 [u|e]]; cbn [fst snd] in *; [apply A; assumption|split; [exact W1|lia]].
    - destruct (remove_all_wf i cs h W ltac:(lia)) as [X1 X2]. split; [exact X1|lia]. }
  assert (D : k = CAddHier \/ k <> CAddHier) by (destruct k; (left; reflexivity) || (right; discriminate)). destruct D as [->|Hk].
  - destruct b; [destruct (B eq_refl eq_refl)|]. cbn [attach]. destruct (add_hier _ None h i cs) as [h1 [[]|e]] eqn:E; cbn [fst snd]; [|left; reflexivity].
    destruct (accepted_all None _ i cs h h1 W ltac:(lia) (lt_mono _ _ _ L Hc) E) as (X1 & X2 & _). split; [exact X1|]. split; [lia|exact Logic.I].
  - destruct (G Hk) as [X1 X2]. destruct (snd (attach k i cs h)); [|right]; auto.
Qed.
Lemma flow_tidy b trav : (forall t i n, (i < n)%nat -> tidy b n (trav t i)) ->
  forall cons i n, (b = true -> Forall (fun c => c_kind c <> CAddHier) cons) -> (i < n)%nat -> tidy b n (flow trav cons i).
Proof.
  intros T. induction cons as [|c cons IH]; intros i n B Hi; [apply yield_tidy; exact Hi|]. cbn [flow].
  assert (B1 : b = true -> c_kind c <> CAddHier) by (intros Eb; specialize (B Eb); inversion B; assumption).
  assert (B2 : b = true -> Forall (fun c => c_kind c <> CAddHier) cons) by (intros Eb; specialize (B Eb); inversion B; assumption).
  apply ask_tidy. intros n1 [|] L1; [|apply IH; [exact B2|lia]].
  assert (G : forall k, (b = true -> k <> CAddHier) -> tidy b n1 (scollect (trav (c_itor c) i) [] (fun cs => act (attach k i cs) (fun _ => flow trav cons i)))).
  { intros k Bk h W L. apply scollect_ord; [|constructor|apply (T (c_itor c) i n1); [lia|exact W|exact L]]. intros m l Lm Hl.
    apply (act_tidy b m _ _ _ (attach_method b k i l m Bk ltac:(lia) Hl)). intros n2 _ L2 _. apply IH; [exact B2|lia]. }
  destruct (c_kind c) eqn:Ek; try (apply G; exact B1).
  - apply T. lia.
  - intros h W L. apply sfor_ord; [|apply (T (c_itor c) i n1); [lia|exact W|exact L]]. intros m j Lm Hj. apply IH; [exact B2|exact Hj].
  - intros h W L. apply sdrop_ord; [|apply (T (c_itor c) i n1); [lia|exact W|exact L]]. intros m Lm. apply IH; [exact B2|lia].
Qed.
Lemma traverse_tidy b P : prog_orderly b P -> (b = true -> no_hierarchical P) -> forall fuel t i n, (i < n)%nat -> tidy b n (traverse fuel P t i).
Proof.
  intros HP B. induction fuel as [|m IH]; intros t i n Hi; [apply raise_tidy|]. cbn [traverse]. destruct (HP t) as [H1 H2]. apply post_tidy; [exact H2|]. intros h W L. apply sfor_ord.
  - intros m' j Lm Hj. apply flow_tidy; [intros t' i' n' Hi'; apply IH; exact Hi'|intros Eb; apply (B Eb)|exact Hj].
  - apply (transform_tidy b _ (it_tr (P t)) i n); [|exact H1|exact Hi|exact W|exact L]. intros t' i' m' Hi'. apply (act_tidy b m' _ _ _ (clone_ok b m' i' _ _ _ _ Hi')). intros n' j _ Hj. apply IH. exact Hj.
Qed.
Theorem call_orderly b P fuel t i h : prog_orderly b P -> (b = true -> no_hierarchical P) -> hwf h -> (i < length h)%nat -> orderly b (call fuel P t i) h.
Proof.
  intros HP B W Hi. apply orderly_ord. unfold call. eapply (act_tidy b (length h)); [exact (clone_ok b (length h) i _ _ _ _ Hi)| |exact W|apply le_n]. intros n j _ Hj. apply traverse_tidy; assumption.
Qed.
