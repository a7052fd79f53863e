(** Proofs: pipelines leave existing objects alone (C52). *)
From Verif Require Export SpecArbor HeapFacts2 CombinFacts HierHeap6.

Lemma harmless_refl n h : harmless n h h.
Proof. intros A. auto. Qed.
Lemma harmless_trans n h1 h2 h3 : harmless n h1 h2 -> harmless n h2 h3 -> harmless n h1 h3.
Proof. intros A B C. destruct (A C) as (A1 & A2 & A3). destruct (B A1) as (B1 & B2 & B3). split; [exact B1|]. split; [lia|]. intros j Hj. rewrite B3, A3 by exact Hj. reflexivity. Qed.

Definition ge_all (n : nat) (l : list nat) : Prop := Forall (fun i => (n <= i)%nat) l.
Lemma ge_app n l r : ge_all n l -> ge_all n r -> ge_all n (l ++ r).
Proof. intros A B. apply Forall_app. auto. Qed.

Lemma upd_harmless n h i g : (n <= i)%nat ->
  (sealed n h -> (forall c, In c (n_kids (g (nd h i))) -> (n <= c)%nat) /\ (forall p, n_par (g (nd h i)) = Some p -> (n <= p)%nat)) -> harmless n h (upd h i g).
Proof.
  intros Hi Hg A. pose proof A as [A1 A2]. specialize (Hg A). split; [|split].
  - split; [rewrite upd_length; exact A1|]. intros j Hj. rewrite nd_upd. destruct (_ && _) eqn:E; [|apply A2; exact Hj].
    apply andb_true_iff in E. destruct E as [E _]. apply Nat.eqb_eq in E. subst j. exact Hg.
  - rewrite upd_length. lia.
  - intros j Hj. rewrite nd_upd. destruct (Nat.eqb_spec j i); [lia|]. reflexivity.
Qed.
Lemma sealed_kids n h p : sealed n h -> (n <= p)%nat -> ge_all n (n_kids (nd h p)).
Proof. intros [_ A] Hp. apply Forall_forall. intros c Hc. exact (proj1 (A p Hp) c Hc). Qed.
Lemma set_par_harmless n h c p : (n <= c)%nat -> (match p with Some q => (n <= q)%nat | None => True end) -> harmless n h (set_par h c p).
Proof.
  intros Hc Hp. apply upd_harmless; [exact Hc|]. intros A. cbn [n_kids n_par]. split; [|intros q ->; exact Hp]. intros x Hx. pose proof (sealed_kids n h c A Hc) as F. unfold ge_all in F; rewrite Forall_forall in F. auto.
Qed.
Lemma set_kids_harmless n h p ks : (n <= p)%nat -> (sealed n h -> ge_all n ks) -> harmless n h (set_kids h p ks).
Proof.
  intros Hp Hk. apply upd_harmless; [exact Hp|]. intros A. cbn [n_kids n_par]. split; [|intros q Hq; exact (proj2 (proj2 A p Hp) q Hq)]. intros x Hx. pose proof (Hk A) as F. unfold ge_all in F; rewrite Forall_forall in F. auto.
Qed.
Lemma upd_f_harmless n h i g : (n <= i)%nat -> harmless n h (upd_f h i g).
Proof. intros Hi. apply upd_harmless; [exact Hi|]. intros [_ A]. cbn [n_kids n_par]. exact (A i Hi). Qed.
Lemma new_harmless n h f : harmless n h (h ++ [Nd f None []]).
Proof.
  intros [A1 A2]. split; [|split].
  - split; [rewrite app_length; lia|]. intros j Hj. rewrite nd_app. destruct (Nat.eqb_spec j (length h)); [cbn; split; [intros c []|discriminate]|apply A2; exact Hj].
  - rewrite app_length. lia.
  - intros j Hj. rewrite nd_app. destruct (Nat.eqb_spec j (length h)); [lia|reflexivity].
Qed.
Lemma In_insert_at {A} (x : A) i y l : In x (insert_at i y l) -> x = y \/ In x l.
Proof. unfold insert_at. rewrite in_app_iff. cbn [In]. intros [H|[<-|H]]; auto; right; [rewrite <- (firstn_skipn i l)|rewrite <- (firstn_skipn i l)]; rewrite in_app_iff; auto. Qed.
(** the heap after a call, whatever its result *)
Lemma obind_harmless {A B} n h (x : out A) (f : heap -> A -> out B) : harmless n h (fst x) -> (sealed n h -> forall a, snd x = Ok a -> harmless n (fst x) (fst (f (fst x) a))) -> harmless n h (fst (obind x f)).
Proof. intros X F. unfold obind. destruct x as [h1 [a|e]]; cbn [fst snd] in *; [|exact X]. intros A0. exact (harmless_trans n h h1 _ X (F A0 a eq_refl) A0). Qed.

Lemma attach_one_harmless n h p c i : (n <= p)%nat -> (n <= c)%nat -> harmless n h (set_kids (set_par h c (Some p)) p (insert_at i c (n_kids (nd (set_par h c (Some p)) p)))).
Proof.
  intros Hp Hc. apply (harmless_trans n h (set_par h c (Some p))); [apply set_par_harmless; assumption|]. apply set_kids_harmless; [exact Hp|].
  intros A. apply Forall_forall. intros x Hx. apply In_insert_at in Hx. destruct Hx as [->|Hx]; [exact Hc|]. pose proof (sealed_kids n _ p A Hp) as F. unfold ge_all in F; rewrite Forall_forall in F. auto.
Qed.
Lemma kids_add1_harmless n h p c : (n <= p)%nat -> (n <= c)%nat -> harmless n h (fst (kids_add1 h p c)).
Proof.
  intros Hp Hc. unfold kids_add1. destruct (n_par (nd h c)); [apply harmless_refl|]. destruct (bfind_start _ _) as [f i]. destruct f; [apply harmless_refl|]. destruct (negb _); [apply harmless_refl|]. destruct (negb _); [apply harmless_refl|].
  cbn [fst]. apply attach_one_harmless; assumption.
Qed.
Lemma kids_add_harmless n p : forall cs h, (n <= p)%nat -> ge_all n cs -> harmless n h (fst (kids_add h p cs)).
Proof.
  induction cs as [|c cs IH]; intros h Hp Hc; [apply harmless_refl|]. inversion Hc; subst. cbn [kids_add]. apply obind_harmless; [apply kids_add1_harmless; assumption|]. intros _ a _. apply IH; assumption.
Qed.
Lemma clear_pars_harmless n : forall cs h, ge_all n cs -> harmless n h (clear_pars h cs).
Proof.
  induction cs as [|c cs IH]; intros h Hc; [apply harmless_refl|]. inversion Hc; subst. unfold clear_pars. cbn [fold_left]. apply (harmless_trans n h (set_par h c None)); [apply set_par_harmless; auto|]. apply IH. assumption.
Qed.
Lemma In_drop_positions {A} (x : A) pos : forall l k, In x (drop_positions k pos l) -> In x l.
Proof. induction l as [|y l IH]; intros k; cbn [drop_positions]; [auto|]. destruct (existsb _ _); cbn [In]; intros H; [right; exact (IH _ H)|destruct H as [->|H]; [auto|right; exact (IH _ H)]]. Qed.
Lemma kids_del_at_harmless n h p pos : (n <= p)%nat -> (forall k, In k pos -> (k < length (n_kids (nd h p)))%nat) -> harmless n h (kids_del_at h p pos).
Proof.
  intros Hp Hk A. unfold kids_del_at. apply (harmless_trans n h (clear_pars h (map (fun k => nth k (n_kids (nd h p)) 0%nat) pos))); [| |exact A].
  - apply clear_pars_harmless. apply Forall_forall. intros x Hx. apply in_map_iff in Hx. destruct Hx as (k & <- & Hin). pose proof (sealed_kids n h p A Hp) as F. unfold ge_all in F; rewrite Forall_forall in F. apply F. apply nth_In. apply Hk. exact Hin.
  - apply set_kids_harmless; [exact Hp|]. intros A'. apply Forall_forall. intros x Hx. apply In_drop_positions in Hx. pose proof (sealed_kids n _ p A' Hp) as F. unfold ge_all in F; rewrite Forall_forall in F. auto.
Qed.
Lemma py_pos_lt len k i : py_pos len k = Ok i -> (i < len)%nat.
Proof. unfold py_pos. destruct (_ && _) eqn:E; [|discriminate]. intros [= <-]. apply andb_true_iff in E. rewrite Z.leb_le, Z.ltb_lt in E. destruct (k <? 0); lia. Qed.
Lemma kids_del_int_harmless n h p k : (n <= p)%nat -> harmless n h (fst (kids_del_int h p k)).
Proof.
  intros Hp. unfold kids_del_int. destruct (py_pos _ k) as [i|e] eqn:E; [|apply harmless_refl]. apply kids_del_at_harmless; [exact Hp|]. intros j [<-|[]]. exact (py_pos_lt _ _ _ E).
Qed.
Lemma kids_del_slice_harmless n h p a b st : (n <= p)%nat -> harmless n h (fst (kids_del_slice h p a b st)).
Proof.
  intros Hp. unfold kids_del_slice. destruct (slice_positions _ _ _ _) as [pos|e] eqn:E; [|apply harmless_refl]. apply kids_del_at_harmless; [exact Hp|]. intros k Hk. apply slice_positions_bound in E. rewrite Forall_forall in E. auto.
Qed.
Lemma kids_clear_harmless n h p : (n <= p)%nat -> harmless n h (fst (kids_clear h p)).
Proof. apply kids_del_slice_harmless. Qed.
Lemma kids_remove_harmless n h p c : (n <= p)%nat -> harmless n h (fst (kids_remove h p c)).
Proof. intros Hp. unfold kids_remove. destruct (bfind_start _ _) as [f i]. destruct (_ && _); [apply kids_del_int_harmless; exact Hp|apply harmless_refl]. Qed.
Lemma remove_all_harmless n p : forall cs h, (n <= p)%nat -> harmless n h (fst (remove_all h p cs)).
Proof. induction cs as [|c cs IH]; intros h Hp; [apply harmless_refl|]. cbn [remove_all]. apply obind_harmless; [apply kids_remove_harmless; exact Hp|]. intros _ a _. apply IH; exact Hp. Qed.
Lemma kids_pop_harmless n h p k : (n <= p)%nat -> harmless n h (fst (kids_pop h p k)) /\ (sealed n h -> forall d, snd (kids_pop h p k) = Ok d -> (n <= d)%nat).
Proof.
  intros Hp. unfold kids_pop. destruct (py_pos _ k) as [i|e] eqn:E; [|split; [apply harmless_refl|discriminate]]. split.
  - apply obind_harmless; [apply kids_del_int_harmless; exact Hp|]. intros. apply harmless_refl.
  - intros A d. unfold obind. destruct (snd (kids_del_int h p k)); [|discriminate]. cbn [snd]. intros [= <-]. pose proof (sealed_kids n h p A Hp) as F. unfold ge_all in F; rewrite Forall_forall in F. apply F. apply nth_In. exact (py_pos_lt _ _ _ E).
Qed.
Lemma map_clone_harmless n cl : (forall h i, harmless n h (fst (cl h i)) /\ (sealed n h -> forall j, snd (cl h i) = Ok j -> (n <= j)%nat)) ->
  forall l h, harmless n h (fst (map_clone cl h l)) /\ (sealed n h -> forall cs, snd (map_clone cl h l) = Ok cs -> ge_all n cs).
Proof.
  intros Hc. induction l as [|x l IH]; intros h.
  - split; [apply harmless_refl|]. intros _ cs [= <-]. constructor.
  - cbn [map_clone]. fold (map_clone cl). destruct (Hc h x) as [C1 C2]. destruct (cl h x) as [h1 [c|e]] eqn:E; unfold obind; cbn [fst snd] in *; [|split; [exact C1|discriminate]].
    destruct (IH h1) as [I1 I2]. destruct (map_clone cl h1 l) as [h2 [cs|e]]; cbn [fst snd] in *; (split; [exact (harmless_trans n _ _ _ C1 I1)|]); [|discriminate].
    intros A ds [= <-]. destruct (C1 A) as (A1 & _). constructor; [exact (C2 A c eq_refl)|exact (I2 A1 cs eq_refl)].
Qed.
Lemma clone_harmless n : forall fuel h i a b d k, harmless n h (fst (clone_h fuel h i a b d k)) /\ (sealed n h -> forall j, snd (clone_h fuel h i a b d k) = Ok j -> (n <= j)%nat).
Proof.
  induction fuel as [|m IH]; intros h i a b d k; [split; [apply harmless_refl|discriminate]|]. cbn [clone_h]. unfold new_node, obind at 1 4. cbn [fst snd]. set (h1 := h ++ _).
  assert (H1 : harmless n h h1) by apply new_harmless. destruct k.
  - pose proof (map_clone_harmless n (fun h c => clone_h m h c None None None true) (fun h i => IH h i None None None true) (n_kids (nd h i)) h1) as [M1 M2].
    destruct (map_clone _ h1 _) as [h2 [cs|e]]; unfold obind; cbn [fst snd] in *; [|split; [exact (harmless_trans n _ _ _ H1 M1)|discriminate]].
    assert (K : sealed n h -> harmless n h2 (fst (kids_add h2 (length h) cs))) by (intros A; destruct (H1 A) as (A1 & _); apply kids_add_harmless; [exact (proj1 A)|exact (M2 A1 cs eq_refl)]).
    destruct (kids_add h2 (length h) cs) as [h3 [u|e]]; cbn [fst snd] in *.
    + split; [intros A; exact (harmless_trans n _ _ _ H1 (harmless_trans n _ _ _ M1 (K A)) A)|]. intros A j [= <-]. exact (proj1 A).
    + split; [intros A; exact (harmless_trans n _ _ _ H1 (harmless_trans n _ _ _ M1 (K A)) A)|]. discriminate.
  - cbn [fst snd]. split; [exact H1|]. intros A j [= <-]. exact (proj1 A).
Qed.
Lemma firstn_skipn_ge n a b l : ge_all n l -> ge_all n (firstn a (skipn b l)).
Proof. unfold ge_all. rewrite !Forall_forall. intros H x Hx. apply H. rewrite <- (firstn_skipn b l), in_app_iff. right. rewrite <- (firstn_skipn a (skipn b l)), in_app_iff. auto. Qed.
Lemma add_hier1_harmless n key : forall fuel h p c, (n <= p)%nat -> (n <= c)%nat -> harmless n h (fst (add_hier1 fuel key h p c)).
Proof.
  induction fuel as [|m IH]; intros h p c Hp Hc; [apply harmless_refl|]. cbn [add_hier1]. destruct (n_par (nd h c)); [apply harmless_refl|].
  destruct (n_kids (nd h p)) as [|k0 ks0] eqn:Ek.
  - destruct (set_parent_ok h c p); [|apply harmless_refl]. cbn [fst app]. apply (harmless_trans n h (set_par h c (Some p))); [apply set_par_harmless; assumption|]. apply set_kids_harmless; [exact Hp|]. intros _. constructor; [exact Hc|constructor].
  - apply obind_harmless.
    + generalize (length (n_kids (nd h c))). clear Ek. intros q. revert h. induction q as [|q IHq]; intros h.
      * destruct (n_kids (nd h c)); apply harmless_refl.
      * destruct (n_kids (nd h c)) as [|x0 xs0] eqn:Ekc; [apply harmless_refl|]. destruct (kids_pop_harmless n h c (-1) Hc) as [P1 P2]. apply obind_harmless; [exact P1|]. intros A d Ed. specialize (P2 A d Ed). apply obind_harmless; [apply IH; assumption|]. intros _ u _. apply IHq.
    + clear Ek. intros _ u _. match goal with |- harmless n ?x _ => generalize x end. clear h. intros h.
      destruct (hier_action _ _ _ _ _) as [i| |i j] eqn:Ea; [|apply harmless_refl|].
      * intros A. apply IH; [|exact Hc|exact A]. pose proof (sealed_kids n h p A Hp) as F. unfold ge_all in F; rewrite Forall_forall in F. apply F. apply nth_In.
        apply action_bounds in Ea; unfold starts_of, stops_of in *; rewrite ?map_length in *; auto.
      * apply obind_harmless.
        -- destruct (i =? j)%nat; [apply harmless_refl|]. intros A. revert A. apply obind_harmless; [apply kids_del_slice_harmless; exact Hp|]. intros A v _. apply kids_add_harmless; [exact Hc|]. apply firstn_skipn_ge. apply sealed_kids; assumption.
        -- intros A v _. match goal with |- harmless n ?x _ => generalize x end. intros h1.
           assert (K : harmless n h1 (set_kids h1 p (insert_at i c (n_kids (nd h1 p))))).
           { apply set_kids_harmless; [exact Hp|]. intros A'. apply Forall_forall. intros x Hx. apply In_insert_at in Hx. destruct Hx as [->|Hx]; [exact Hc|]. pose proof (sealed_kids n _ p A' Hp) as F. unfold ge_all in F; rewrite Forall_forall in F. auto. }
           destruct (set_parent_ok _ c p); [|exact K]. apply (harmless_trans n _ _ _ K). apply set_par_harmless; assumption.
Qed.
Lemma add_hier_harmless n fuel key p : forall cs h, (n <= p)%nat -> ge_all n cs -> harmless n h (fst (add_hier fuel key h p cs)).
Proof.
  induction cs as [|c cs IH]; intros h Hp Hc; [apply harmless_refl|]. inversion Hc; subst. cbn [add_hier]. apply obind_harmless; [apply add_hier1_harmless; assumption|]. intros _ a _. apply IH; assumption.
Qed.
Lemma pop_until_ge n h c : forall st, ge_all n st -> ge_all n (pop_until h c st).
Proof. induction st as [|p st IH]; intros H; [exact H|]. cbn [pop_until]. destruct (_ || _); [apply IH; inversion H; assumption|exact H]. Qed.
Lemma fm_loop_harmless n s df : forall caps h st roots, ge_all n st -> ge_all n roots ->
  harmless n h (fst (fm_loop h s df st roots caps)) /\ (sealed n h -> forall l, snd (fm_loop h s df st roots caps) = Ok l -> ge_all n l).
Proof.
  induction caps as [|[sp gk] caps IH]; intros h st roots Hs Hr.
  - split; [apply harmless_refl|]. intros _ l [= <-]. exact Hr.
  - cbn [fm_loop]. unfold new_str, new_node, obind at 1 3. cbn [fst snd]. set (h1 := h ++ _). assert (H1 : harmless n h h1) by apply new_harmless.
    pose proof (pop_until_ge n h1 (length h) st Hs) as Hp.
    destruct (pop_until h1 (length h) st) as [|p st'] eqn:Ep.
    + assert (G : sealed n h -> harmless n h1 (fst (fm_loop h1 s df [length h] (roots ++ [length h]) caps)) /\ (sealed n h1 -> forall l, snd (fm_loop h1 s df [length h] (roots ++ [length h]) caps) = Ok l -> ge_all n l)).
      { intros [A _]. apply IH; [repeat constructor; exact A|apply ge_app; [exact Hr|repeat constructor; exact A]]. }
      split; [intros A; exact (harmless_trans n _ _ _ H1 (proj1 (G A)) A)|]. intros A. apply (proj2 (G A)). apply (H1 A).
    + assert (K : sealed n h -> harmless n h1 (fst (kids_add h1 p [length h]))) by (intros [A _]; apply kids_add_harmless; [inversion Hp; assumption|repeat constructor; exact A]).
      destruct (kids_add h1 p [length h]) as [h2 [u|e]]; unfold obind; cbn [fst snd] in *.
      * assert (G : sealed n h -> harmless n h2 (fst (fm_loop h2 s df (length h :: p :: st') roots caps)) /\ (sealed n h2 -> forall l, snd (fm_loop h2 s df (length h :: p :: st') roots caps) = Ok l -> ge_all n l)).
        { intros [A _]. apply IH; [constructor; assumption|exact Hr]. }
        split; [intros A; exact (harmless_trans n _ _ _ H1 (harmless_trans n _ _ _ (K A) (proj1 (G A))) A)|]. intros A. apply (proj2 (G A)). apply (K A). apply (H1 A).
      * split; [intros A; exact (harmless_trans n _ _ _ H1 (K A) A)|discriminate].
Qed.
Lemma fr_loop_harmless n keys df limit : forall ms h rv k, ge_all n rv ->
  harmless n h (fst (fr_loop h keys df limit rv k ms)) /\ (sealed n h -> forall r, snd (fr_loop h keys df limit rv k ms) = Ok r -> ge_all n (fst r)).
Proof.
  induction ms as [|m ms IH]; intros h rv k Hr.
  - split; [apply harmless_refl|]. intros _ r [= <-]. exact Hr.
  - cbn [fr_loop]. unfold from_match. pose proof (fm_loop_harmless n (rm_string m) (df m) (sort_caps (captures m (keys m))) h [] [] (Forall_nil _) (Forall_nil _)) as [M1 M2].
    destruct (fm_loop h _ _ _ _ _) as [h1 [l|e]]; unfold obind; cbn [fst snd] in *; [|split; [exact M1|discriminate]].
    assert (G : sealed n h -> harmless n h1 (fst (fr_loop h1 keys df limit (rv ++ l) (S k) ms)) /\ (sealed n h1 -> forall r, snd (fr_loop h1 keys df limit (rv ++ l) (S k) ms) = Ok r -> ge_all n (fst r))).
    { intros A. apply IH. apply ge_app; [exact Hr|exact (M2 A l eq_refl)]. }
    assert (G' : harmless n h (fst (fr_loop h1 keys df limit (rv ++ l) (S k) ms)) /\ (sealed n h -> forall r, snd (fr_loop h1 keys df limit (rv ++ l) (S k) ms) = Ok r -> ge_all n (fst r))).
    { split; [intros A; exact (harmless_trans n _ _ _ M1 (proj1 (G A)) A)|]. intros A. apply (proj2 (G A)). apply (M1 A). }
    destruct limit as [z|]; [|exact G']. destruct (z <=? _); [|exact G']. cbn [fst snd]. split; [exact M1|]. intros A r [= <-]. cbn [fst]. apply ge_app; [exact Hr|exact (M2 A l eq_refl)].
Qed.
Lemma firstn_ge n a l : ge_all n l -> ge_all n (firstn a l).
Proof. intros H. apply (firstn_skipn_ge n a 0 l H). Qed.
Lemma from_re_harmless n h re gf df limit ms : harmless n h (fst (from_re h re gf df limit ms)) /\ (sealed n h -> forall r, snd (from_re h re gf df limit ms) = Ok r -> ge_all n (fst r)).
Proof.
  unfold from_re. destruct (match gf with GFKeys l => _ | GFPred _ => _ end); [|split; [apply harmless_refl|discriminate]].
  pose proof (fr_loop_harmless n (fun m => match gf with GFKeys l => l | GFPred p => gk_from_filter (gk_preferred re) (p m) end) df limit ms h [] 0 (Forall_nil _)) as [M1 M2].
  destruct (fr_loop h _ df limit [] 0 ms) as [h1 [r|e]]; unfold obind; cbn [fst snd] in *; (split; [exact M1|]); [|discriminate].
  intros A r' [= <-]. cbn [fst]. specialize (M2 A r eq_refl). destruct limit as [z|]; [|exact M2]. destruct (0 <? z); [apply firstn_ge; exact M2|constructor].
Qed.

(** ** generators *)
Definition call_ok {A} (n : nat) (m : heap -> out A) (Q : A -> Prop) : Prop :=
  forall h, harmless n h (fst (m h)) /\ (sealed n h -> forall a, snd (m h) = Ok a -> Q a).
Lemma act_stays {A} n (m : heap -> out A) (Q : A -> Prop) k : call_ok n m Q -> (forall a, Q a -> stays n (k a)) -> stays n (act m k).
Proof.
  intros M K. unfold act. cbn [stays]. intros h. destruct (M h) as [M1 M2]. split; [exact M1|]. intros A0. destruct (snd (m h)) as [a|e]; [|exact I]. apply K. apply M2; auto.
Qed.
Lemma ask_stays {A} n (m : heap -> res A) k : (forall a, stays n (k a)) -> stays n (ask m k).
Proof. intros K. apply (act_stays n _ (fun _ => True)); [intros h; split; [apply harmless_refl|auto]|auto]. Qed.
Lemma of_list_stays n l : ge_all n l -> stays n (of_list l).
Proof. induction 1; cbn; auto. Qed.
Lemma sapp_stays n b : stays n b -> forall a, stays n a -> stays n (sapp a b).
Proof.
  intros B. induction a as [|e|i k IH|f k IH]; cbn; auto; [intros [H1 H2]; auto|]. intros H h. destruct (H h) as [H1 H2]. split; [exact H1|]. intros A. apply IH. apply H2. exact A.
Qed.
Lemma sfor_stays n f : (forall i, (n <= i)%nat -> stays n (f i)) -> forall s, stays n s -> stays n (sfor s f).
Proof.
  intros F. induction s as [|e|i k IH|g k IH]; cbn; auto; [intros [H1 H2]; apply sapp_stays; auto|]. intros H h. destruct (H h) as [H1 H2]. split; [exact H1|]. intros A. apply IH. apply H2. exact A.
Qed.
Lemma scollect_stays n k : (forall l, ge_all n l -> stays n (k l)) -> forall s acc, ge_all n acc -> stays n s -> stays n (scollect s acc k).
Proof.
  intros K. induction s as [|e|i k' IH|g k' IH]; intros acc Ha; cbn; auto.
  - intros [H1 H2]. apply IH; [apply ge_app; [exact Ha|repeat constructor; exact H1]|exact H2].
  - intros H h. destruct (H h) as [H1 H2]. split; [exact H1|]. intros A. apply IH; [exact Ha|]. apply H2. exact A.
Qed.
Lemma sdrop_stays n k : stays n k -> forall s, stays n s -> stays n (sdrop s k).
Proof.
  intros K. induction s as [|e|i k' IH|g k' IH]; cbn; auto; [intros [H1 H2]; auto|]. intros H h. destruct (H h) as [H1 H2]. split; [exact H1|]. intros A. apply IH. apply H2. exact A.
Qed.
Lemma sfirst_stays n k : stays n k -> forall s, stays n s -> stays n (sfirst s k).
Proof.
  intros K. induction s as [|e|i k' IH|g k' IH]; cbn; auto. intros H h. destruct (H h) as [H1 H2]. split; [exact H1|]. intros A. apply IH. apply H2. exact A.
Qed.
Lemma clone_of_ok n i a b d k : call_ok n (clone_of i a b d k) (fun j => (n <= j)%nat).
Proof. intros h. apply clone_harmless. Qed.
Lemma yield_stays n j : (n <= j)%nat -> stays n (Yield j Stop).
Proof. cbn. auto. Qed.

Lemma join_ok n l d : call_ok n (fun h => join_h h l d) (fun j => (n <= j)%nat).
Proof.
  intros h. unfold join_h. destruct (ito_join _ d) as [f|e]; cbn [fst snd new_node]; [|split; [apply harmless_refl|discriminate]]. split; [apply new_harmless|]. intros [A _] j [= <-]. exact A.
Qed.
Lemma windowed_stays n size pred d : forall s w, ge_all n w -> stays n s -> stays n (windowed size pred d w s).
Proof.
  induction s as [|e|i k IH|g k IH]; intros w Hw; cbn [windowed].
  - intros _. apply of_list_stays. exact Hw.
  - auto.
  - cbn [stays]. intros [H1 H2]. assert (Hw' : ge_all n (w ++ [i])) by (apply ge_app; [exact Hw|repeat constructor; exact H1]). destruct (_ =? _)%nat; [|apply IH; assumption].
    apply ask_stays. intros [|].
    + apply (act_stays n _ _ _ (join_ok n _ d)). intros j Hj. cbn [stays]. split; [exact Hj|]. apply IH; [constructor|exact H2].
    + destruct (w ++ [i]) as [|x w'] eqn:Ew; [exact I|]. inversion Hw'; subst. cbn [stays]. split; [assumption|]. apply IH; assumption.
  - cbn [stays]. intros H h. destruct (H h) as [H1 H2]. split; [exact H1|]. intros A. apply IH; [exact Hw|]. apply H2. exact A.
Qed.
Lemma stacked_stays n reduce push pop : (forall l h, ge_all n l -> harmless n h (fst (reduce l h)) /\ (sealed n h -> forall j, snd (reduce l h) = Ok j -> (n <= j)%nat)) ->
  forall s st, ge_all n st -> stays n s -> stays n (stacked reduce push pop st s).
Proof.
  intros R. assert (R' : forall l, ge_all n l -> call_ok n (reduce l) (fun j => (n <= j)%nat)) by (intros l Hl h; apply R; exact Hl).
  induction s as [|e|i k IH|g k IH]; intros st Hst; cbn [stacked].
  - intros _. destruct st as [|x st]; [exact I|]. apply (act_stays n _ _ _ (R' _ Hst)). intros j Hj. apply yield_stays. exact Hj.
  - auto.
  - cbn [stays]. intros [H1 H2].
    assert (S0 : stays n (ask (fun h => push h [] i) (fun b : bool => if b then stacked reduce push pop [i] k else Yield i (stacked reduce push pop [] k)))).
    { apply ask_stays. intros [|]; [apply IH; [repeat constructor; exact H1|exact H2]|]. cbn [stays]. split; [exact H1|]. apply IH; [constructor|exact H2]. }
    destruct st as [|x st]; [exact S0|]. assert (Hs' : ge_all n ((x :: st) ++ [i])) by (apply ge_app; [exact Hst|repeat constructor; exact H1]).
    destruct pop as [p|]; [|apply IH; assumption]. apply ask_stays. intros [|]; [|apply IH; assumption]. apply (act_stays n _ _ _ (R' _ Hst)). intros j Hj. cbn [stays]. split; [exact Hj|exact S0].
  - cbn [stays]. intros H h. destruct (H h) as [H1 H2]. split; [exact H1|]. intros A. apply IH; [exact Hst|]. apply H2. exact A.
Qed.
Lemma post_stays_ok n p s : post_stays n p -> stays n s -> stays n (run_post p s).
Proof.
  destruct p as [|size pr d|r pu po|f]; cbn [run_post post_stays]; intros P S; auto.
  - apply windowed_stays; [constructor|exact S].
  - apply stacked_stays; [intros l h Hl; apply P; exact Hl|constructor|exact S].
Qed.
Lemma split_clone_ok n i d ab : call_ok n (split_clone i d ab) (ge_all n).
Proof.
  intros h. unfold split_clone. destruct (_ =? _); [split; [apply harmless_refl|intros _ l [= <-]; constructor]|].
  destruct (clone_of_ok n i (Some (fst ab)) (Some (snd ab)) (Some d) false h) as [C1 C2]. destruct (clone_of _ _ _ _ _ h) as [h1 [j|e]]; unfold obind; cbn [fst snd] in *; (split; [exact C1|]); [|discriminate].
  intros A l [= <-]. repeat constructor. exact (C2 A j eq_refl).
Qed.
Lemma split_end_stays n br z d i p rv : ge_all n rv -> stays n (split_end br z d i p rv).
Proof.
  intros Hr. unfold split_end.
  assert (G : forall f, stays n (act (fun h => split_clone i d (f h) h) (fun l => of_list (rv ++ l)))).
  { intros f. apply (act_stays n _ (ge_all n)); [intros h; apply split_clone_ok|]. intros l Hl. apply of_list_stays. apply ge_app; assumption. }
  destruct p as [p|]; [destruct br; (apply G || apply of_list_stays; exact Hr)|]. destruct (_ && _); [|apply of_list_stays; exact Hr].
  apply (act_stays n _ _ _ (clone_of_ok n i None None (Some d) false)). intros j Hj. apply of_list_stays. apply ge_app; [exact Hr|repeat constructor; exact Hj].
Qed.
Lemma itor_split_loop_stays n limit br z d i : forall s count p rv, ge_all n rv -> stays n s -> stays n (itor_split_loop limit br z d i count p rv s).
Proof.
  induction s as [|e|cur k IH|g k IH]; intros count p rv Hr; cbn [itor_split_loop].
  - intros _. apply split_end_stays. exact Hr.
  - auto.
  - cbn [stays]. intros [H1 H2]. destruct (under_limit limit count); [|apply split_end_stays; exact Hr].
    apply (act_stays n _ (ge_all n)); [|intros l Hl; apply IH; [apply ge_app; assumption|exact H2]]. intros h.
    destruct (split_clone_ok n i d (split_piece br h i p cur) h) as [C1 C2]. destruct (split_clone i d _ h) as [h1 [l|e]]; unfold obind; cbn [fst snd] in *; (split; [exact C1|]); [|discriminate].
    intros A l' [= <-]. apply ge_app; [exact (C2 A l eq_refl)|]. destruct br; try constructor. destruct (_ <? _); repeat constructor. exact H1.
  - cbn [stays]. intros H h. destruct (H h) as [H1 H2]. split; [exact H1|]. intros A. apply IH; [exact Hr|]. apply H2. exact A.
Qed.
Lemma invert_loop_stays n d i : forall s start last, stays n s -> stays n (invert_loop d i start last s).
Proof.
  induction s as [|e|b k IH|g k IH]; intros start last; cbn [invert_loop].
  - intros _. apply ask_stays. intros [|].
    + apply (act_stays n _ _ _ (clone_of_ok n _ _ _ _ _)). intros j Hj. apply yield_stays. exact Hj.
    + destruct last as [b|]; [|exact I]. apply ask_stays. intros ab. destruct (_ <? _); [|exact I]. apply (act_stays n _ _ _ (clone_of_ok n _ _ _ _ _)). intros j Hj. apply yield_stays. exact Hj.
  - auto.
  - cbn [stays]. intros [H1 H2]. apply ask_stays. intros a. destruct (start <? a).
    + apply (act_stays n _ _ _ (clone_of_ok n _ _ _ _ _)). intros j Hj. cbn [stays]. split; [exact Hj|]. apply ask_stays. intros z. apply IH. exact H2.
    + apply ask_stays. intros z. apply IH. exact H2.
  - cbn [stays]. intros H h. destruct (H h) as [H1 H2]. split; [exact H1|]. intros A. apply IH. apply H2. exact A.
Qed.
Lemma nuco_stays n call : (forall t, stays n (call t)) -> forall its, stays n (nuco call its).
Proof. intros C. induction its as [|t its IH]; [exact I|]. cbn [nuco]. apply sfirst_stays; auto. Qed.
Lemma transform_ok n call t i : (forall t i, stays n (call t i)) -> transform_stays n t -> (n <= i)%nat -> stays n (transform_of call t i).
Proof.
  intros C T Hi. destruct t; cbn [transform_of transform_stays] in *; auto.
  - apply yield_stays. exact Hi.
  - apply ask_stays. intros d. apply (act_stays n _ (fun _ => True)); [|intros _ _; apply yield_stays; exact Hi]. intros h. split; [apply upd_f_harmless; exact Hi|auto].
  - apply (act_stays n _ (fun _ => True)); [|intros _ _; apply yield_stays; exact Hi]. intros h. split; [apply upd_f_harmless; exact Hi|auto].
  - apply ask_stays. intros [|]; [apply yield_stays; exact Hi|exact I].
  - destruct desc as [df|]; [|exact I]. apply (act_stays n _ (ge_all n)); [|intros l Hl; apply of_list_stays; exact Hl]. intros h.
    destruct (from_re_harmless n h re gf df limit (finditer (h_string h i) (h_start h i) (h_stop h i))) as [F1 F2]. destruct (from_re _ _ _ _ _ _) as [h1 [r|e]]; unfold obind; cbn [fst snd] in *; (split; [exact F1|]); [|discriminate].
    intros A l [= <-]. exact (F2 A r eq_refl).
  - unfold split_transform. destruct (_ && _); [|apply itor_split_loop_stays; [constructor|apply C]]. apply (act_stays n _ _ _ (clone_of_ok n _ _ _ _ _)). intros j Hj. apply yield_stays. exact Hj.
  - apply ask_stays. intros a. apply invert_loop_stays. apply C.
  - apply nuco_stays. auto.
Qed.
Lemma attach_ok n k i cs : (n <= i)%nat -> ge_all n cs -> call_ok n (attach k i cs) (fun _ => True).
Proof.
  intros Hi Hc h. split; [|auto]. destruct k; cbn [attach]; try (apply kids_add_harmless; assumption).
  - apply add_hier_harmless; assumption.
  - apply obind_harmless; [apply kids_clear_harmless; exact Hi|]. intros _ a _. apply kids_add_harmless; assumption.
  - apply remove_all_harmless. exact Hi.
Qed.
Lemma flow_stays n trav : (forall t i, (n <= i)%nat -> stays n (trav t i)) -> forall cons i, (n <= i)%nat -> stays n (flow trav cons i).
Proof.
  intros T. induction cons as [|c cons IH]; intros i Hi; [apply yield_stays; exact Hi|]. cbn [flow]. apply ask_stays. intros [|]; [|apply IH; exact Hi].
  assert (G : forall k, stays n (scollect (trav (c_itor c) i) [] (fun cs => act (attach k i cs) (fun _ => flow trav cons i)))).
  { intros k. apply scollect_stays; [|constructor|apply T; exact Hi]. intros l Hl. apply (act_stays n _ _ _ (attach_ok n k i l Hi Hl)). intros _ _. apply IH. exact Hi. }
  destruct (c_kind c); try apply G.
  - apply T. exact Hi.
  - apply sfor_stays; [exact IH|apply T; exact Hi].
  - apply sdrop_stays; [apply IH; exact Hi|apply T; exact Hi].
Qed.
Lemma traverse_stays n P : prog_stays n P -> forall fuel t i, (n <= i)%nat -> stays n (traverse fuel P t i).
Proof.
  intros HP. induction fuel as [|m IH]; intros t i Hi; [exact I|]. cbn [traverse]. destruct (HP t) as [H1 H2]. apply post_stays_ok; [exact H2|]. apply sfor_stays.
  - intros j Hj. apply flow_stays; assumption.
  - apply transform_ok; [|exact H1|exact Hi]. intros t' i'. apply (act_stays n _ _ _ (clone_of_ok n _ _ _ _ _)). intros j Hj. apply IH. exact Hj.
Qed.
Lemma call_stays n P fuel t i : prog_stays n P -> stays n (call fuel P t i).
Proof. intros HP. apply (act_stays n _ _ _ (clone_of_ok n _ _ _ _ _)). intros j Hj. apply traverse_stays; assumption. Qed.
Lemma drive_stays n c : (forall l h, harmless n h (c l h)) -> forall s seen h, sealed n h -> stays n s -> ge_all n seen ->
  harmless n h (fst (drive c seen s h)) /\ ge_all n (fst (snd (drive c seen s h))).
Proof.
  intros C. induction s as [|e|i k IH|g k IH]; intros seen h A S Hs; cbn [drive]; cbn [stays] in S.
  - split; [apply harmless_refl|exact Hs].
  - split; [apply harmless_refl|exact Hs].
  - destruct S as [S1 S2]. pose proof (C (seen ++ [i]) h) as C1. destruct (C1 A) as (A1 & _). destruct (IH (seen ++ [i]) (c (seen ++ [i]) h) A1 S2) as [I1 I2]; [apply ge_app; [exact Hs|repeat constructor; exact S1]|]. split; [exact (harmless_trans n _ _ _ C1 I1)|exact I2].
  - destruct (S h) as [S1 S2]. destruct (S1 A) as (A1 & _). destruct (IH h seen (g h) A1 (S2 A) Hs) as [I1 I2]. split; [exact (harmless_trans n _ _ _ S1 I1)|exact I2].
Qed.
Lemma sealed_all h : sealed (length h) h.
Proof. split; [lia|]. intros j Hj. unfold nd. rewrite nth_overflow by exact Hj. cbn. split; [intros c []|discriminate]. Qed.
Theorem call_harmless fuel P t i h c : prog_stays (length h) P -> (forall l g, harmless (length h) g (c l g)) ->
  let r := drive c [] (call fuel P t i) h in extends h (fst r) /\ Forall (fun j => (length h <= j)%nat) (fst (snd r)).
Proof.
  intros HP C. destruct (drive_stays (length h) c C (call fuel P t i) [] h (sealed_all h) (call_stays _ P fuel t i HP) (Forall_nil _)) as [D1 D2]. cbv zeta. split; [|exact D2].
  destruct (D1 (sealed_all h)) as (_ & L & E). split; assumption.
Qed.
