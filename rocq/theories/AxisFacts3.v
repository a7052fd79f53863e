(** The axes through find_all: one node, several nodes, ! and !!, de-dup. *)
From Verif Require Export AxisFacts2 HierHeap6.

Lemma to_ecs_plain a l o : ax_self a = OsNo -> to_ecs a (l, None) o = (number l, None).
Proof. intros E. unfold to_ecs. rewrite E. destruct l; reflexivity. Qed.
Lemma to_ecs_no_self a l : to_ecs a (l, None) None = (number l, None).
Proof. unfold to_ecs. destruct (ax_self a), (ax_rev a), l; reflexivity. Qed.
Lemma to_ecs_self a l s : ~ In s l -> to_ecs a (l, None) (Some s) = (number (with_self (ax_self a) (ax_rev a) s l), None).
Proof.
  intros N. unfold to_ecs, with_self. destruct (ax_self a), (ax_rev a), l as [|x l]; try reflexivity.
  destruct (Nat.eqb_spec x s) as [E|E]; [exfalso; apply N; left; exact E|reflexivity].
Qed.
Lemma gbind_one {A B} (f : A -> gen B) x : gbind ([x], None) f = f x.
Proof. unfold gbind. cbn [fst snd gflat]. destruct (f x) as [ys [e|]]; [reflexivity|]. rewrite app_nil_r. reflexivity. Qed.
(** find_all from one node *)
Lemma axis_find_one h k r o i :
  axis_find h (AX k r o) ([i], None) =
  match k with
  | AxSelf | AxDedup => to_ecs (AX k r o) ([i], None) None
  | AxPrec | AxFoll => match n_par (nd h i) with
                       | None => to_ecs (AX k r o) ([], None) (Some i)
                       | Some _ => to_ecs (AX k r o) (axis_of h k r i) (Some i)
                       end
  | _ => to_ecs (AX k r o) (axis_of h k r i) (Some i)
  end.
Proof.
  unfold axis_find. cbn [ax_key ax_rev fst snd]. destruct k; try (rewrite gbind_one; reflexivity); try reflexivity.
  - cbn. destruct r; reflexivity.
  - cbn [find rev app]. destruct (n_par (nd h i)); reflexivity.
  - cbn [find rev app]. destruct (n_par (nd h i)); reflexivity.
Qed.
Lemma root_no_axis h k i : hwf h -> n_par (nd h i) = None -> k = AxPrec \/ k = AxFoll -> forall j, ~ ax_set h k i j.
Proof.
  intros H E K j S.
  assert (N : forall q, ~ anc h q i) by (intros q A; apply anc_up_inv in A; destruct A as (? & X & _); congruence).
  destruct K as [-> | ->]; destruct S as [S1 S2]; destruct S1 as [S1|(p & l & x & m & y & r & Ek & Hx & Hy)]; try (apply S2; exact S1).
  - pose proof (sib_mem _ _ _ _ _ _ _ Ek) as [_ Iy]. exact (N p (soa_anc h p y i (kids_par _ _ _ H Iy) Hy)).
  - pose proof (sib_mem _ _ _ _ _ _ _ Ek) as [Ix _]. exact (N p (soa_anc h p x i (kids_par _ _ _ H Ix) Hx)).
Qed.
Lemma ax_set_irrefl h k i : hwf h -> acyclic h -> k <> AxSelf -> k <> AxDedup -> ~ ax_set h k i i.
Proof.
  intros H Ha K1 K2. destruct k; cbn [ax_set]; try congruence.
  - intros [_ A]. exact (Ha i A).
  - exact (Ha i).
  - intros E. exact (Ha i (anc_parent _ _ _ E)).
  - intros E. exact (Ha i (anc_parent _ _ _ E)).
  - exact (Ha i).
  - intros [A _]. exact (Ha i A).
  - intros [D _]. exact (doc_before_irrefl h H Ha i D).
  - intros (p & l & m & r & E). refine (doc_before_irrefl h H Ha i _). right. exists p, l, i, m, i, r. split; [exact E|]. split; left; reflexivity.
  - intros (p & l & r & E). refine (doc_before_irrefl h H Ha i _). right. exists p, l, i, [], i, r. split; [exact E|]. split; left; reflexivity.
  - intros (p & l & r & E). refine (doc_before_irrefl h H Ha i _). right. exists p, l, i, [], i, r. split; [exact E|]. split; left; reflexivity.
  - intros (p & l & m & r & E). refine (doc_before_irrefl h H Ha i _). right. exists p, l, i, m, i, r. split; [exact E|]. split; left; reflexivity.
  - intros [D _]. exact (doc_before_irrefl h H Ha i D).
Qed.
Lemma ax_order_irrefl h k : hwf h -> acyclic h -> forall a, ~ ax_order h k a a.
Proof. intros H Ha a. unfold ax_order. destruct (ax_backward k); apply doc_before_irrefl; assumption. Qed.
(** C41 and C44 together *)
Lemma axis_full h k i : hwf h -> acyclic h -> (i < length h)%nat -> ax_domain h k i ->
  exists l, (forall j, In j l <-> ax_set h k i j) /\ StronglySorted (ax_order h k) l /\ NoDup l /\
    axis_find h (AX k false OsNo) ([i], None) = (number l, None) /\ axis_find h (AX k true OsNo) ([i], None) = (number (rev l), None) /\
    (k <> AxSelf -> k <> AxDedup -> forall r o, axis_find h (AX k r o) ([i], None) = (number (with_self o r i (if r then rev l else l)), None)).
Proof.
  intros H Ha Hi D.
  assert (E : exists l, (forall j, In j l <-> ax_set h k i j) /\ StronglySorted (ax_order h k) l /\
     ((axis_of h k false i = (l, None) /\ axis_of h k true i = (rev l, None)) \/ (n_par (nd h i) = None /\ (k = AxPrec \/ k = AxFoll) /\ l = []))).
  { destruct (n_par (nd h i)) as [p|] eqn:Ep.
    - destruct (axis_of_spec h k i H Ha Hi D) as (l & E1 & E2 & E3 & E4); [intros; congruence|]. exists l. auto.
    - assert (K : (k = AxPrec \/ k = AxFoll) \/ (k <> AxPrec /\ k <> AxFoll)) by (destruct k; intuition discriminate). destruct K as [K|[K1 K2]].
      + exists []. split; [|split; [constructor|right; auto]]. intros j. split; [intros []|intros S; destruct (root_no_axis h k i H Ep K j S)].
      + destruct (axis_of_spec h k i H Ha Hi D) as (l & E1 & E2 & E3 & E4); [intros L S1 S2; destruct k; cbn in L; congruence|]. exists l. auto. }
  destruct E as (l & E3 & E4 & E). exists l. split; [exact E3|]. split; [exact E4|]. split; [exact (SS_NoDup _ _ (ax_order_irrefl h k H Ha) E4)|].
  assert (G : forall r o, k <> AxSelf -> k <> AxDedup -> axis_find h (AX k r o) ([i], None) = (number (with_self o r i (if r then rev l else l)), None)).
  { intros r o K1 K2. assert (N : ~ In i (if r then rev l else l)).
    { intros X. apply (ax_set_irrefl h k i H Ha K1 K2). apply E3. destruct r; [apply in_rev; exact X|exact X]. }
    rewrite axis_find_one. destruct E as [[E1 E2]|(Ep & K & ->)].
    - assert (Er : axis_of h k r i = (if r then rev l else l, None)) by (destruct r; [exact E2|exact E1]).
      pose proof (to_ecs_self (AX k r o) _ i N) as T. cbn [ax_self ax_rev] in T. rewrite Er.
      destruct k; try congruence; try exact T; destruct (n_par (nd h i)) eqn:Ep; try exact T.
      + assert (L : l = []) by (destruct l as [|x l]; [reflexivity|]; destruct (root_no_axis h AxPrec i H Ep (or_introl eq_refl) x (proj1 (E3 x) (or_introl eq_refl)))). subst l. destruct r; exact T.
      + assert (L : l = []) by (destruct l as [|x l]; [reflexivity|]; destruct (root_no_axis h AxFoll i H Ep (or_intror eq_refl) x (proj1 (E3 x) (or_introl eq_refl)))). subst l. destruct r; exact T.
    - rewrite Ep. pose proof (to_ecs_self (AX k r o) [] i (fun X => X)) as T. cbn [ax_self ax_rev] in T. destruct K as [-> | ->]; rewrite T; destruct r; reflexivity. }
  assert (Gn : forall r, axis_find h (AX k r OsNo) ([i], None) = (number (if r then rev l else l), None)).
  { intros r. assert (K : (k = AxSelf \/ k = AxDedup) \/ (k <> AxSelf /\ k <> AxDedup)) by (destruct k; intuition discriminate). destruct K as [K|[K1 K2]].
    - rewrite axis_find_one. destruct E as [[E1 E2]|(_ & K3 & _)]; [|destruct K3, K; congruence]. destruct K as [-> | ->]; cbn [axis_of] in E1; injection E1 as <-; destruct r; reflexivity.
    - rewrite G by assumption. destruct r; reflexivity. }
  split; [exact (Gn false)|]. split; [exact (Gn true)|]. intros K1 K2 r o. apply G; assumption.
Qed.

(** ** several nodes *)
Lemma gflat_ext {A B} (f g : A -> gen B) l e : (forall x, In x l -> f x = g x) -> gflat l f e = gflat l g e.
Proof.
  induction l as [|x l IH]; intros E; cbn [gflat]; [reflexivity|]. rewrite (E x (or_introl eq_refl)), IH by (intros; apply E; right; assumption). reflexivity.
Qed.
Lemma axis_local_concat h a l e : ax_local (ax_key a) = true -> axis_find h a (l, e) = gbind (l, e) (fun i => axis_find h a ([i], None)).
Proof.
  intros L. destruct a as [k r o]. cbn [ax_key] in L. unfold gbind. cbn [fst snd].
  transitivity (gflat l (fun i => to_ecs (AX k r o) (axis_of h k r i) (Some i)) e).
  - unfold axis_find, gbind. cbn [ax_key ax_rev fst snd]. destruct k; try discriminate; reflexivity.
  - apply gflat_ext. intros i _. rewrite axis_find_one. destruct k; try discriminate; reflexivity.
Qed.
Lemma map_snd_number {A} (l : list A) : map snd (number l) = l.
Proof.
  unfold number. generalize 0%nat. induction l as [|x l IH]; intros k; [reflexivity|]. cbn [length seq combine map snd]. rewrite IH. reflexivity.
Qed.
Lemma axis_self_concat h r o l e : let g := axis_find h (AX AxSelf r o) (l, e) in (map snd (fst g), snd g) = (l, e).
Proof.
  cbn [axis_find ax_key]. unfold to_ecs. cbn [ax_self ax_rev].
  destruct o, r, e; cbn [fst snd]; rewrite ?map_snd_number; try reflexivity; destruct l; cbn [fst snd]; rewrite ?map_snd_number; reflexivity.
Qed.

(** ** partition of the tree *)
Lemma trichotomy h i j r : hwf h -> acyclic h -> (i < length h)%nat -> root_of h r i -> root_of h r j -> i = j \/ doc_before h i j \/ doc_before h j i.
Proof.
  intros H Ha Hi [R1 Ri] [_ Rj]. destruct Ri as [Ri|Ri].
  - subst r. destruct Rj as [Rj|Rj]; [auto|right; left; left; exact Rj].
  - destruct Rj as [Rj|Rj]; [subst r; right; right; left; exact Ri|].
    destruct (walk_gen h r H Ha) as (l & _ & _ & _ & S1 & S2); [apply (anc_bound h r i H) in Ri; lia|].
    apply S1 in Ri, Rj. apply in_split in Ri. destruct Ri as (l1 & l2 & ->). destruct (order_split h l1 i l2 S2) as [O1 O2].
    apply in_app_or in Rj. destruct Rj as [Rj|[Rj|Rj]]; auto.
Qed.
Lemma partition_tree h i : hwf h -> acyclic h -> (i < length h)%nat -> (forall j, nonempty h j \/ n_par (nd h j) = None) ->
  exists an de pr fo all r,
    axis_find h (AX AxAncs false OsNo) ([i], None) = (number an, None) /\ axis_find h (AX AxDescs false OsNo) ([i], None) = (number de, None) /\
    axis_find h (AX AxPrec false OsNo) ([i], None) = (number pr, None) /\ axis_find h (AX AxFoll false OsNo) ([i], None) = (number fo, None) /\
    root_of h r i /\ walk h r false = (all, None) /\ NoDup (r :: all) /\ Permutation (i :: an ++ de ++ pr ++ fo) (r :: all).
Proof.
  intros H Ha Hi Ne.
  assert (Nd : forall j, n_par (nd h j) <> None -> nonempty h j) by (intros j N; destruct (Ne j) as [X|X]; [exact X|contradiction]).
  assert (D3 : ax_domain h AxPrec i) by (cbn; destruct (n_par (nd h i)) eqn:E; [right; apply Nd; congruence|left; reflexivity]).
  assert (D4 : ax_domain h AxFoll i).
  { cbn. destruct (n_par (nd h i)) eqn:E; [right|left; reflexivity]. split; [apply Nd; congruence|]. intros j A. apply Nd. apply anc_up_inv in A. destruct A as (? & X & _). congruence. }
  destruct (axis_full h AxAncs i H Ha Hi I) as (an & A1 & _ & A2 & A3 & _). destruct (axis_full h AxDescs i H Ha Hi I) as (de & B1 & _ & B2 & B3 & _).
  destruct (axis_full h AxPrec i H Ha Hi D3) as (pr & C1 & _ & C2 & C3 & _). destruct (axis_full h AxFoll i H Ha Hi D4) as (fo & F1 & _ & F2 & F3 & _).
  destruct (get_root_full h i H Ha Hi) as (r & _ & R & _). assert (Hr : (r < length h)%nat) by (destruct R as [_ [->|R]]; [exact Hi|apply (anc_bound h r i H) in R; lia]).
  destruct (walk_gen h r H Ha Hr) as (all & W & _ & N & S1 & _). exists an, de, pr, fo, all, r. repeat (split; [assumption|]).
  assert (Nr : NoDup (r :: all)) by (constructor; [intros X; apply S1 in X; exact (Ha r X)|exact N]). split; [exact Nr|].
  cbn [ax_set] in *. unfold preceding, following in *. apply NoDup_Permutation; [|exact Nr|].
  - constructor.
    + rewrite !in_app_iff, A1, B1, C1, F1. intros [X|[X|[[X _]|[X _]]]]; try exact (Ha i X); exact (doc_before_irrefl h H Ha i X).
    + apply NoDup_app_intro; [exact A2| |].
      * apply NoDup_app_intro; [exact B2| |].
        -- apply NoDup_app_intro; [exact C2|exact F2|]. intros x Hx Hy. apply C1 in Hx. apply F1 in Hy. exact (doc_asym h H Ha x i (proj1 Hx) (proj1 Hy)).
        -- intros x Hx Hy. apply B1 in Hx. apply in_app_or in Hy. destruct Hy as [Hy|Hy]; [apply C1 in Hy|apply F1 in Hy; exact (proj2 Hy Hx)]. refine (doc_asym h H Ha x i (proj1 Hy) _). left. exact Hx.
      * intros x Hx Hy. apply A1 in Hx. rewrite !in_app_iff, B1, C1, F1 in Hy. destruct Hy as [Hy|[Hy|Hy]]; [apply (Ha x); eapply anc_trans; eassumption|exact (proj2 Hy Hx)|].
        refine (doc_asym h H Ha x i _ (proj1 Hy)). left. exact Hx.
  - intros j. cbn [In]. rewrite !in_app_iff, A1, B1, C1, F1, S1. destruct R as [R1 R2]. 
    assert (Nr0 : forall q, ~ anc h q r) by (intros q A; apply anc_up_inv in A; destruct A as (? & X & _); congruence).
    split.
    + intros X. assert (Rj : self_or_anc h r j); [|destruct Rj as [Rj|Rj]; [left; symmetry; exact Rj|right; exact Rj]].
      destruct X as [X|[X|[X|[X|X]]]].
      * subst j. destruct R2 as [R2|R2]; [left; symmetry; exact R2|right; exact R2].
      * apply (doc_before_root h j i H (or_introl X) r). split; assumption.
      * right. destruct R2 as [R2|R2]; [subst r; exact X|eapply anc_trans; eassumption].
      * apply (doc_before_root h j i H (proj1 X) r). split; assumption.
      * right. destruct X as [[X|(p & l & x & m & y & r0 & Ek & Hx & Hy)] X2]; [contradiction|].
        pose proof (sib_mem _ _ _ _ _ _ _ Ek) as [Ix Iy]. pose proof (soa_anc h p x i (kids_par _ _ _ H Ix) Hx) as Aa. pose proof (soa_anc h p y j (kids_par _ _ _ H Iy) Hy) as Ab.
        destruct R2 as [R2|R2]; [subst r; destruct (Nr0 p Aa)|]. destruct (anc_comparable h p r i Aa R2) as [<-|[X|X]]; [exact Ab|destruct (Nr0 _ X)|eapply anc_trans; eassumption].
    + intros X. assert (Rj : root_of h r j) by (split; [exact R1|destruct X as [X|X]; [left|right]; auto]).
      destruct (trichotomy h i j r H Ha Hi (conj R1 R2) Rj) as [E|[E|E]]; [auto| |].
      * right. destruct (anc_dec h i j H Ha) as [A|A]; [right; left; exact A|right; right; right; auto].
      * right. destruct (anc_dec h j i H Ha) as [A|A]; [left; exact A|right; right; left; auto].
Qed.

(** ** de-dup *)
Lemma key_eqb_refl f : key_eqb f f = true.
Proof.
  assert (S : forall s, eqb_str s s = true) by (induction s as [|c s IH]; [reflexivity|cbn; rewrite Z.eqb_refl; exact IH]).
  unfold key_eqb, eqb_oz, eqb_ostr. rewrite !Z.eqb_refl, S. destruct (f_vf f); rewrite ?Z.eqb_refl; destruct (f_desc f); rewrite ?S; reflexivity.
Qed.
Lemma node_eqb_refl h x : node_eqb h x x = true.
Proof. unfold node_eqb. rewrite Nat.eqb_refl. reflexivity. Qed.
Lemma first_at_app x l l' : ~ In x l -> first_at x (l ++ l') = (length l + first_at x l')%nat.
Proof.
  induction l as [|y l IH]; intros N; [reflexivity|]. cbn [app first_at length]. destruct (Nat.eqb_spec y x) as [E|E]; [exfalso; apply N; left; exact E|].
  rewrite IH by (intros X; apply N; right; exact X). reflexivity.
Qed.
Lemma first_at_in x l l' : In x l -> first_at x (l ++ l') = first_at x l /\ (first_at x l < length l)%nat.
Proof.
  induction l as [|y l IH]; intros I; [destruct I|]. cbn [app first_at length]. destruct (Nat.eqb_spec y x) as [E|E]; [split; [reflexivity|lia]|].
  destruct I as [I|I]; [contradiction|]. destruct (IH I) as [-> X]. split; [reflexivity|lia].
Qed.
(** general: seen holds representatives of everything in l0 *)
Lemma dedup_spec h l : forall l0 seen, incl seen l0 -> (forall x, In x l0 -> existsb (fun y => node_eqb h y x) seen = true) ->
  (forall x, In x (dedup h seen l) -> In x l /\ ~ In x l0 /\ existsb (fun y => node_eqb h y x) seen = false) /\
  (forall x, In x l -> existsb (fun y => node_eqb h y x) (seen ++ dedup h seen l) = true) /\
  StronglySorted (fun x y => node_eqb h x y = false /\ (first_at x (l0 ++ l) < first_at y (l0 ++ l))%nat) (dedup h seen l).
Proof.
  induction l as [|x l IH]; intros l0 seen Hs Hc; cbn [dedup].
  - split; [intros x []|]. split; [intros x []|constructor].
  - destruct (existsb (fun y => node_eqb h y x) seen) eqn:E.
    + destruct (IH (l0 ++ [x]) seen) as (A1 & A2 & A3).
      * intros y Hy. apply in_or_app. left. apply Hs. exact Hy.
      * intros y Hy. apply in_app_or in Hy. destruct Hy as [Hy|[<-|[]]]; [apply Hc; exact Hy|exact E].
      * split; [|split].
        -- intros y Hy. destruct (A1 y Hy) as (B1 & B2 & B3). split; [right; exact B1|]. split; [intros X; apply B2; apply in_or_app; left; exact X|exact B3].
        -- intros y [<-|Hy]; [rewrite existsb_app, E; reflexivity|exact (A2 y Hy)].
        -- rewrite <- app_assoc in A3. exact A3.
    + assert (Nx : ~ In x l0) by (intros X; apply Hc in X; congruence).
      destruct (IH (l0 ++ [x]) (x :: seen)) as (A1 & A2 & A3).
      * intros y [<-|Hy]; apply in_or_app; [right; left; reflexivity|left; apply Hs; exact Hy].
      * intros y Hy. cbn [existsb]. apply in_app_or in Hy. destruct Hy as [Hy|[<-|[]]]; [rewrite (Hc y Hy); apply orb_true_r|rewrite node_eqb_refl; reflexivity].
      * split; [|split].
        -- intros y [<-|Hy]; [split; [left; reflexivity|auto]|]. destruct (A1 y Hy) as (B1 & B2 & B3). split; [right; exact B1|]. split; [intros X; apply B2; apply in_or_app; left; exact X|].
           cbn [existsb] in B3. apply orb_false_iff in B3. tauto.
        -- intros y Hy. rewrite existsb_app. cbn [existsb]. destruct Hy as [<-|Hy]; [rewrite node_eqb_refl, orb_true_r; reflexivity|].
           specialize (A2 y Hy). cbn [app existsb] in A2. rewrite existsb_app in A2. destruct (node_eqb h x y), (existsb (fun y0 => node_eqb h y0 y) seen); cbn in *; auto.
        -- rewrite <- app_assoc in A3. cbn [app] in A3. constructor; [exact A3|]. apply Forall_forall. intros y Hy. destruct (A1 y Hy) as (B1 & B2 & B3).
           cbn [existsb] in B3. apply orb_false_iff in B3. split; [tauto|].
           rewrite (first_at_app x l0 _ Nx). rewrite (first_at_app y l0) by (intros X; apply B2; apply in_or_app; left; exact X). cbn [first_at]. rewrite Nat.eqb_refl.
           destruct (Nat.eqb_spec x y) as [Exy|Exy]; [exfalso; apply B2; apply in_or_app; right; left; exact Exy|lia].
Qed.
Lemma dedup_full h l :
  incl (dedup h [] l) l /\ (forall x, In x l -> exists y, In y (dedup h [] l) /\ node_eqb h y x = true) /\
  StronglySorted (fun x y => node_eqb h x y = false /\ (first_at x l < first_at y l)%nat) (dedup h [] l).
Proof.
  destruct (dedup_spec h l [] []) as (A1 & A2 & A3); [intros x []|intros x []|]. split; [intros x Hx; apply A1; exact Hx|]. split; [|exact A3].
  intros x Hx. specialize (A2 x Hx). cbn [app] in A2. apply existsb_exists in A2. exact A2.
Qed.
Lemma dedup_find h r o l :
  axis_find h (AX AxDedup r o) (l, None) = (number (if r then rev (dedup h [] l) else dedup h [] l), None).
Proof. cbn [axis_find ax_key ax_rev]. rewrite to_ecs_no_self. reflexivity. Qed.
Lemma dedup_identity h l : (forall x y, In x l -> In y l -> node_eqb h x y = true -> x = y) -> firsts_of l (dedup h [] l).
Proof.
  intros U. destruct (dedup_full h l) as (A1 & A2 & A3). split.
  - intros x. split; [apply A1|]. intros Hx. destruct (A2 x Hx) as (y & Hy & E). rewrite <- (U y x (A1 y Hy) Hx E). exact Hy.
  - eapply SS_impl; [|exact A3]. intros x y _ _ [_ B]. exact B.
Qed.
(** ** ! and !! for any result *)
Lemma number_inj {A} (l l' : list A) : number l = number l' -> l = l'.
Proof. intros E. rewrite <- (map_snd_number l), E. apply map_snd_number. Qed.
Lemma to_ecs_inv k r g o l : to_ecs (AX k r OsNo) g o = (number l, None) -> g = (l, None).
Proof.
  unfold to_ecs. destruct g as [ys [e|]]; cbn [ax_self ax_rev]; [discriminate|]. intros E. injection E as E. f_equal.
  destruct ys as [|y ys]; apply number_inj in E; exact E.
Qed.
Lemma self_option h k r o i l : k <> AxSelf -> k <> AxDedup -> axis_find h (AX k r OsNo) ([i], None) = (number l, None) -> ~ In i l ->
  axis_find h (AX k r o) ([i], None) = (number (with_self o r i l), None).
Proof.
  intros K1 K2 E N. rewrite axis_find_one in *. pose proof (to_ecs_self (AX k r o) l i N) as T. cbn [ax_self ax_rev] in T.
  destruct k; try congruence; try (apply to_ecs_inv in E; rewrite E; exact T); destruct (n_par (nd h i)); apply to_ecs_inv in E; try (rewrite E; exact T); injection E as <-; exact T.
Qed.
Lemma prec_excludes_self h r i l : hwf h -> acyclic h -> (i < length h)%nat -> axis_find h (AX AxPrec r OsNo) ([i], None) = (number l, None) -> ~ In i l.
Proof.
  intros H Ha Hi E. rewrite axis_find_one in E. destruct (n_par (nd h i)) as [p|] eqn:Ep; apply to_ecs_inv in E; [|injection E as <-; intros []].
  destruct (walk_root h i H Ha Hi) as (ancs & l1 & l2 & E0 & S0 & R & W1 & W2 & N & S1 & S2); [congruence|]. cbn [axis_of] in E. rewrite E0 in E. cbv zeta in *.
  pose proof (NoDup_remove_2 _ _ _ N) as N2. destruct r; cbn [negb] in E; rewrite ?W1, ?W2 in E; unfold gmap in E; cbn [fst snd] in E; injection E as <-; intros X; apply filter_In in X; destruct X as [X _].
  - rewrite take_while_split in X by (intros Y; apply N2; apply in_or_app; left; exact Y). apply N2. apply in_or_app. left. exact X.
  - rewrite rev_app_distr in X. cbn [rev] in X. rewrite <- app_assoc in X. cbn [app] in X. rewrite AxisFacts.drop_while_split in X by (intros Y; apply in_rev in Y; apply N2; apply in_or_app; right; exact Y).
    cbn [tl] in X. apply in_rev in X. apply N2. apply in_or_app. left. exact X.
Qed.
Lemma self_not_found h k r i l : hwf h -> acyclic h -> (i < length h)%nat -> k <> AxSelf -> k <> AxDedup -> ax_domain h k i \/ k <> AxFoll ->
  axis_find h (AX k r OsNo) ([i], None) = (number l, None) -> ~ In i l.
Proof.
  intros H Ha Hi K1 K2 D E. assert (C : k = AxPrec \/ ax_domain h k i) by (destruct D as [D|D]; [auto|]; destruct k; cbn; auto; congruence).
  destruct C as [->|D']; [eapply prec_excludes_self; eassumption|]. destruct (axis_full h k i H Ha Hi D') as (l' & S1 & _ & _ & E1 & E2 & _).
  intros X. apply (ax_set_irrefl h k i H Ha K1 K2). apply S1. destruct r.
  - rewrite E2 in E. injection E as E. apply number_inj in E. subst l. apply in_rev. exact X.
  - rewrite E1 in E. injection E as E. apply number_inj in E. subst l. exact X.
Qed.
(** <<< and >>> with several nodes *)
Lemma last_only h k r o l i : k = AxPrec \/ k = AxFoll -> Forall (fun j => n_par (nd h j) <> None) (l ++ [i]) ->
  axis_find h (AX k r o) (l ++ [i], None) = axis_find h (AX k r o) ([i], None).
Proof.
  intros K F.
  assert (G : forall l0, Forall (fun j => n_par (nd h j) <> None) l0 -> find (fun j => match n_par (nd h j) with None => true | Some _ => false end) l0 = None).
  { induction 1 as [|j l0 Hj F0 IH]; [reflexivity|]. cbn [find]. destruct (n_par (nd h j)); [exact IH|congruence]. }
  assert (F1 : Forall (fun j => n_par (nd h j) <> None) [i]) by (apply Forall_app in F; tauto).
  unfold axis_find. cbn [fst snd ax_key ax_rev]. rewrite (G _ F), (G _ F1), rev_app_distr. destruct K as [-> | ->]; reflexivity.
Qed.
Lemma number_spec (l : list nat) : map fst (number l) = seq 0 (length l) /\ map snd (number l) = l.
Proof.
  split; [|apply map_snd_number]. unfold number. generalize 0%nat. induction l as [|x l IH]; intros k; [reflexivity|]. cbn [length seq combine map fst]. rewrite IH. reflexivity.
Qed.
Lemma dedup_wit : NoDup [3; 4]%nat.
Proof. repeat constructor; cbn; intuition discriminate. Qed.
