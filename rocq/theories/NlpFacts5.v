(** Facts for Nlp.v: the stages of the pipeline. *)
From Verif Require Import NlpDoc PyFacts HeapFacts HeapFacts2 HeapFacts3 HeapFacts4 CombinFacts CombinFacts2 CombinFacts3 CombinFacts4 ArborFacts ArborFacts2 ArborFacts3 ArborFacts4 XmlFacts5 XmlFacts6 NlpFacts NlpFacts2 NlpFacts3 NlpFacts4.

(** new roots with the trees ts; nothing else changes *)
Definition produces (f : nat -> heap -> heap * (list nat * option exn)) (t : tree) (ts : list tree) : Prop :=
  forall h x, fine h -> own h t x -> exists h' l, f x h = (h', (l, None)) /\ fine h' /\ extends h h' /\ Forall2 (own h') ts l /\ NoDup l /\ Forall (fun c => (length h <= c)%nat) l.
Lemma produces_handles f t ts : produces f t ts -> handles f t ts.
Proof.
  intros H h x Hf O. destruct (H h x Hf O) as (h' & l & E & Hf' & [X1 X2] & F & N & L). exists h', l. split; [exact E|]. split; [exact Hf'|]. split; [exact X1|]. split; [exact F|]. split; [exact N|]. split; [|intros j Hj _; apply X2; exact Hj].
  eapply Forall_impl; [|exact L]. cbn. auto.
Qed.
(** trees one behind the other in [a,b) of s *)
Definition lined (s : pystr) (a b : Z) (ts : list tree) : Prop := StronglySorted t_before ts /\ Forall (fun t => t_string t = s /\ a <= t_start t /\ t_stop t <= b) ts.
Lemma lined_nil s a b : lined s a b []. Proof. split; constructor. Qed.
Lemma lined_cons s a b t ts : t_string t = s -> a <= t_start t < t_stop t -> lined s (t_stop t) b ts -> t_stop t <= b -> lined s a b (t :: ts).
Proof.
  intros Es Ha [S F] Hb. split.
  - constructor; [exact S|]. eapply Forall_impl; [|exact F]. cbn beta. intros u (_ & Q & _). split; lia.
  - constructor; [auto with zarith|]. eapply Forall_impl; [|exact F]. cbn beta. intros u (E & Q & R). split; [exact E|]. lia.
Qed.
Lemma lined_app s a m b l r : lined s a m l -> Forall (fun t => t_start t < t_stop t) l -> lined s m b r -> a <= m <= b -> lined s a b (l ++ r).
Proof.
  intros [S1 F1] W [S2 F2] Hm. split.
  - apply SS_app; [exact S1|exact S2|]. intros x y Hx Hy. rewrite Forall_forall in W, F1, F2. specialize (W _ Hx). destruct (F1 _ Hx) as (_ & _ & Q). destruct (F2 _ Hy) as (_ & R & _). split; lia.
  - apply Forall_app. split; (eapply Forall_impl; [|first [exact F1|exact F2]]); cbn beta; intros u (E & Q & R); (split; [exact E|lia]).
Qed.
(** collected children *)
Lemma add_handles tr k s a b d ts : lined s a b ts -> produces (fun x => drain (tr k x)) (T (FI s a b d None) []) ts ->
  handles (fun x => drain (flow tr [Con CAdd always k] x)) (T (FI s a b d None) []) [T (FI s a b d None) ts].
Proof.
  intros [S F] P h x Hf O. destruct (P h x Hf O) as (h1 & l & E1 & Hf1 & X1 & O1 & N1 & L1).
  rewrite (flow_children tr (Con CAdd always k) [] x h eq_refl ltac:(cbn; auto)). cbn [c_itor c_kind attach]. cbv beta in E1. rewrite E1.
  pose proof (own_lt _ _ _ O) as Lx. destruct X1 as [X1 X2].
  destruct (own_add_all x (FI s a b d None) l ts h1 [] Hf1) as (h2 & E2 & Hf2 & L2 & O2 & _ & K2).
  - exact (own_ext _ _ _ _ Hf (conj X1 X2) O).
  - exact O1.
  - intros Q. rewrite Forall_forall in L1. specialize (L1 _ Q). lia.
  - exact N1.
  - eapply Forall_impl; [|exact F]. cbn beta. intros t Q. exact Q.
  - exact S.
  - rewrite E2. exists h2, [x]. cbn [flow drain]. split; [reflexivity|]. split; [exact Hf2|]. split; [lia|]. split; [constructor; [exact O2|constructor]|]. split; [constructor; [intros []|constructor]|]. split; [constructor; [auto|constructor]|].
    intros j Hj Nj. rewrite K2; [apply X2; exact Hj|exact Nj|]. intros Q. rewrite Forall_forall in L1. specialize (L1 _ Q). lia.
Qed.

(** ** Extract in a pipeline *)
Lemma extract_produces P t re fi df gf n s a b ft ts : P t = Itor (TExtract re fi None (Some df) gf) [] PostNone -> gf_valid re gf -> f_str ft = s -> f_start ft = a -> f_stop ft = b ->
  Forall2 (gives df (re_keys re gf)) (fi s a b) ts -> forall h x, fine h -> (x < length h)%nat -> n_f (nd h x) = ft ->
  exists h' l, reach (traverse (S n) P t x) h h' (of_list l) /\ fine h' /\ extends h h' /\ Forall2 (own h') ts l /\ NoDup l /\ Forall (fun c => (length h <= c)%nat) l.
Proof.
  intros EP Gf Es Ea Eb G h x Hf Lx Ef. destruct (run_gives df (re_keys re gf) _ _ G h Hf) as (h2 & ls & E2 & X2 & Hf2 & O2 & L2 & N2).
  exists h2, (concat ls). split; [|split; [exact Hf2|]; split; [exact X2|]; split; [exact O2|]; split; [exact N2|exact L2]].
  cbn [traverse]. rewrite EP. cbn [it_post it_tr it_cons run_post transform_of]. apply reach_sfor_plain.
  refine (reach_act (fun h => obind (from_re h re gf df None (fi (h_string h x) (h_start h x) (h_stop h x))) (fun h1 r => (h1, Ok (fst r)))) of_list h h2 (concat ls) _).
  unfold h_string, h_start, h_stop. rewrite Ef, Es, Ea, Eb. rewrite from_re_nolimit by exact Gf. rewrite E2. reflexivity.
Qed.
(** the same for a call, which clones first *)
Lemma call_produces P t re fi df gf n s a b ft ts : P t = Itor (TExtract re fi None (Some df) gf) [] PostNone -> gf_valid re gf -> f_str ft = s -> f_start ft = a -> f_stop ft = b ->
  Forall2 (gives df (re_keys re gf)) (fi s a b) ts -> forall h x, fine h -> (x < length h)%nat -> n_f (nd h x) = ft ->
  exists h' l, reach (call (S n) P t x) h h' (of_list l) /\ fine h' /\ extends h h' /\ Forall2 (own h') ts l /\ NoDup l /\ Forall (fun c => (length h <= c)%nat) l.
Proof.
  intros EP Gf Es Ea Eb G h x [W A] Lx Ef. destruct (clone_same h x W A Lx) as (h1 & Ec & X1 & L1 & W1 & A1 & Ef1 & _).
  destruct (extract_produces P t re fi df gf n s a b ft ts EP Gf Es Ea Eb G h1 (length h) (conj W1 A1) L1 ltac:(rewrite Ef1; exact Ef)) as (h2 & l & R & Hf2 & X2 & O2 & N2 & L2).
  exists h2, l. split; [|split; [exact Hf2|]; split; [exact (extends_trans _ _ _ X1 X2)|]; split; [exact O2|]; split; [exact N2|]].
  - unfold call. exact (reach_trans _ _ _ _ _ _ (reach_act _ (fun j => traverse (S n) P t j) h h1 (length h) Ec) R).
  - eapply Forall_impl; [|exact L2]. cbn beta. intros c Q. lia.
Qed.
(** ** Split in a pipeline, with what is done to each piece *)
Lemma split_produces P t t' br d cons re fi df gf n s a b ft bts outs : P t = Itor (TSplit t' None br true d) cons PostNone -> br = RNone \/ br = RAll ->
  P t' = Itor (TExtract re fi None (Some df) gf) [] PostNone -> gf_valid re gf -> f_str ft = s -> f_start ft = a -> f_stop ft = b -> f_vf ft = None ->
  Forall2 (gives df (re_keys re gf)) (fi s a b) bts -> fits_in b a bts -> a <= b ->
  Forall2 (handles (fun x => drain (flow (traverse (S n) P) cons x))) (split_of s d br a bts b) outs ->
  produces (fun x => drain (traverse (S (S n)) P t x)) (T ft []) (concat outs).
Proof.
  intros EP Hbr EP' Gf Es Ea Eb Ev G Fi Hab Ho h x Hf O. pose proof (own_lt _ _ _ O) as Lx. assert (Ef : n_f (nd h x) = ft) by (destruct O as (R & _ & _); rewrite (rep_f _ _ _ R); reflexivity).
  destruct (call_produces P t' re fi df gf n s a b ft bts EP' Gf Es Ea Eb G h x Hf Lx Ef) as (h1 & bs & R1 & Hf1 & X1 & O1 & N1 & L1).
  assert (Hs : source s x a b h1). { split; [destruct X1; lia|]. exists (f_desc ft). rewrite (extends_nd _ _ _ X1 Lx), Ef. destruct ft; cbn in *; subst; reflexivity. }
  destruct (split_list s d br Hbr x a b bts bs h1 a 0 None [] [] Hf1 Hs O1 N1 Fi ltac:(lia) Hab) as (h2 & l & R2 & Hf2 & X2 & O2 & N2 & L2); [auto|reflexivity|constructor|constructor|intros y []|].
  cbn [app] in *. destruct (for_each_handles _ _ _ Ho h2 l Hf2 O2 N2) as (h3 & l3 & E3 & Hf3 & L3 & O3 & N3 & R3 & K3).
  pose proof (extends_trans _ _ _ X1 X2) as X12. assert (Ll : Forall (fun c => (length h <= c)%nat) l).
  { eapply Forall_impl; [|exact L2]. cbn beta. intros c [Q|Q]; [rewrite Forall_forall in L1; exact (L1 _ Q)|destruct X1; lia]. }
  exists h3, l3. split; [|split; [exact Hf3|]; split; [|split; [exact O3|]; split; [exact N3|]]].
  - rewrite traverse_plain by (rewrite EP; reflexivity). rewrite EP. cbn [it_cons it_tr transform_of]. unfold split_transform. cbn [andb].
    rewrite (reach_for _ _ _ _ _ (reach_trans _ _ _ _ _ _ (reach_split None br true d x 0 None [] _ _ _ _ R1) R2)). exact E3.
  - destruct X12 as [Y1 Y2]. split; [lia|]. intros j Hj. rewrite K3; [apply Y2; exact Hj|lia|]. intros Q. rewrite Forall_forall in Ll. specialize (Ll _ Q). lia.
  - eapply Forall_impl; [|exact R3]. cbn beta. intros c [Q|Q]; [rewrite Forall_forall in Ll; exact (Ll _ Q)|destruct X12; lia].
Qed.
