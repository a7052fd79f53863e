(** Facts for Xml.v: parentless Itos with a known tree, children added to them, and what from_match and Extract build. *)
From Verif Require Import SpecXml PyFacts HeapFacts HeapFacts2 HeapFacts3 HeapFacts4 CombinFacts CombinFacts2 CombinFacts3 CombinFacts4 ArborFacts3 ArborFacts4 XmlFacts3.

Definition own (h : heap) (t : tree) (r : nat) : Prop := rep h t r /\ n_par (nd h r) = None /\ (r < length h)%nat.
Definition fine (h : heap) : Prop := hwf h /\ acyclic h.
Lemma own_ext h h' t r : fine h -> extends h h' -> own h t r -> own h' t r.
Proof. intros [W A] X (R & P & L). split; [exact (rep_extends h h' t r W X L R)|]. destruct X as [XL XN]. rewrite (XN r L). split; [exact P|lia]. Qed.
Lemma own_new h f : fine h -> fwf f -> fine (h ++ [Nd f None []]) /\ extends h (h ++ [Nd f None []]) /\ own (h ++ [Nd f None []]) (T f []) (length h).
Proof.
  intros [W A] F. split; [split; [apply hwf_new; assumption|apply new_acyclic; assumption]|]. split; [apply extends_new|]. unfold own. rewrite rep_unfold, nd_app, Nat.eqb_refl. cbn. split; [split; [reflexivity|constructor]|]. split; [reflexivity|]. rewrite app_length. cbn. lia.
Qed.
Lemma new_str_own h s a b d : fine h -> 0 <= a <= b -> b <= zlen s ->
  exists h', new_str h s (Some a) (Some b) (Some d) = (h', Ok (length h)) /\ fine h' /\ extends h h' /\ own h' (at_ s a b d []) (length h).
Proof.
  intros H Ha Hb. unfold new_str, new_node. rewrite (ito_of_str_in s a b (Some d)) by lia. eexists. split; [reflexivity|]. apply own_new; [exact H|]. split; cbn; lia.
Qed.
Lemma split_unique {A} (P Q : A -> Prop) : (forall x, P x -> Q x -> False) -> forall l r l' r', l ++ r = l' ++ r' -> Forall P l -> Forall P l' -> Forall Q r -> Forall Q r' -> l = l' /\ r = r'.
Proof.
  intros N. induction l as [|x l IH]; intros r l' r' E Pl Pl' Qr Qr'.
  - destruct l' as [|y l']; [auto|]. cbn in E. subst r. inversion Qr; inversion Pl'; subst. exfalso. eauto.
  - destruct l' as [|y l'].
    + cbn in E. subst r'. inversion Qr'; inversion Pl; subst. exfalso. eauto.
    + injection E as -> E. inversion Pl; inversion Pl'; subst. destruct (IH r l' r' E) as [-> ->]; auto.
Qed.
Lemma own_root_kid h t r j : own h t r -> anc h j r -> False.
Proof. intros (_ & P & _) A. inversion A; congruence. Qed.
Lemma Forall2_app_l {A B} (R : A -> B -> Prop) l r k : Forall2 R (l ++ r) k -> exists k1 k2, k = k1 ++ k2 /\ Forall2 R l k1 /\ Forall2 R r k2.
Proof. intros F. apply Forall2_app_inv_l in F. destruct F as (k1 & k2 & F1 & F2 & E). exists k1, k2. auto. Qed.
(** one Ito added between the children before it and those after it *)
Lemma own_add h p c f l r t : fine h -> own h (T f (l ++ r)) p -> own h t c -> c <> p ->
  t_fits t (T f []) -> Forall (fun k => t_before k t) l -> Forall (t_before t) r ->
  exists h', kids_add h p [c] = (h', Ok tt) /\ fine h' /\ length h' = length h /\ own h' (T f (l ++ t :: r)) p /\
    (forall t' j, own h t' j -> j <> p -> j <> c -> own h' t' j) /\ (forall j, j <> p -> j <> c -> nd h' j = nd h j).
Proof.
  intros [W A] Op Oc N Ft Fl Fr. destruct Op as (Rp & Pp & Lp). destruct Oc as (Rc & Pc & Lc).
  pose proof (proj1 (rep_unfold _ _ _ _) Rp) as [Ef Ek]. destruct (Forall2_app_l _ _ _ _ Ek) as (kl & kr & E & Kl & Kr).
  assert (B1 : Forall (fun k => h_before h k c) kl).
  { apply Forall_forall. intros k Hk. destruct (Forall2_in_r _ _ _ _ Kl Hk) as (tk & Htk & Rk). rewrite Forall_forall in Fl. specialize (Fl tk Htk). unfold h_before, t_before, h_start, h_stop, t_start, t_stop in *. rewrite (rep_f _ _ _ Rk), (rep_f _ _ _ Rc). exact Fl. }
  assert (B2 : Forall (h_before h c) kr).
  { apply Forall_forall. intros k Hk. destruct (Forall2_in_r _ _ _ _ Kr Hk) as (tk & Htk & Rk). rewrite Forall_forall in Fr. specialize (Fr tk Htk). unfold h_before, t_before, h_start, h_stop, t_start, t_stop in *. rewrite (rep_f _ _ _ Rk), (rep_f _ _ _ Rc). exact Fr. }
  assert (HF : fits h c p). { unfold fits, h_string, h_start, h_stop, t_fits, t_string, t_start, t_stop in *. rewrite Ef, (rep_f _ _ _ Rc). exact Ft. }
  destruct (kids_add_one h p c W Lp Lc) as [(_ & l' & r' & E' & G1 & G2 & Eq)|(NA & _)].
  2: { exfalso. apply NA. split; [exact Pc|]. split; [exact HF|]. split; [exact N|]. rewrite E. apply Forall_app. split.
       - eapply Forall_impl; [|exact B1]. intros k [H1 H2]. split; [lia|left; exact H2].
       - rewrite Forall_forall in B2 |- *. intros k Hk. destruct (B2 k Hk) as [H1 H2]. split; [lia|right]. exact H2. }
  destruct (split_unique (fun k => h_before h k c) (h_before h c)) with (l := l') (r := r') (l' := kl) (r' := kr) as [-> ->]; try assumption; [intros x [H1 _] [H2 _]; lia|congruence|].
  assert (Fc : Forall (fun x => (x < length h)%nat) [c]) by (constructor; [exact Lc|constructor]).
  destruct (add_effect h p c (kl ++ c :: kr) Lp Lc) as [EL EJ]. pose proof (kids_add_inv h p [c] W Lp Fc) as Inv. cbv zeta in Inv. rewrite Eq in Inv. cbn [fst snd] in Inv.
  destruct (kids_add_root_acyclic p [c] h W A Lp Fc Pp) as [A' P']. rewrite Eq in A', P'. cbn [fst] in A', P'.
  set (h' := set_kids (set_par h c (Some p)) p (kl ++ c :: kr)) in *.
  assert (Rk : forall t' j, rep h t' j -> j <> p -> rep h' t' j).
  { intros t' j Rj Nj. apply (rep_frame h h' W t' j Rj). intros k Hk. destruct (EJ k) as (E1 & _ & E3). split; [exact E1|]. rewrite E3. destruct (Nat.eqb_spec k p) as [->|]; [|reflexivity]. exfalso. destruct Hk as [->|Hk]; [congruence|]. inversion Hk; congruence. }
  assert (Kp : forall k, In k (n_kids (nd h p)) -> k <> p) by (intros k Hk ->; destruct (hwf_kid h W p p Hk) as (Q & _); congruence).
  assert (Fk : forall ts ks, Forall2 (rep h) ts ks -> (forall k, In k ks -> k <> p) -> Forall2 (rep h') ts ks).
  { intros ts ks F. induction F as [|x y ts ks F0 F IH]; intros Hn; constructor; [apply Rk; [exact F0|apply Hn; left; reflexivity]|apply IH; intros k Hk; apply Hn; right; exact Hk]. }
  exists h'. split; [exact Eq|]. split; [split; [apply Inv|exact A']|]. split; [exact EL|]. split.
  - split; [|split; [exact P'|lia]]. apply rep_unfold. destruct (EJ p) as (E1 & _ & E3). rewrite E1, E3, Nat.eqb_refl. split; [exact Ef|]. apply Forall2_app; [apply Fk; [exact Kl|intros k Hk; apply Kp; rewrite E; apply in_or_app; left; exact Hk]|].
    constructor; [apply Rk; assumption|]. apply Fk; [exact Kr|]. intros k Hk. apply Kp. rewrite E. apply in_or_app. right. exact Hk.
  - split.
    + intros t' j (Rj & Pj & Lj) Nj Nc. split; [apply Rk; assumption|]. destruct (EJ j) as (_ & E2 & _). rewrite E2. destruct (Nat.eqb_spec j c); [contradiction|]. split; [exact Pj|lia].
    + intros j Nj Nc. destruct (EJ j) as (E1 & E2 & E3). destruct (Nat.eqb_spec j c); [contradiction|]. destruct (Nat.eqb_spec j p); [contradiction|]. destruct (nd h' j), (nd h j). cbn in *. congruence.
Qed.
Lemma extends_only h0 h h' (ps : list nat) : extends h0 h -> length h' = length h -> (forall j, ~ In j ps -> nd h' j = nd h j) -> Forall (fun p => (length h0 <= p)%nat) ps -> extends h0 h'.
Proof.
  intros [L X] E K F. split; [lia|]. intros j Hj. rewrite K; [apply X; exact Hj|]. intros I. rewrite Forall_forall in F. specialize (F j I). lia.
Qed.
(** many, behind one another and behind the children already there *)
Lemma own_add_all p f : forall cs ts h l, fine h -> own h (T f l) p -> Forall2 (own h) ts cs -> ~ In p cs -> NoDup cs ->
  Forall (fun t => t_fits t (T f [])) ts -> StronglySorted t_before (l ++ ts) ->
  exists h', kids_add h p cs = (h', Ok tt) /\ fine h' /\ length h' = length h /\ own h' (T f (l ++ ts)) p /\
    (forall t' j, own h t' j -> j <> p -> ~ In j cs -> own h' t' j) /\ (forall j, j <> p -> ~ In j cs -> nd h' j = nd h j).
Proof.
  induction cs as [|c cs IH]; intros ts h l Hf Op F Np ND Ft S; inversion F as [|t ? ts' ? Oc F']; subst.
  - exists h. cbn [kids_add]. rewrite app_nil_r. auto 8.
  - inversion ND as [|? ? Nc ND']; subst. inversion Ft as [|? ? Ft1 Ft2]; subst. rewrite kids_add_many.
    destruct (own_add h p c f l [] t Hf) as (h1 & E1 & Hf1 & L1 & O1 & K1 & K2); [rewrite app_nil_r; exact Op|exact Oc|intros ->; apply Np; left; reflexivity|exact Ft1| |constructor|].
    { apply SS_app_inv in S. destruct S as (_ & _ & S). apply Forall_forall. intros x Hx. apply S; [exact Hx|left; reflexivity]. }
    rewrite E1. destruct (IH ts' h1 (l ++ [t])) as (h2 & E2 & Hf2 & L2 & O2 & K3 & K4); try assumption.
    + clear - F' K1 Np Nc. induction F' as [|x y ts ks F0 F IH]; constructor; [apply K1; [exact F0|intros ->; apply Np; right; left; reflexivity|intros ->; apply Nc; left; reflexivity]|].
      apply IH; [intros [I|I]; apply Np; [left; exact I|right; right; exact I]|intros I; apply Nc; right; exact I].
    + intros I. apply Np. right. exact I.
    + rewrite <- app_assoc. exact S.
    + exists h2. rewrite <- app_assoc in O2. split; [exact E2|]. split; [exact Hf2|]. split; [lia|]. split; [exact O2|]. split.
      * intros t' j Oj Nj Ncj. apply K3; [apply K1; [exact Oj|exact Nj|intros ->; apply Ncj; left; reflexivity]|exact Nj|intros I; apply Ncj; right; exact I].
      * intros j Nj Ncj. rewrite K4; [apply K2; [exact Nj|intros ->; apply Ncj; left; reflexivity]|exact Nj|intros I; apply Ncj; right; exact I].
Qed.

(** ** from_match when the parents are known *)
Lemma SS_same {A} (R : A -> A -> Prop) : (forall x, ~ R x x) -> (forall x y, R x y -> R y x -> False) -> forall l l', StronglySorted R l -> StronglySorted R l' -> (forall x, In x l <-> In x l') -> l = l'.
Proof.
  intros N Q. induction l as [|x l IH]; intros l' Sl Sl' H.
  - destruct l' as [|y l']; [reflexivity|]. destruct (proj2 (H y) (or_introl eq_refl)).
  - inversion Sl as [|? ? Sl1 Fl]; subst. destruct l' as [|y l']; [destruct (proj1 (H x) (or_introl eq_refl))|]. inversion Sl' as [|? ? Sl1' Fl']; subst. rewrite Forall_forall in Fl, Fl'.
    assert (x = y). { destruct (proj1 (H x) (or_introl eq_refl)) as [->|I]; [reflexivity|]. destruct (proj2 (H y) (or_introl eq_refl)) as [->|I2]; [reflexivity|]. exfalso. exact (Q x y (Fl y I2) (Fl' x I)). }
    subst y. f_equal. apply IH; auto. intros z. split; intros I.
    + destruct (proj1 (H z) (or_intror I)) as [->|I2]; [exfalso; exact (N z (Fl z I))|exact I2].
    + destruct (proj2 (H z) (or_intror I)) as [->|I2]; [exfalso; exact (N z (Fl' z I))|exact I2].
Qed.
Definition is_par (pars : list (option nat)) (j : option nat) (k : nat) : bool :=
  match nth k pars None, j with None, None => true | Some a, Some b => (a =? b)%nat | _, _ => false end.
Lemma is_par_spec pars j k : is_par pars j k = true <-> nth k pars None = j.
Proof. unfold is_par. destruct (nth k pars None) as [a|], j as [b|]; try (split; congruence). rewrite Nat.eqb_eq. split; congruence. Qed.
Lemma from_match_shape h m df gks all pars : fine h -> sort_caps (captures m gks) = all ->
  Forall (cap_valid (rm_string m)) (map fst all) -> (forall x y, In x (map fst all) -> In y (map fst all) -> ~ cap_cross x y) ->
  (forall j, (j < length all)%nat -> match nth j pars None with Some i => nearest_container (map fst all) i j | None => no_container (map fst all) j end) ->
  let base := length h in let kids_of j := map (Nat.add base) (filter (is_par pars j) (seq 0 (length all))) in
  exists h', from_match h m df gks = (h', Ok (kids_of None)) /\ extends h h' /\ fine h' /\ length h' = (base + length all)%nat /\
    (forall j, (j < length all)%nat -> nd h' (base + j) =
       Nd (FI (rm_string m) (fst (fst (nth j all ((0, 0), KInt 0)))) (snd (fst (nth j all ((0, 0), KInt 0)))) (df (snd (nth j all ((0, 0), KInt 0)))) None)
          (option_map (Nat.add base) (nth j pars None)) (kids_of (Some j))).
Proof.
  intros [W A] E V X P base kids_of. destruct (sort_caps_spec (captures m gks)) as (SP & SS0 & _). rewrite E in SP, SS0.
  destruct (from_match_spec h m df gks W A) as (h' & roots & E1 & X1 & W1 & A1 & L1 & D1 & P1 & R1 & _).
  { apply Forall_forall. intros x Hx. rewrite Forall_forall in V. apply V. eapply Permutation_in; [apply Permutation_map; apply Permutation_sym; exact SP|exact Hx]. }
  { intros x y Hx Hy. apply X; (eapply Permutation_in; [apply Permutation_map; apply Permutation_sym; exact SP|assumption]). }
  cbv zeta in D1, P1, R1, L1, E1. rewrite E in D1, P1, R1, L1. fold base in L1, D1, P1, R1.
  assert (PP : forall j, (j < length all)%nat -> n_par (nd h' (base + j)) = option_map (Nat.add base) (nth j pars None)).
  { intros j Hj. destruct (P1 j Hj) as [Q1 Q2]. specialize (P j Hj). destruct (nth j pars None) as [i|]; [apply Q1; exact P|apply Q2; exact P]. }
  assert (Dom : forall c q, n_par (nd h' c) = Some q -> (base <= q)%nat -> exists k, c = (base + k)%nat /\ (k < length all)%nat).
  { intros c q Hc Hq. destruct (Nat.lt_ge_cases c base) as [L|L].
    - exfalso. destruct X1 as [_ XN]. rewrite (XN c L) in Hc. destruct (hwf_par h W q c Hc). unfold base in *. lia.
    - destruct (hwf_par h' W1 q c Hc) as [I _]. destruct (hwf_kid h' W1 q c I) as (_ & _ & _ & Lc). exists (c - base)%nat. lia. }
  exists h'. split.
  - rewrite E1. f_equal. f_equal. rewrite R1. unfold kids_of. clear - PP. assert (G : forall n, (n <= length all)%nat -> filter (is_root h') (map (Nat.add base) (seq 0 n)) = map (Nat.add base) (filter (is_par pars None) (seq 0 n))).
    { induction n as [|n IH]; intros Hn; [reflexivity|]. rewrite seq_S. cbn [plus]. rewrite map_app, !filter_app, map_app, IH by lia. f_equal. cbn [map filter]. unfold is_root. rewrite PP by lia. unfold is_par. destruct (nth n pars None); reflexivity. }
    rewrite <- G by lia. f_equal. clear. generalize (length all). intros n. clear. assert (H : forall k a, seq (base + a) k = map (Nat.add base) (seq a k)). { induction k as [|k IH]; intros a; [reflexivity|]. cbn. f_equal. rewrite <- IH. f_equal. lia. }
    rewrite <- H. rewrite Nat.add_0_r. reflexivity.
  - split; [exact X1|]. split; [split; assumption|]. split; [exact L1|]. intros j Hj.
    assert (K : n_kids (nd h' (base + j)) = kids_of (Some j)).
    { apply (SS_same (h_before h')); [intros x [Q _]; lia|intros x y [Q1 _] [Q2 _]; lia|apply (hwf_sorted h' W1)| |].
      - (* siblings are in order *)
        assert (G : forall n, (n <= length all)%nat -> StronglySorted (h_before h') (map (Nat.add base) (filter (is_par pars (Some j)) (seq 0 n)))).
        { induction n as [|n IH]; intros Hn; [constructor|]. rewrite seq_S. cbn [plus]. rewrite filter_app, map_app. apply SS_app; [apply IH; lia|cbn; destruct (is_par pars (Some j) n); [constructor; constructor|constructor]|].
          intros x y Hx Hy. cbn [filter] in Hy. destruct (is_par pars (Some j) n) eqn:En; [|destruct Hy]. destruct Hy as [<-|[]]. apply in_map_iff in Hx. destruct Hx as (k & <- & Hk). apply filter_In in Hk. destruct Hk as [Hk Ek]. apply in_seq in Hk. apply is_par_spec in Ek, En.
          assert (I1 : In (base + k)%nat (n_kids (nd h' (base + j)))) by (apply (hwf_par h' W1); rewrite PP by lia; rewrite Ek; reflexivity).
          assert (I2 : In (base + n)%nat (n_kids (nd h' (base + j)))) by (apply (hwf_par h' W1); rewrite PP by lia; rewrite En; reflexivity).
          assert (O : h_start h' (base + k) <= h_start h' (base + n)).
          { unfold h_start. rewrite !D1 by lia. cbn [f_start]. pose proof (CombinFacts4.SS_nth cap2_order ((0, 0), KInt 0) all SS0 k n ltac:(lia)) as O. unfold cap2_order, cap_order in O. lia. }
          pose proof (hwf_sorted h' W1 (base + j)%nat) as Sd. unfold kids_sorted in Sd. destruct (in_split _ _ I1) as (u & v & Eu). rewrite Eu in I2, Sd. apply SS_app_inv in Sd. destruct Sd as (_ & Sd & Sx). inversion Sd as [|? ? _ Fv]; subst. apply in_app_or in I2. destruct I2 as [I2|[I2|I2]].
          - destruct (Sx _ (base + k)%nat I2 (or_introl eq_refl)). lia.
          - lia.
          - rewrite Forall_forall in Fv. apply Fv. exact I2. }
        apply G. lia.
      - intros x. unfold kids_of. split.
        + intros I. destruct (hwf_kid h' W1 _ _ I) as (Q & _). destruct (Dom x _ Q ltac:(lia)) as (k & -> & Hk). apply in_map_iff. exists k. split; [reflexivity|]. apply filter_In. split; [apply in_seq; lia|]. apply is_par_spec. rewrite PP in Q by lia. destruct (nth k pars None) as [i|]; [|discriminate]. injection Q as Q. f_equal. lia.
        + intros I. apply in_map_iff in I. destruct I as (k & <- & I). apply filter_In in I. destruct I as [I Ek]. apply in_seq in I. apply is_par_spec in Ek. apply (hwf_par h' W1). rewrite PP by lia. rewrite Ek. reflexivity. }
    rewrite <- K, <- PP, <- D1 by lia. destruct (nd h' (base + j)). reflexivity.
Qed.

(** ** Extract *)
(** the match m, with the keys and descriptors, gives the tree t *)
Definition gives (df : rmatch -> gkey -> option pystr) (keys : rmatch -> list gkey) (m : rmatch) (t : tree) : Prop :=
  forall h, fine h -> exists h' r, from_match h m (df m) (keys m) = (h', Ok [r]) /\ extends h h' /\ fine h' /\ own h' t r /\ (length h <= r)%nat.
Lemma run_gives df keys : forall ms ts, Forall2 (gives df keys) ms ts -> forall h, fine h ->
  exists h' ls, run_matches h keys df ms = (h', Ok ls) /\ extends h h' /\ fine h' /\ Forall2 (own h') ts (concat ls) /\ Forall (fun c => (length h <= c)%nat) (concat ls) /\ NoDup (concat ls).
Proof.
  intros ms ts F. induction F as [|m t ms ts G F IH]; intros h Hf.
  - exists h, []. cbn. split; [reflexivity|]. split; [apply extends_refl|]. split; [exact Hf|]. split; [constructor|]. split; constructor.
  - destruct (G h Hf) as (h1 & r & E1 & X1 & Hf1 & O1 & L1). destruct (IH h1 Hf1) as (h2 & ls & E2 & X2 & Hf2 & O2 & L2 & N2).
    exists h2, ([r] :: ls). cbn [run_matches]. rewrite E1. unfold obind. cbn [fst snd]. rewrite E2. cbn [fst snd concat app]. split; [reflexivity|]. split; [exact (extends_trans _ _ _ X1 X2)|]. split; [exact Hf2|].
    split; [constructor; [exact (own_ext _ _ _ _ Hf1 X2 O1)|exact O2]|]. destruct X1 as [X1 _]. destruct O1 as (_ & _ & O1).
    split; [constructor; [exact L1|eapply Forall_impl; [|exact L2]; cbn; intros; lia]|]. constructor; [|exact N2]. intros I. rewrite Forall_forall in L2. specialize (L2 _ I). lia.
Qed.
Lemma extract_own re r h i s a b ms ts : fine h -> (i < length h)%nat -> h_string h i = s -> h_start h i = a -> h_stop h i = b ->
  finds r (zsub s a b) a ms ->
  Forall2 (gives default_desc (re_keys re default_filter)) (map (to_match re s) ms) ts ->
  exists h' l, extract re r h i = (h', Ok l) /\ extends h h' /\ fine h' /\ Forall2 (own h') ts l /\ Forall (fun c => (length h <= c)%nat) l /\ NoDup l.
Proof.
  intros [W A] Hi Es Ea Eb F G. destruct (clone_same h i W A Hi) as (h1 & Ec & X1 & L1 & W1 & A1 & Ef & _).
  destruct (run_gives default_desc (re_keys re default_filter) _ _ G h1 (conj W1 A1)) as (h2 & ls & E2 & X2 & Hf2 & O2 & L2 & N2).
  exists h2, (concat ls). split; [|split; [exact (extends_trans _ _ _ X1 X2)|]; split; [exact Hf2|]; split; [exact O2|]; split; [|exact N2]; eapply Forall_impl; [|exact L2]; cbn; intros; destruct X1; lia].
  unfold extract. assert (D : drain (call 1 (fun _ => Itor (TExtract re (finditer re r) None (Some default_desc) default_filter) [] PostNone) 0%nat i) h = (h2, (concat ls, None))).
  { unfold call. rewrite drain_act, Ec. cbn [traverse it_post it_tr it_cons run_post]. rewrite drain_plain. cbn [transform_of]. rewrite drain_act.
    assert (Es1 : h_string h1 (length h) = s) by (unfold h_string in *; rewrite Ef; exact Es). assert (Ea1 : h_start h1 (length h) = a) by (unfold h_start in *; rewrite Ef; exact Ea). assert (Eb1 : h_stop h1 (length h) = b) by (unfold h_stop in *; rewrite Ef; exact Eb).
    rewrite Es1, Ea1, Eb1. unfold finditer. rewrite (finds_finditer r (zsub s a b) a ms F (S (length (zsub s a b)))) by lia. rewrite from_re_nolimit by exact I. rewrite E2. unfold obind. cbn [fst snd]. rewrite drain_of_list. reflexivity. }
  rewrite D. reflexivity.
Qed.
