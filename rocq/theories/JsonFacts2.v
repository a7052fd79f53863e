(** Proofs: encoding and decoding on the heap. *)
From Verif Require Export JsonFacts QueryFacts12 QueryFacts15 AxisFacts3 CombinFacts.
From Coq Require Import Arith.

(** objects outside p's tree and the new ones are not touched *)
Lemma add_hier_frame key n p : forall cs cts h ts ts', hwf h -> acyclic h -> (p < length h)%nat -> NoDup cs ->
  Forall (fun c => (c < length h)%nat /\ n_par (nd h c) = None /\ c <> p /\ ~ anc h c p /\ fits h c p) cs ->
  Forall2 (rep h) ts (n_kids (nd h p)) -> Forall2 (rep h) cts cs ->
  hfold (fun ks d => hadd n key (n_f (nd h p)) ks d) cts ts = Ok ts' ->
  exists h', add_hier n key h p cs = (h', Ok tt) /\ hwf h' /\ acyclic h' /\ length h' = length h /\ (forall j, n_f (nd h' j) = n_f (nd h j)) /\ Forall2 (rep h') ts' (n_kids (nd h' p)) /\
    n_par (nd h' p) = n_par (nd h p) /\ (forall j, ~ self_or_anc h p j -> (forall c, In c cs -> ~ self_or_anc h c j) -> nd h' j = nd h j).
Proof.
  induction cs as [|c cs IH]; intros cts h ts ts' H Ha Hp Hnd Hcs R Rc E.
  - inversion Rc; subst. cbn [hfold] in E. injection E as <-. exists h. repeat (split; [auto; fail|]). auto.
  - inversion Rc as [|tc ? cts' ? Rc1 Rc2]; subst. cbn [hfold] in E. fold (hfold (fun ks d => hadd n key (n_f (nd h p)) ks d)) in E.
    inversion Hcs as [|? ? (C1 & C2 & C3 & C4 & C5) C6]; subst. inversion Hnd as [|? ? Hni Hnd']; subst.
    assert (Pre : pre h p c ts) by (constructor; assumption). pose proof (refines_all key n h p c ts tc Pre Rc1) as Ref.
    destruct (hadd n key (n_f (nd h p)) ts tc) as [ts1|e]; cbn [bind] in E; [|discriminate]. destruct Ref as (h1 & E1 & Po). pose proof Po as [W A L D P F An R'].
    cbn [add_hier]. rewrite E1. unfold obind. cbn [fst snd].
    assert (Hroot : forall a x, n_par (nd h x) = None -> ~ anc h a x) by (intros a x Nx X; apply anc_up_inv in X; destruct X as (q & Eq & _); congruence).
    assert (Hfree : forall c' j, In c' cs -> self_or_anc h c' j -> nd h1 j = nd h j).
    { intros c' j Hc' Hj. rewrite Forall_forall in C6. destruct (C6 c' Hc') as (_ & N & Np & Na & _). assert (Hcc : c' <> c) by (intros ->; contradiction).
      apply F.
      - intros ->. destruct Hj as [Hj|Hj]; [congruence|contradiction].
      - destruct Hj as [->|Hj]; [apply Hroot; exact N|]. intros X. destruct (apart h p c' j N Np Na X) as [_ Y]. contradiction.
      - intros ->. destruct Hj as [Hj|Hj]; [congruence|exact (Hroot c' c C2 Hj)].
      - destruct Hj as [->|Hj]; [apply Hroot; exact N|]. intros X. destruct (apart h c c' j N Hcc (Hroot c' c C2) X) as [_ Y]. contradiction. }
    destruct (IH cts' h1 ts1 ts') as (h' & E' & W' & A' & L' & D' & R'' & P' & F'); auto.
    + lia.
    + rewrite Forall_forall in *. intros c' Hc'. destruct (C6 c' Hc') as (X1 & X2 & X3 & X4 & X5). split; [lia|]. rewrite (Hfree c' c' Hc' (or_introl eq_refl)). split; [exact X2|]. split; [exact X3|]. split.
      * intros X. apply X4. apply (post_up h h1 p c ts1 c' H Ha C2 C3 C4 Po X).
      * apply (data_fits h); [apply D|apply D|exact X5].
    + clear - Rc2 Hfree H. assert (G : forall cts' xs, Forall2 (rep h) cts' xs -> (forall x, In x xs -> In x cs) -> Forall2 (rep h1) cts' xs).
      { intros q xs F. induction F as [|t x q xs Ht F IH]; intros Hin; constructor; [|apply IH; intros; apply Hin; right; assumption].
        apply (rep_frame h h1 H t x Ht). intros j Hj. rewrite (Hfree x j (Hin x (or_introl eq_refl)) Hj). auto. }
      apply G; auto.
    + rewrite D. exact E.
    + exists h'. split; [exact E'|]. split; [exact W'|]. split; [exact A'|]. split; [lia|]. split; [intros j; rewrite D'; apply D|]. split; [exact R''|]. split; [congruence|].
      intros j Hj Hc. assert (J1 : nd h1 j = nd h j).
      { apply F; [intros ->; apply Hj; left; reflexivity|intros X; apply Hj; right; exact X|intros ->; apply (Hc c (or_introl eq_refl)); left; reflexivity|intros X; apply (Hc c (or_introl eq_refl)); right; exact X]. }
      assert (Up : forall a x, self_or_anc h1 a x -> (a = p \/ In a cs) -> ~ self_or_anc h p x -> ~ self_or_anc h c x -> self_or_anc h a x).
      { intros a x [->|X] Ha1 Np Nc; [left; reflexivity|]. right.
        assert (K : forall x, anc h1 a x -> ~ self_or_anc h p x -> ~ self_or_anc h c x -> anc h a x).
        { clear x X Np Nc. intros x X. induction X as [x X|x q X1 X2 IHx]; intros Np Nc.
          - assert (nd h1 x = nd h x) as Ex by (apply F; [intros ->; apply Np; left; reflexivity|intros Y; apply Np; right; exact Y|intros ->; apply Nc; left; reflexivity|intros Y; apply Nc; right; exact Y]). rewrite Ex in X. apply anc_parent. exact X.
          - assert (nd h1 x = nd h x) as Ex by (apply F; [intros ->; apply Np; left; reflexivity|intros Y; apply Np; right; exact Y|intros ->; apply Nc; left; reflexivity|intros Y; apply Nc; right; exact Y]). rewrite Ex in X1. apply (anc_up _ _ _ q X1). apply IHx.
            + intros [->|Y]; apply Np; right; [apply anc_parent; exact X1|apply (anc_down h p q); assumption].
            + intros [->|Y]; apply Nc; right; [apply anc_parent; exact X1|apply (anc_down h c q); assumption]. }
        apply K; assumption. }
      rewrite <- J1. apply F'.
      * intros X. apply Hj. apply (Up p j X); auto. apply (Hc c (or_introl eq_refl)).
      * intros c' Hc' X. apply (Hc c' (or_intror Hc')). apply (Up c' j X); auto. apply (Hc c (or_introl eq_refl)).
Qed.

(** ** encoding *)
Fixpoint enc (t : tree) : json :=
  let (f, ts) := t in
  JObj [(lit "span", JArr [JInt (f_start f); JInt (f_stop f)]); (lit "desc", jdesc (f_desc f)); (lit "children", JArr (map enc ts))].
Lemma map_res_ok {A B} (f : A -> res B) g l : (forall x, In x l -> f x = Ok (g x)) -> map_res f l = Ok (map g l).
Proof. intros H. induction l as [|x l IH]; [reflexivity|]. cbn [map_res map]. fold (map_res f). rewrite (H x (or_introl eq_refl)). cbn [bind]. rewrite IH by (intros; apply H; right; assumption). reflexivity. Qed.
Lemma encoder_spec h : forall t n i, rep h t i -> (t_height t <= n)%nat -> ito_encoder n true h i = Ok (enc t).
Proof.
  induction t as [f ts IH] using tree_ind'. intros n i R Hn. destruct n as [|n]; [cbn in Hn; lia|]. apply rep_unfold in R. destruct R as [<- F]. cbn [ito_encoder enc].
  assert (G : map_res (ito_encoder n true h) (n_kids (nd h i)) = Ok (map enc ts)).
  { assert (Hh : forall t, In t ts -> (t_height t <= n)%nat) by (intros t Ht; pose proof (t_height_kids (n_f (nd h i)) ts t Ht); lia). clear Hn. induction F as [|t k ts ks Hk F IHF]; [reflexivity|]. inversion IH; subst. cbn [map_res map]. fold (map_res (ito_encoder n true h)).
    rewrite (H1 n k Hk) by (apply Hh; left; reflexivity). cbn [bind]. rewrite IHF by (auto; intros; apply Hh; right; assumption). reflexivity. }
  rewrite G. reflexivity.
Qed.

(** ** decoding *)
Lemma enc_get t : jget (enc t) (lit "span") = JArr [JInt (t_start t); JInt (t_stop t)] /\ jget (enc t) (lit "desc") = jdesc (f_desc (t_f t)) /\ jget (enc t) (lit "children") = JArr (map enc (t_kids t)).
Proof. destruct t. repeat split. Qed.
Lemma j_desc_jdesc d : j_desc (jdesc d) = Ok d. Proof. destruct d; reflexivity. Qed.
Lemma forget_t_f t : t_f (forget t) = forget_f (t_f t). Proof. destruct t; reflexivity. Qed.
Lemma forget_nodes t : t_nodes (forget t) = map forget_f (t_nodes t).
Proof.
  induction t as [f ts IH] using tree_ind'. cbn [forget t_nodes map]. f_equal. induction ts as [|t ts IHt]; [reflexivity|]. inversion IH; subst. cbn [map flat_map]. rewrite map_app, H1, IHt by assumption. reflexivity.
Qed.
Lemma forget_settled t : settled t -> settled (forget t).
Proof.
  induction t as [f ts IH] using tree_ind'. cbn [forget]. rewrite !settled_T. intros (E & N & S). split; [|split; [exact N|]].
  - intros k Ek. destruct ts as [|u [|]]; try discriminate. injection Ek as <-. rewrite forget_t_f. apply (E u). reflexivity.
  - rewrite Forall_forall in *. intros t Ht. apply in_map_iff in Ht. destruct Ht as (u & <- & Hu). auto.
Qed.
Lemma forget_safe t : json_safe t -> json_safe (forget t).
Proof.
  induction t as [f ts IH] using tree_ind'. intros H. inversion H as [? ? S J]; subst. cbn [forget]. constructor.
  - destruct ts as [|t ts]; [constructor|]. cbn [map tl] in *. rewrite Forall_forall in *. intros x Hx. apply in_map_iff in Hx. destruct Hx as (u & <- & Hu). apply forget_settled. auto.
  - rewrite Forall_forall in *. intros x Hx. apply in_map_iff in Hx. destruct Hx as (u & <- & Hu). auto.
Qed.
Lemma forget_twf t : twf t -> twf (forget t).
Proof.
  induction t as [f ts IH] using tree_ind'. cbn [forget]. rewrite !twf_unfold. intros (Ff & S & Fi & K). split; [exact Ff|]. split; [|split].
  - clear - S. induction S as [|t ts S IH F]; [constructor|]. cbn [map]. constructor; [exact IH|]. rewrite Forall_forall in *. intros x Hx. apply in_map_iff in Hx. destruct Hx as (u & <- & Hu). specialize (F u Hu). unfold t_before, t_start, t_stop in *. rewrite !forget_t_f. exact F.
  - rewrite Forall_forall in *. intros x Hx. apply in_map_iff in Hx. destruct Hx as (u & <- & Hu). specialize (Fi u Hu). unfold t_fits, t_string, t_start, t_stop in *. rewrite forget_t_f. exact Fi.
  - rewrite Forall_forall in *. intros x Hx. apply in_map_iff in Hx. destruct Hx as (u & <- & Hu). auto.
Qed.
Lemma forget_height t : t_height (forget t) = t_height t.
Proof. induction t as [f ts IH] using tree_ind'. cbn [forget t_height]. do 2 f_equal. rewrite map_map. apply map_ext_in. rewrite Forall_forall in IH. exact IH. Qed.
Lemma size_height t : (t_height t <= t_size t)%nat.
Proof.
  induction t as [f ts IH] using tree_ind'. cbn [t_height t_size]. apply le_n_S. apply list_max_le. rewrite Forall_forall in *. intros x Hx. apply in_map_iff in Hx. destruct Hx as (u & <- & Hu). specialize (IH u Hu).
  assert (t_size u <= list_sum (map t_size ts))%nat; [|lia]. clear IH. induction ts as [|v ts IHt]; [destruct Hu|]. cbn [map list_sum fold_right]. destruct Hu as [<-|Hu]; [lia|]. specialize (IHt Hu). unfold list_sum in IHt. lia.
Qed.

(** the string of every node of a well-formed tree *)
Lemma twf_strings t : twf t -> forall x, In x (t_nodes t) -> f_str x = t_string t.
Proof. intros H x Hx. destruct (twf_nodes t H x Hx) as [(E & _) _]. exact E. Qed.
Lemma new_below h g' i j : extends h g' -> hwf h -> hwf g' -> (length h <= i)%nat -> anc g' i j -> (length h <= j)%nat.
Proof.
  intros [L E] H H' Hi X. destruct (Nat.lt_ge_cases j (length h)) as [Hj|]; [|assumption]. exfalso. revert Hj. induction X as [j X|j q X1 X2 IH]; intros Hj.
  - rewrite E in X by exact Hj. apply (hwf_par h H) in X. lia.
  - rewrite E in X1 by exact Hj. apply (hwf_par h H) in X1. apply IH. lia.
Qed.
(** what decoding a tree must give: a fresh object with that tree and no parent *)
Definition decoded (g g' : heap) (t : tree) (i : nat) : Prop :=
  extends g g' /\ hwf g' /\ acyclic g' /\ (length g <= i < length g')%nat /\ n_par (nd g' i) = None /\ rep g' t i.
Definition decodeds (g g' : heap) (ts : list tree) (cs : list nat) : Prop :=
  extends g g' /\ hwf g' /\ acyclic g' /\ Forall (fun c => (length g <= c < length g')%nat /\ n_par (nd g' c) = None) cs /\ NoDup cs /\ Forall2 (rep g') ts cs.
Lemma decoded_cons g g1 g2 t ts c cs : hwf g -> decoded g g1 t c -> decodeds g1 g2 ts cs -> decodeds g g2 (t :: ts) (c :: cs).
Proof.
  intros Hg (X1 & W1 & A1 & B1 & N1 & R1) (X2 & W2 & A2 & B2 & N2 & R2). split; [eapply extends_trans; eassumption|]. split; [exact W2|]. split; [exact A2|].
  pose proof X1 as [L1 _]. pose proof X2 as [L2 E2]. split; [|split].
  - constructor; [split; [lia|rewrite E2 by lia; exact N1]|]. eapply Forall_impl; [|exact B2]. cbv beta. intros x [Hx Hn]. split; [lia|exact Hn].
  - constructor; [|exact N2]. intros Hin. rewrite Forall_forall in B2. destruct (B2 c Hin) as [Hb _]. lia.
  - constructor; [apply (rep_extends g1 g2); auto; lia|exact R2].
Qed.
Lemma acyclic_new h f : hwf h -> acyclic h -> acyclic (h ++ [Nd f None []]).
Proof. intros H Ha. apply (acyclic_mono h); [|exact Ha]. intros j p. rewrite nd_app. destruct (Nat.eqb_spec j (length h)); [discriminate|auto]. Qed.
(** attaching decoded children to a fresh parent *)
Lemma decoded_attach g f ts h2 cs n : hwf g -> acyclic g -> fwf f -> decodeds (g ++ [Nd f None []]) h2 ts cs ->
  Forall (fun c => inside (t_f c) f) ts -> hfold (fun ks d => hadd n None f ks d) ts [] = Ok ts ->
  exists h3, add_hier n None h2 (length g) cs = (h3, Ok tt) /\ decoded g h3 (T f ts) (length g).
Proof.
  intros Hg Ag Ff (X & W & A & B & Nd1 & R) Fi Hf. pose proof X as [L E]. rewrite app_length in L. cbn [length] in L. rewrite app_length in E. cbn [length] in E.
  assert (En : nd h2 (length g) = Nd f None []) by (rewrite E by lia; rewrite nd_app, Nat.eqb_refl; reflexivity).
  assert (Hw1 : hwf (g ++ [Nd f None []])) by (apply hwf_new; assumption).
  rewrite Forall_forall in B. assert (B' : forall c, In c cs -> (S (length g) <= c < length h2)%nat /\ n_par (nd h2 c) = None).
  { intros c Hc. specialize (B c Hc). rewrite app_length in B. cbn [length] in B. lia || (destruct B as [B1 B2]; split; [lia|exact B2]). }
  assert (Nb : forall c, In c cs -> ~ anc h2 c (length g)) by (intros c Hc Y; apply anc_up_inv in Y; destruct Y as (q & Y & _); rewrite En in Y; discriminate).
  destruct (add_hier_frame None n (length g) cs ts h2 [] ts) as (h3 & E3 & W3 & A3 & L3 & D3 & R3 & P3 & F3); auto.
  - lia.
  - apply Forall_forall. intros c Hc. destruct (B' c Hc) as [B1 B2]. split; [lia|]. split; [exact B2|]. split; [lia|]. split; [apply Nb; exact Hc|].
    apply fits_inside. destruct (Forall2_in_r _ _ _ _ R Hc) as (t & Ht & Rt). rewrite (rep_f _ _ _ Rt). rewrite En. cbn [n_f]. rewrite Forall_forall in Fi. apply Fi. exact Ht.
  - rewrite En. constructor.
  - rewrite En. exact Hf.
  - exists h3. split; [exact E3|]. split; [|split; [exact W3|split; [exact A3|split; [lia|split]]]].
    + split; [lia|]. intros j Hj. rewrite F3.
      * rewrite E by lia. rewrite nd_app. destruct (Nat.eqb_spec j (length g)); [lia|reflexivity].
      * intros [Y|Y]; [lia|]. assert (Ex : extends g h2) by (apply (extends_trans g (g ++ [Nd f None []])); [apply extends_new|exact X]). apply (new_below g h2 (length g) j Ex Hg W ltac:(lia)) in Y. lia.
      * intros c Hc [Y|Y]; destruct (B' c Hc) as [B1 _]; [lia|]. assert (Ex : extends g h2) by (apply (extends_trans g (g ++ [Nd f None []])); [apply extends_new|exact X]). apply (new_below g h2 c j Ex Hg W ltac:(lia)) in Y. lia.
    + rewrite P3, En. reflexivity.
    + apply rep_unfold. split; [rewrite D3, En; reflexivity|exact R3].
Qed.
Lemma enc_size t : forall k, In k (t_kids t) -> (jsize (enc k) < jsize (enc t))%nat.
Proof.
  destruct t as [f ts]. cbn [t_kids enc jsize map list_sum fold_right snd]. intros k Hk.
  assert (jsize (enc k) <= list_sum (map jsize (map enc ts)))%nat; [|unfold list_sum in *; lia].
  induction ts as [|u ts IH]; [destruct Hk|]. cbn [map list_sum fold_right]. destruct Hk as [->|Hk]; [lia|]. specialize (IH Hk). unfold list_sum in IH. lia.
Qed.
Lemma hook_spec s : forall t n g, twf t -> t_string t = s -> json_safe t -> (jsize (enc t) <= n)%nat -> hwf g -> acyclic g ->
  exists g' i, ito_hook n s g (enc t) = (g', Ok i) /\ decoded g g' (forget t) i.
Proof.
  induction t as [f ts IH] using tree_ind'. intros n g Ht Es Js Hn Hg Ag. destruct n as [|n]; [cbn in Hn; lia|]. inversion Js as [? ? S1 S2]; subst. pose proof Ht as Ht0. apply twf_forest in Ht0. destruct Ht0 as (Ff & Sf & Fi & Kw).
  destruct (enc_get (T f ts)) as (G1 & G2 & G3). cbn [ito_hook]. rewrite G1, G2, G3. unfold t_start, t_stop, t_string in *. cbn [t_f t_kids] in *.
  unfold lift, obind at 1. cbn [j_span fst snd]. unfold obind at 1. rewrite j_desc_jdesc. cbn [fst snd]. unfold obind at 1. unfold new_str, new_node. cbn [fst snd].
  rewrite ito_of_str_in by (unfold fwf in Ff; lia). change (FI (f_str f) (f_start f) (f_stop f) (f_desc f) None) with (forget_f f).
  assert (M : forall ts', (forall t, In t ts' -> In t ts) -> forall h, hwf h -> acyclic h ->
            exists h2 cs, map_out (ito_hook n (f_str f)) h (map enc ts') = (h2, Ok cs) /\ decodeds h h2 (map forget ts') cs).
  { induction ts' as [|t ts' IHt]; intros Sub h Hh Ah.
    - exists h, []. split; [reflexivity|]. split; [apply extends_refl|]. split; [exact Hh|]. split; [exact Ah|]. split; [constructor|]. split; constructor.
    - assert (Hin : In t ts) by (apply Sub; left; reflexivity). rewrite Forall_forall in IH, S2, Kw, Fi.
      destruct (IH t Hin n h) as (h1 & c & E1 & D1); auto.
      + destruct (Fi t Hin) as [E _]. exact E.
      + pose proof (enc_size (T f ts) t Hin). lia.
      + pose proof D1 as (X1 & W1 & A1 & _). destruct (IHt (fun u Hu => Sub u (or_intror Hu)) h1 W1 A1) as (h2 & cs & E2 & D2). exists h2, (c :: cs). split.
        * cbn [map map_out]. fold (map_out (ito_hook n (f_str f))). rewrite E1. unfold obind. cbn [fst snd]. rewrite E2. reflexivity.
        * cbn [map]. apply (decoded_cons h h1); assumption. }
  destruct (M ts (fun t H => H) (g ++ [Nd (forget_f f) None []])) as (h2 & cs & E2 & D2); [apply hwf_new; assumption|apply acyclic_new; assumption|]. rewrite E2. unfold obind at 1. cbn [fst snd].
  assert (Tw : twf (forget (T f ts))) by (apply forget_twf; exact Ht). apply twf_forest in Tw. destruct Tw as (Ff' & Tw).
  assert (Js' : json_safe (forget (T f ts))) by (apply forget_safe; exact Js). inversion Js' as [? ? S1' S2']; subst.
  destruct (decoded_attach g (forget_f f) (map forget ts) h2 cs (hier_fuel h2)) as (h3 & E3 & D3); auto.
  - apply Tw.
  - apply hfold_settled; [exact Tw|exact S1'| |].
    + intros t Hin. destruct D2 as (X & W & A & B & N & R). destruct (Forall2_in_l _ _ _ _ R Hin) as (c & Hc & Rc).
      rewrite Forall_forall in B. destruct (B c Hc) as [Bc _]. pose proof (rep_size h2 t c W A ltac:(lia) Rc). pose proof (size_height t). unfold hier_fuel. lia.
    + destruct D2 as ([X _] & _). rewrite app_length in X. cbn in X. unfold hier_fuel. lia.
  - rewrite E3. unfold obind. cbn [fst snd]. exists h3, (length g). split; [reflexivity|exact D3].
Qed.

(** ** paths *)
Lemma path_fuel_S : forall n h i s, path_fuel n h i = Ok s -> path_fuel (S n) h i = Ok s.
Proof.
  induction n as [|n IH]; intros h i s H; [discriminate|]. cbn [path_fuel] in H. remember (S n) as m. cbn [path_fuel]. destruct (n_par (nd h i)) as [p|]; [|exact H]. destruct (position i (n_kids (nd h p)) 0); [|exact H].
  destruct (path_fuel n h p) as [s0|] eqn:E; [|discriminate]. rewrite (IH h p s0 E). exact H.
Qed.
Lemma path_fuel_mono n m h i s : (n <= m)%nat -> path_fuel n h i = Ok s -> path_fuel m h i = Ok s.
Proof. intros H. induction H; [auto|]. intros X. apply path_fuel_S. auto. Qed.
Lemma position_nth x l : NoDup l -> forall k n, nth_error l n = Some x -> position x l k = Some (k + n)%nat.
Proof.
  intros Hn. induction Hn as [|y l Hy Hn IH]; intros k n H; [destruct n; discriminate|]. cbn [position]. destruct n as [|n]; cbn in H.
  - injection H as ->. rewrite Nat.eqb_refl. f_equal. lia.
  - destruct (Nat.eqb_spec y x) as [->|_]; [exfalso; apply Hy; eapply nth_error_In; exact H|]. rewrite (IH (S k) n H). f_equal. lia.
Qed.
Lemma Forall2_nth {A B} (R : A -> B -> Prop) l l' : Forall2 R l l' -> forall n y, nth_error l' n = Some y -> exists x, nth_error l n = Some x /\ R x y.
Proof. intros F. induction F as [|x y0 l l' H F IH]; intros [|n] y E; try discriminate; [injection E as <-; exists x; auto|apply IH; exact E]. Qed.
Lemma Forall2_nth' {A B} (R : A -> B -> Prop) l l' : Forall2 R l l' -> forall n x, nth_error l n = Some x -> exists y, nth_error l' n = Some y /\ R x y.
Proof. intros F. induction F as [|x0 y l l' H F IH]; intros [|n] x E; try discriminate; [injection E as <-; exists y; auto|apply IH; exact E]. Qed.
Lemma sorted_NoDup_kids h p : hwf h -> NoDup (n_kids (nd h p)).
Proof. intros H. apply (SS_NoDup (h_before h)); [unfold h_before; intros x; lia|apply (hwf_sorted h H)]. Qed.
(** the node at the same place of an equal tree *)
Lemma path_iso h g root root' t : hwf h -> acyclic h -> hwf g -> acyclic g -> rep h t root -> rep g (forget t) root' -> n_par (nd g root') = None -> (root' < length g)%nat ->
  forall i, root_of h root i -> (i < length h)%nat ->
  exists i', root_of g root' i' /\ (i' < length g)%nat /\ ito_path g i' = ito_path h i /\ forall u, rep h u i -> rep g (forget u) i'.
Proof.
  intros Hh Ah Hg Ag R R' N' L'. assert (G : forall m i s, root_of h root i -> path_fuel m h i = Ok s ->
    exists i' n, root_of g root' i' /\ (i' < length g)%nat /\ path_fuel n g i' = Ok s /\ exists u, rep h u i /\ rep g (forget u) i').
  { induction m as [|m IH]; intros i s Ri Hs; [discriminate|]. cbn [path_fuel] in Hs. destruct (n_par (nd h i)) as [p|] eqn:Ep.
    - assert (Rp : root_of h root p).
      { destruct Ri as [R1 [->|R2]]; [congruence|]. split; [exact R1|]. inversion R2 as [? Q|? q Q1 Q2]; subst; [left; congruence|right; rewrite Ep in Q1; injection Q1 as <-; exact Q2]. }
      destruct (position i (n_kids (nd h p)) 0) as [k|] eqn:Ek; [|discriminate]. destruct (path_fuel m h p) as [s0|] eqn:E0; [|discriminate]. cbn [bind] in Hs. injection Hs as <-.
      destruct (IH p s0 Rp E0) as (p' & n & Rp' & Lp & En & [pf us] & Ru & Ru'). apply position_spec in Ek. destruct Ek as [_ Ek]. rewrite Nat.sub_0_r in Ek.
      apply rep_unfold in Ru. destruct Ru as [_ Fu]. cbn [forget] in Ru'. apply rep_unfold in Ru'. destruct Ru' as [_ Fu'].
      destruct (Forall2_nth _ _ _ Fu k i Ek) as (u & Eu & Ui). destruct (Forall2_nth' _ _ _ Fu' k (forget u)) as (i' & Ei & Ui'); [rewrite nth_error_map, Eu; reflexivity|].
      assert (Hin : In i' (n_kids (nd g p'))) by (eapply nth_error_In; exact Ei). destruct (hwf_kid g Hg p' i' Hin) as (Pi & _ & _ & Li).
      exists i', (S n). split; [|split; [exact Li|split; [|exists u; auto]]].
      + split; [exact N'|]. right. destruct Rp' as [_ [->|X]]; [apply anc_parent; exact Pi|apply (anc_up _ _ _ p'); assumption].
      + cbn [path_fuel]. rewrite Pi. rewrite (position_nth i' (n_kids (nd g p')) (sorted_NoDup_kids g p' Hg) 0 k Ei). rewrite En. reflexivity.
    - injection Hs as <-. assert (i = root) as ->. { destruct Ri as [_ [->|X]]; [reflexivity|]. apply anc_up_inv in X. destruct X as (q & X & _). congruence. }
      exists root', 1%nat. split; [split; [exact N'|left; reflexivity]|]. split; [exact L'|]. split; [cbn [path_fuel]; rewrite N'; reflexivity|]. exists t. auto. }
  intros i Ri Li. destruct (path_total h i Hh Ah Li) as (s & Es). destruct (G _ i s Ri Es) as (i' & n & R1 & L1 & En & u & U1 & U2). exists i'. split; [exact R1|]. split; [exact L1|]. split.
  - destruct (path_total g i' Hg Ag L1) as (s' & Es'). rewrite Es, Es'. unfold ito_path in Es'. pose proof (path_fuel_mono n (n + depth_fuel g) g i' s ltac:(lia) En) as X1. pose proof (path_fuel_mono (depth_fuel g) (n + depth_fuel g) g i' s' ltac:(lia) Es') as X2. congruence.
  - intros v Hv. rewrite <- (rep_fun h u v i U1 Hv). exact U2.
Qed.
