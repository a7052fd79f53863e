(** Proofs: decoding any JSON document (C126). *)
From Verif Require Import SpecDoc SpecRun SpecHier HeapFacts HeapFacts2 HeapFacts3 HeapFacts4 HierFacts2 HierHeap HierHeap2 HierHeap3 HierHeap4 HierHeap5 HierHeap6 HierHeap7 HierHeap8 SpecArbor ArborFacts JsonFacts2 QueryFacts17 QueryFacts18.
From Coq Require Import Arith.

(** ** add_hierarchical of fresh trees, fitting or not *)
Lemma add_hier_app n key p : forall l r h, add_hier n key h p (l ++ r) = obind (add_hier n key h p l) (fun h1 _ => add_hier n key h1 p r).
Proof.
  induction l as [|c l IH]; intros r h; [reflexivity|]. cbn [app add_hier]. unfold obind at 1 3. destruct (add_hier1 n key h p c) as [h1 [[]|e]]; cbn [fst snd]; [apply IH|reflexivity].
Qed.
Lemma first_misfit h p : forall cs, Forall (fun c => fits h c p) cs \/ exists l c r, cs = l ++ c :: r /\ Forall (fun c => fits h c p) l /\ ~ fits h c p.
Proof.
  induction cs as [|c cs IH]; [left; constructor|]. destruct (fits_dec h c p) as [F|F].
  - destruct IH as [IH|(l & d & r & -> & A & B)]; [left; constructor; assumption|]. right. exists (c :: l), d, r. split; [reflexivity|]. split; [constructor; assumption|exact B].
  - right. exists [], c, cs. split; [reflexivity|]. split; [constructor|exact F].
Qed.
Lemma add_hier_any key n p cs h : hwf h -> acyclic h -> (p < length h)%nat -> NoDup cs ->
  Forall (fun c => (c < length h)%nat /\ n_par (nd h c) = None /\ c <> p /\ ~ anc h c p) cs -> (2 * length h <= n)%nat ->
  (exists h', add_hier n key h p cs = (h', Ok tt) /\ hwf h' /\ acyclic h' /\ length h' = length h /\ n_par (nd h' p) = n_par (nd h p))
  \/ snd (add_hier n key h p cs) = Err ValueError.
Proof.
  intros H Ha Hp Nd1 Hcs Hn. destruct (first_misfit h p cs) as [F|(l & c & r & -> & F & Nf)].
  - assert (Hcs' : Forall (fun c => (c < length h)%nat /\ n_par (nd h c) = None /\ c <> p /\ ~ anc h c p /\ fits h c p) cs).
    { rewrite Forall_forall in *. intros c Hc. destruct (Hcs c Hc) as (A & B & C & D). exact (conj A (conj B (conj C (conj D (F c Hc))))). }
    destruct (add_hier_many key n p cs h H Ha Hp Nd1 Hcs' Hn) as [(_ & h' & E & W & A & L & D & An & Fr & P)|(_ & h' & E & _)].
    + left. exists h'. repeat (split; [assumption|]). assumption.
    + right. rewrite E. reflexivity.
  - apply Forall_app in Hcs. destruct Hcs as [Hl Hr]. inversion Hr as [|? ? (C1 & C2 & C3 & C4) Hr']; subst.
    assert (Ndl : NoDup l /\ ~ In c l).
    { apply NoDup_remove in Nd1. destruct Nd1 as [Nd1 Nc]. split; [|intros X; apply Nc; apply in_or_app; left; exact X].
      clear - Nd1. induction l as [|x l IH]; [constructor|]. cbn in Nd1. inversion Nd1; subst. constructor; [intros X; apply H1; apply in_or_app; left; exact X|auto]. }
    destruct Ndl as [Ndl Ncl].
    assert (Hl' : Forall (fun c => (c < length h)%nat /\ n_par (nd h c) = None /\ c <> p /\ ~ anc h c p /\ fits h c p) l).
    { rewrite Forall_forall in *. intros d Hd. destruct (Hl d Hd) as (A & B & C & D). exact (conj A (conj B (conj C (conj D (F d Hd))))). }
    right. rewrite add_hier_app. destruct (add_hier_many key n p l h H Ha Hp Ndl Hl' Hn) as [(_ & h' & E & W & A & L & D & An & Fr & P)|(_ & h' & E & _)]; rewrite E; unfold obind; cbn [fst snd]; [|reflexivity].
    assert (Out : ~ anc h' p c).
    { intros X. apply An in X. destruct X as [X|(d & Hd & X)]; [exact (root_not_anc h p c C2 X)|]. destruct X as [->|X]; [exact (Ncl Hd)|exact (root_not_anc h d c C2 X)]. }
    assert (Ec : nd h' c = nd h c) by (apply Fr; assumption).
    cbn [add_hier]. assert (E1 : snd (add_hier1 n key h' p c) = Err ValueError).
    { apply misfit_value; auto; try lia.
      - rewrite Ec. exact C2.
      - intros X. apply C4. clear - X P Fr An Ha H C2 C3 C4 Ec W A Hl' D.
        assert (Kc : n_kids (nd h' c) = n_kids (nd h c)) by (rewrite Ec; reflexivity). exfalso.
        (* nothing new gets above p *)
        assert (Up : forall x, self_or_anc h x p -> n_par (nd h' x) = n_par (nd h x)).
        { intros x [->|Hx]; [exact P|]. rewrite Fr; [reflexivity|intros ->; exact (Ha p Hx)|].
          intros Y. apply An in Y. destruct Y as [Y|(d & Hd & Y)]; [apply (Ha p); exact (anc_trans h p x p Y Hx)|].
          rewrite Forall_forall in Hl'. destruct (Hl' d Hd) as (_ & _ & _ & Nd & _). destruct Y as [->|Y]; [exact (Nd Hx)|exact (Nd (anc_trans h d x p Y Hx))]. }
        apply C4. assert (G : forall x, anc h' c x -> self_or_anc h x p -> anc h c x).
        { intros x Hx. induction Hx as [x Hx|x q Hx Hq IH]; intros Hs.
          - apply anc_parent. rewrite <- (Up x Hs). exact Hx.
          - rewrite (Up x Hs) in Hx. apply (anc_up h c x q Hx). apply IH. right. destruct Hs as [->|Hs]; [apply anc_parent; exact Hx|exact (anc_trans h q x p (anc_parent h q x Hx) Hs)]. }
        exact (G p X (or_introl eq_refl)).
      - intros X. apply Nf. apply (data_fits h'); [symmetry; apply D|symmetry; apply D|exact X]. }
    unfold obind. destruct (add_hier1 n key h' p c) as [h2 [[]|e]]; cbn [snd] in *; [discriminate|exact E1].
Qed.

(** ** one encoded Ito *)
Lemma untouched_refl h : untouched h h. Proof. intros j _. reflexivity. Qed.
Lemma extends_untouched g h h' : extends g h -> untouched h h' -> untouched g h'.
Proof. intros [L E] U j Hj. rewrite U by lia. apply E. exact Hj. Qed.
Lemma sealed_ext g h : extends g h -> hwf g -> hwf h -> sealed (length g) h.
Proof.
  intros [L E] Hg H. split; [exact L|]. intros j Hj. split.
  - intros c Hc. destruct (Nat.lt_ge_cases c (length g)) as [X|]; [|assumption]. exfalso.
    pose proof (proj1 (hwf_kid h H j c Hc)) as Pc. rewrite (E c X) in Pc. apply (hwf_par g Hg) in Pc. lia.
  - intros p Hp. destruct (Nat.lt_ge_cases p (length g)) as [X|]; [|assumption]. exfalso.
    apply (hwf_par h H) in Hp. destruct Hp as [Hp _]. rewrite (E p X) in Hp. pose proof (hwf_kid g Hg p j Hp) as (_ & _ & _ & Y). lia.
Qed.
Definition dec_ok (g : heap) (o : out nat) : Prop :=
  match o with
  | (h, Ok i) => extends g h /\ hwf h /\ acyclic h /\ (length g <= i < length h)%nat /\ n_par (nd h i) = None
  | (h, Err e) => In e doc_errors /\ untouched g h
  end.
Definition decs_ok (g : heap) (o : out (list nat)) : Prop :=
  match o with
  | (h, Ok cs) => extends g h /\ hwf h /\ acyclic h /\ Forall (fun c => (length g <= c < length h)%nat /\ n_par (nd h c) = None) cs /\ NoDup cs
  | (h, Err e) => In e doc_errors /\ untouched g h
  end.
Definition src_ok (h : heap) (src : jv) : Prop := match src with VIto i => (i < length h)%nat | _ => True end.
Lemma src_ok_ext h h' src : extends h h' -> src_ok h src -> src_ok h' src.
Proof. intros [L _] S0. destruct src; cbn in *; auto. lia. Qed.
Lemma type_err : In TypeError doc_errors. Proof. right; left; reflexivity. Qed.
Lemma key_err : In KeyError doc_errors. Proof. left; reflexivity. Qed.
Lemma value_err : In ValueError doc_errors. Proof. right; right; left; reflexivity. Qed.
Lemma jv_index_err v e : jv_index v = Err e -> e = TypeError.
Proof. destruct v; cbn; congruence. Qed.
Lemma jv_new_spec h src args d : hwf h -> acyclic h -> src_ok h src ->
  (exists f, jv_new h src args d = (h ++ [Nd f None []], Ok (length h)) /\ fwf f) \/ jv_new h src args d = (h, Err TypeError).
Proof.
  intros H Ha S0. unfold jv_new. destruct (match args with [] => _ | _ => _ end) as [[a b]|e]; [|right; reflexivity].
  destruct (match d with VNull => _ | _ => _ end) as [d'|e]; [|right; reflexivity].
  destruct src as [| | | |s| | |i]; try (right; reflexivity).
  - left. exists (ito_of_str s a b d'). split; [reflexivity|apply ito_of_str_wf].
  - left. destruct (ito_of_ito_facts (n_f (nd h i)) a b d' (hwf_span h H i)) as (f & E & W & _). exists f. unfold new_sub. rewrite E. split; [reflexivity|exact W].
Qed.
Lemma sub_item_err o k e : sub_item o k = Err e -> In e doc_errors.
Proof. destruct o as [| | | | | |d|]; cbn; try (intros [= <-]; exact type_err). unfold dict_item. destruct (dict_get d k); [discriminate|]. intros [= <-]. exact key_err. Qed.
Lemma jv_iter_err h o e : jv_iter h o = Err e -> In e doc_errors.
Proof. destruct o; cbn; try discriminate; intros [= <-]; exact type_err. Qed.
Lemma list_sum_in (l : list nat) x : In x l -> (x <= list_sum l)%nat.
Proof. induction l as [|y l IH]; [intros []|]. change (list_sum (y :: l)) with (y + list_sum l)%nat. intros [->|X]; [lia|]. specialize (IH X). lia. Qed.
Lemma dict_get_in d k v : dict_get d k = Some v -> exists k', In (k', v) d.
Proof. induction d as [|[k' v'] d IH]; cbn; [discriminate|]. destruct (eqb_str k' k); [intros [= ->]; exists k'; left; reflexivity|]. intros X. destruct (IH X) as (k2 & Y). exists k2. right. exact Y. Qed.
Lemma dict_get_size d k v : dict_get d k = Some v -> (jv_size v < jv_size (VObj d))%nat.
Proof.
  intros X. destruct (dict_get_in d k v X) as (k' & Y). cbn [jv_size].
  pose proof (list_sum_in (map (fun kv => jv_size (snd kv)) d) (jv_size v)) as Z. rewrite in_map_iff in Z. specialize (Z (ex_intro _ (k', v) (conj eq_refl Y))). lia.
Qed.
Lemma jv_size_pos v : (1 <= jv_size v)%nat. Proof. destruct v; cbn; lia. Qed.
Lemma jv_iter_size h o l v : jv_iter h o = Ok l -> In v l -> (jv_size v <= jv_size o)%nat.
Proof.
  destruct o as [| | | |s|l0|d|i]; cbn [jv_iter]; try discriminate; intros [= <-]; intros X.
  - apply in_map_iff in X. destruct X as (c & <- & _). cbn. lia.
  - cbn [jv_size]. pose proof (list_sum_in (map jv_size l0) (jv_size v) (in_map _ _ _ X)). lia.
  - apply in_map_iff in X. destruct X as (c & <- & _). pose proof (jv_size_pos (VObj d)). cbn [jv_size] in *. lia.
  - apply repeat_spec in X. subst v. cbn. lia.
Qed.
Lemma map_out_dec (f : heap -> jv -> out nat) : forall l h, hwf h -> acyclic h ->
  (forall v g, In v l -> extends h g -> hwf g -> acyclic g -> dec_ok g (f g v)) -> decs_ok h (map_out f h l).
Proof.
  induction l as [|v l IH]; intros h H Ha Hf.
  - cbn. split; [apply extends_refl|]. split; [exact H|]. split; [exact Ha|]. split; constructor.
  - cbn [map_out]. fold (map_out f). pose proof (Hf v h (or_introl eq_refl) (extends_refl h) H Ha) as D. unfold obind at 1. destruct (f h v) as [h1 [c|e]]; cbn [dec_ok fst snd] in *; [|exact D].
    destruct D as (X1 & W1 & A1 & B1 & N1).
    pose proof (IH h1 W1 A1 (fun v' g Hv Hg => Hf v' g (or_intror Hv) (extends_trans h h1 g X1 Hg))) as D2. unfold obind. destruct (map_out f h1 l) as [h2 [cs|e]]; cbn [decs_ok fst snd] in *.
    + destruct D2 as (X2 & W2 & A2 & B2 & N2). split; [exact (extends_trans h h1 h2 X1 X2)|]. split; [exact W2|]. split; [exact A2|]. pose proof X1 as [L1 _]. pose proof X2 as [L2 E2]. split.
      * constructor; [split; [lia|rewrite E2 by lia; exact N1]|]. eapply Forall_impl; [|exact B2]. cbv beta. intros x [Hx Hn]. split; [lia|exact Hn].
      * constructor; [|exact N2]. intros X. rewrite Forall_forall in B2. destruct (B2 c X) as [Y _]. lia.
    + destruct D2 as [D2 U]. split; [exact D2|]. exact (extends_untouched h h1 h2 X1 U).
Qed.
Lemma decode_dec : forall n src h o, (jv_size o <= n)%nat -> hwf h -> acyclic h -> src_ok h src -> dec_ok h (decode_ito n src h o).
Proof.
  induction n as [|n IH]; intros src h o Hn H Ha S0; [pose proof (jv_size_pos o); lia|]. cbn [decode_ito].
  unfold lift, obind at 1. cbn [fst snd]. destruct (sub_item o (lit "span")) as [span|e] eqn:Es; [|split; [exact (sub_item_err _ _ _ Es)|apply untouched_refl]].
  unfold obind at 1. cbn [fst snd]. destruct (jv_iter h span) as [args|e] eqn:Ei; [|split; [exact (jv_iter_err _ _ _ Ei)|apply untouched_refl]].
  unfold obind at 1. cbn [fst snd]. destruct (sub_item o (lit "desc")) as [d|e] eqn:Ed; [|split; [exact (sub_item_err _ _ _ Ed)|apply untouched_refl]].
  unfold obind at 1. destruct (jv_new_spec h src args d H Ha S0) as [(f & En & Wf)|En]; rewrite En; cbn [fst snd]; [|split; [exact type_err|apply untouched_refl]].
  set (h1 := h ++ [Nd f None []]). assert (W1 : hwf h1) by (apply hwf_new; assumption). assert (A1 : acyclic h1) by (apply acyclic_new; assumption). assert (X1 : extends h h1) by apply extends_new.
  assert (Ln : length h1 = S (length h)) by (unfold h1; rewrite app_length; cbn; lia).
  assert (N1 : nd h1 (length h) = Nd f None []) by (unfold h1; rewrite nd_app, Nat.eqb_refl; reflexivity).
  assert (D1 : dec_ok h (h1, Ok (length h))) by (cbn; rewrite N1; repeat (split; [assumption || lia|]); reflexivity).
  destruct (match o with VObj ob => dict_get ob (lit "children") | _ => None end) as [ch|] eqn:Ec; [|exact D1].
  assert (G : dec_ok h (obind (h1, jv_iter h1 ch) (fun (h1 : heap) (l : list jv) => obind (map_out (decode_ito n src) h1 l) (fun h2 cs => obind (add_hier (hier_fuel h2) None h2 (length h) cs) (fun h3 _ => (h3, Ok (length h))))))).
  2:{ destruct ch; try exact G. exact D1. }
  clear D1. assert (Sz : (jv_size ch <= n)%nat).
  { destruct o as [| | | | | |ob|]; try discriminate. pose proof (dict_get_size ob _ ch Ec). lia. }
  unfold obind at 1. cbn [fst snd]. destruct (jv_iter h1 ch) as [l|e] eqn:El; [|split; [exact (jv_iter_err _ _ _ El)|exact (proj2 X1)]].
  pose proof (map_out_dec (decode_ito n src) l h1 W1 A1) as M.
  assert (M1 : forall v g, In v l -> extends h1 g -> hwf g -> acyclic g -> dec_ok g (decode_ito n src g v)).
  { intros v g Hv Hg Wg Ag. apply IH; [pose proof (jv_iter_size h1 ch l v El Hv); lia|exact Wg|exact Ag|]. apply (src_ok_ext h1 g src Hg). apply (src_ok_ext h h1 src X1). exact S0. }
  specialize (M M1). clear M1 IH. unfold obind at 1. destruct (map_out (decode_ito n src) h1 l) as [h2 [cs|e]]; cbn [decs_ok fst snd] in *; [|split; [apply M|exact (extends_untouched h h1 h2 X1 (proj2 M))]].
  destruct M as (X2 & W2 & A2 & B2 & Nd2). pose proof X2 as [L2 E2]. assert (N2 : nd h2 (length h) = Nd f None []) by (rewrite E2 by lia; exact N1).
  assert (X : extends h h2) by exact (extends_trans h h1 h2 X1 X2).
  assert (Hcs : Forall (fun c => (c < length h2)%nat /\ n_par (nd h2 c) = None /\ c <> length h /\ ~ anc h2 c (length h)) cs).
  { eapply Forall_impl; [|exact B2]. cbv beta. intros c [Bc Nc]. split; [lia|]. split; [exact Nc|]. split; [lia|]. apply root_not_anc. rewrite N2. reflexivity. }
  assert (U : untouched h (fst (add_hier (hier_fuel h2) None h2 (length h) cs))).
  { destruct (add_hier_harmless (length h) (hier_fuel h2) None (length h) cs h2 (le_n _)) as (_ & _ & U).
    - eapply Forall_impl; [|exact B2]. cbv beta. intros c [Bc _]. lia.
    - apply sealed_ext; assumption.
    - intros j Hj. rewrite U by exact Hj. apply X. exact Hj. }
  destruct (add_hier_any None (hier_fuel h2) (length h) cs h2 W2 A2 ltac:(lia) Nd2 Hcs (le_n _)) as [(h3 & E3 & W3 & A3 & L3 & P3)|E3].
  - rewrite E3 in U |- *. unfold obind. cbn [fst snd dec_ok] in *. split; [split; [lia|exact U]|]. split; [exact W3|]. split; [exact A3|]. split; [lia|]. rewrite P3, N2. reflexivity.
  - unfold obind. destruct (add_hier _ None h2 (length h) cs) as [h3 [[]|e]]; cbn [snd fst] in *; [discriminate|]. injection E3 as ->. split; [exact value_err|exact U].
Qed.
