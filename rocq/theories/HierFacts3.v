(** Proofs: the result of hierarchical insertion is determined by the set of
    nodes; order of keys. *)
From Verif Require Export HierFacts2.
From Coq Require Import Arith.

(** ** uniqueness of the tree for a given set of nodes *)
Lemma span_le_antisym x y : span_le x y -> span_le y x -> f_span x = f_span y.
Proof. unfold span_le, f_span. intros H1 H2. f_equal; lia. Qed.
Lemma NoDup_map_inj {A B} (g : A -> B) l x y : NoDup (map g l) -> In x l -> In y l -> g x = g y -> x = y.
Proof.
  induction l as [|a l IH]; cbn [map]; intros Hn Hx Hy E; [destruct Hx|]. inversion Hn as [|? ? Hni Hn']; subst.
  destruct Hx as [->|Hx], Hy as [->|Hy]; auto; exfalso; apply Hni; [rewrite E|rewrite <- E]; apply in_map; assumption.
Qed.
Lemma sorted_perm_eq l : forall l', StronglySorted span_le l -> StronglySorted span_le l' -> Permutation l l' -> NoDup (map f_span l) -> l = l'.
Proof.
  induction l as [|x l IH]; intros l' Hs Hs' Hp Hn; [apply Permutation_nil in Hp; subst; reflexivity|].
  destruct l' as [|y l']; [symmetry in Hp; apply Permutation_nil in Hp; discriminate|].
  inversion Hs as [|? ? Hs1 Hf1]; subst. inversion Hs' as [|? ? Hs2 Hf2]; subst. rewrite Forall_forall in Hf1, Hf2.
  assert (E : x = y).
  { assert (Hy : In y (x :: l)) by (eapply Permutation_in; [symmetry; exact Hp|left; reflexivity]).
    assert (Hx : In x (y :: l')) by (eapply Permutation_in; [exact Hp|left; reflexivity]).
    destruct Hy as [|Hy]; [assumption|]. destruct Hx as [|Hx]; [auto|].
    apply (NoDup_map_inj f_span (x :: l)); [exact Hn|left; reflexivity|right; exact Hy|]. apply span_le_antisym; auto. }
  subst y. f_equal. apply IH; auto; [eapply Permutation_cons_inv; exact Hp|]. inversion Hn; assumption.
Qed.
Lemma SS_flat {A B} (R : B -> B -> Prop) (g : A -> list B) l : Forall (fun a => StronglySorted R (g a)) l ->
  (forall l1 a l2 b l3, l = l1 ++ a :: l2 ++ b :: l3 -> forall x y, In x (g a) -> In y (g b) -> R x y) -> StronglySorted R (flat_map g l).
Proof.
  induction l as [|a l IH]; intros Hf H; cbn [flat_map]; [constructor|]. inversion Hf as [|? ? Hf1 Hf2]; subst. apply SS_app; [exact Hf1| |].
  - apply IH; [exact Hf2|]. intros l1 b l2 c l3 E. apply (H (a :: l1) b l2 c l3). rewrite E. reflexivity.
  - intros x y Hx Hy. apply in_flat_map in Hy. destruct Hy as (b & Hb & Hy). apply in_split in Hb. destruct Hb as (l2 & l3 & ->). apply (H [] a l2 b l3 eq_refl); assumption.
Qed.
Lemma t_nodes_sorted t : twf t -> Forall f_nonempty (t_nodes t) -> StronglySorted span_le (t_nodes t).
Proof.
  induction t as [f ts IH] using tree_ind'. intros Ht Hne. pose proof Ht as Ht0. apply twf_forest in Ht. destruct Ht as (Hf & Hs & Hi & Hk).
  rewrite t_nodes_cons in *. inversion Hne as [|? ? _ Hne']; subst. rewrite Forall_forall in Hne'.
  assert (Hna : forall a x, In a ts -> In x (t_nodes a) -> f_nonempty x) by (intros a x Ha Hx; apply Hne'; apply In_f_nodes; eauto).
  constructor.
  - apply SS_flat; [rewrite Forall_forall in *; intros a Ha; apply IH; auto; apply Forall_forall; eauto|]. intros l1 a l2 b l3 E x y Hx Hy.
    assert (Ha : In a ts) by (rewrite E; apply in_or_app; right; left; reflexivity).
    assert (Hb : In b ts) by (rewrite E; apply in_or_app; right; right; apply in_or_app; right; left; reflexivity).
    rewrite Forall_forall in Hk. destruct (twf_nodes a (Hk a Ha) x Hx) as [Hxa Hxw]. destruct (twf_nodes b (Hk b Hb) y Hy) as [Hyb Hyw].
    specialize (Hna a x Ha Hx). rewrite E in Hs. apply SS_two in Hs. unfold span_le, f_nonempty, inside, t_before, t_start, t_stop, fwf in *. lia.
  - apply Forall_forall. intros x Hx. destruct (twf_nodes _ Ht0 x) as [Hxf _]; [rewrite t_nodes_cons; right; exact Hx|]. unfold span_le, inside in *. cbn [t_f] in *. lia.
Qed.
Lemma f_nodes_sorted pf ts : forest_wf pf ts -> Forall f_nonempty (f_nodes ts) -> StronglySorted span_le (f_nodes ts).
Proof.
  intros (Hs & Hi & Hk) Hne. rewrite Forall_forall in Hne.
  assert (Hna : forall a x, In a ts -> In x (t_nodes a) -> f_nonempty x) by (intros a x Ha Hx; apply Hne; apply In_f_nodes; eauto).
  apply SS_flat; [rewrite Forall_forall in *; intros t Ht; apply t_nodes_sorted; auto; apply Forall_forall; eauto|].
  intros l1 a l2 b l3 E x y Hx Hy.
  assert (Ha : In a ts) by (rewrite E; apply in_or_app; right; left; reflexivity).
  assert (Hb : In b ts) by (rewrite E; apply in_or_app; right; right; apply in_or_app; right; left; reflexivity).
  rewrite Forall_forall in Hk. destruct (twf_nodes a (Hk a Ha) x Hx) as [Hxa Hxw]. destruct (twf_nodes b (Hk b Hb) y Hy) as [Hyb Hyw].
  specialize (Hna a x Ha Hx). rewrite E in Hs. apply SS_two in Hs. unfold span_le, f_nonempty, inside, t_before, t_start, t_stop, fwf in *. lia.
Qed.
Lemma app_split_unique {A} (P : A -> Prop) : forall a b a' b', a ++ b = a' ++ b' -> Forall P a -> Forall P a' -> Forall (fun x => ~ P x) b -> Forall (fun x => ~ P x) b' -> a = a' /\ b = b'.
Proof.
  induction a as [|x a IH]; intros b a' b' E Ha Ha' Hb Hb'; destruct a' as [|y a']; cbn [app] in E.
  - auto.
  - subst b. inversion Hb; inversion Ha'; subst. contradiction.
  - subst b'. inversion Hb'; inversion Ha; subst. contradiction.
  - injection E as <- E. inversion Ha; inversion Ha'; subst. destruct (IH b a' b' E) as [-> ->]; auto.
Qed.
(** for nonempty spans the shape can be read off the document-order list *)
Lemma forest_of_nodes : forall n pf ks ks', (length (f_nodes ks) <= n)%nat -> forest_wf pf ks -> forest_wf pf ks' -> Forall f_nonempty (f_nodes ks) ->
  f_nodes ks = f_nodes ks' -> ks = ks'.
Proof.
  induction n as [|n IH]; intros pf ks ks' Hn Hw Hw' Hne E.
  - destruct ks as [|[f ts] ks]; [|cbn in Hn; lia]. destruct ks' as [|[f ts] ks']; [reflexivity|discriminate].
  - destruct ks as [|[f ts] ks], ks' as [|[f' ts'] ks']; try discriminate; [reflexivity|].
    rewrite !f_nodes_cons, !t_nodes_cons in *. cbn [app] in *. injection E as <- E.
    inversion Hne as [|? ? Hfne Hne']; subst.
    pose proof (forest_app_inv pf [T f ts] ks Hw) as [_ Hwk]. pose proof (forest_app_inv pf [T f ts'] ks' Hw') as [_ Hwk'].
    assert (G : forall us vs, forest_wf pf (T f us :: vs) -> Forall f_nonempty (f_nodes us ++ f_nodes vs) ->
              forest_wf f us /\ Forall (fun x => inside x f) (f_nodes us) /\ Forall (fun x => ~ inside x f) (f_nodes vs)).
    { intros us vs (Hs & Hi & Hk) Hv. inversion Hk as [|? ? Hk1 Hk2]; subst. pose proof Hk1 as Hk0. apply twf_forest in Hk0. destruct Hk0 as [Hf Hu].
      inversion Hs as [|? ? _ Hb]; subst. split; [exact Hu|]. split.
      - apply Forall_forall. intros x Hx. apply (forest_nodes f us Hu x Hx).
      - apply Forall_forall. intros x Hx. apply Forall_app in Hv. destruct Hv as [_ Hv]. rewrite Forall_forall in Hv. specialize (Hv x Hx).
        apply In_f_nodes in Hx. destruct Hx as (t & Ht & Hx). rewrite Forall_forall in Hb, Hk2. specialize (Hb t Ht). destruct (twf_nodes t (Hk2 t Ht) x Hx) as [Hxt _].
        unfold f_nonempty, inside, t_before, t_start, t_stop in *. cbn [t_f] in *. lia. }
    destruct (G ts ks Hw Hne') as (U1 & I1 & N1). rewrite E in Hne'. destruct (G ts' ks' Hw' Hne') as (U2 & I2 & N2).
    destruct (app_split_unique (fun x => inside x f) _ _ _ _ E I1 I2 N1 N2) as [E1 E2].
    rewrite <- E in Hne'. apply Forall_app in Hne'. destruct Hne' as [Ne1 Ne2]. cbn [length] in Hn. rewrite app_length in Hn.
    f_equal; [f_equal; apply (IH f); auto; lia|apply (IH pf); auto; lia].
Qed.
Lemma forest_unique pf ks ks' : forest_wf pf ks -> forest_wf pf ks' -> Forall f_nonempty (f_nodes ks) -> NoDup (map f_span (f_nodes ks)) ->
  Permutation (f_nodes ks) (f_nodes ks') -> ks = ks'.
Proof.
  intros Hw Hw' Hne Hn Hp. apply (forest_of_nodes (length (f_nodes ks)) pf); auto.
  apply sorted_perm_eq; auto; eapply f_nodes_sorted; try eassumption.
  rewrite Forall_forall in *. intros x Hx. apply Hne. eapply Permutation_in; [symmetry; exact Hp|exact Hx].
Qed.

(** ** the parent of a node is its smallest strict container *)
Lemma t_edges_T f ts : t_edges (T f ts) = map (fun c => (f, t_f c)) ts ++ f_edges ts. Proof. reflexivity. Qed.
Lemma In_f_edges e ts : In e (f_edges ts) <-> exists t, In t ts /\ In e (t_edges t).
Proof. unfold f_edges. apply in_flat_map. Qed.
Lemma t_edges_nodes t x y : In (x, y) (t_edges t) -> In x (t_nodes t) /\ In y (t_nodes t).
Proof.
  induction t as [f ts IH] using tree_ind'. rewrite t_edges_T, t_nodes_cons. intros H. apply in_app_iff in H. destruct H as [H|H].
  - apply in_map_iff in H. destruct H as (c & [= <- <-] & Hc). split; [left; reflexivity|right]. apply In_f_nodes. exists c. split; [exact Hc|apply t_f_node].
  - apply In_f_edges in H. destruct H as (t & Ht & H). rewrite Forall_forall in IH. destruct (IH t Ht H). split; right; apply In_f_nodes; exists t; auto.
Qed.
Lemma t_smallest t : twf t -> forall p x y, In (p, x) (t_edges t) -> In y (t_nodes t) -> f_overlap x y -> strictly_inside x y -> inside p y.
Proof.
  induction t as [f ts IH] using tree_ind'. intros Ht p x y He Hy Hne [Hxy Hsp]. pose proof Ht as Ht0. apply twf_forest in Ht. destruct Ht as (Hf & Hs & Hi & Hk).
  rewrite t_edges_T in He. rewrite t_nodes_cons in Hy. apply in_app_iff in He. destruct He as [He|He].
  - apply in_map_iff in He. destruct He as (c & [= <- <-] & Hc). destruct Hy as [<-|Hy]; [apply inside_refl|]. exfalso.
    apply In_f_nodes in Hy. destruct Hy as (b & Hb & Hy).
    destruct (siblings_apart ts c b (t_f c) y Hs Hk Hc Hb (t_f_node c) Hy) as [->|Hap].
    + rewrite Forall_forall in Hk. destruct (twf_nodes b (Hk b Hb) y Hy) as [Hyb _]. apply Hsp. unfold inside, f_span in *. f_equal; lia.
    + unfold inside, f_overlap in *. lia.
  - apply In_f_edges in He. destruct He as (c & Hc & He). destruct (t_edges_nodes c p x He) as [Hp Hx]. destruct Hy as [<-|Hy].
    + apply (twf_nodes _ Ht0 p). right. apply In_f_nodes. eauto.
    + apply In_f_nodes in Hy. destruct Hy as (b & Hb & Hy).
      destruct (siblings_apart ts c b x y Hs Hk Hc Hb Hx Hy) as [->|Hap]; [|exfalso; unfold inside, f_overlap in *; lia].
      rewrite Forall_forall in IH, Hk. eapply (IH b Hb); eauto; split; assumption.
Qed.
Lemma forest_smallest pf ts : forest_wf pf ts -> 
  (forall p x y, In (p, x) (f_edges ts) -> In y (f_nodes ts) -> f_overlap x y -> strictly_inside x y -> inside p y) /\
  (forall t y, In t ts -> In y (f_nodes ts) -> f_overlap (t_f t) y -> ~ strictly_inside (t_f t) y).
Proof.
  intros (Hs & Hi & Hk). assert (Hkf := Hk). rewrite Forall_forall in Hkf. split.
  - intros p x y He Hy Hne [Hxy Hsp]. apply In_f_edges in He. destruct He as (c & Hc & He). apply In_f_nodes in Hy. destruct Hy as (b & Hb & Hy).
    destruct (t_edges_nodes c p x He) as [Hp Hx].
    destruct (siblings_apart ts c b x y Hs Hk Hc Hb Hx Hy) as [->|Hap]; [|exfalso; unfold inside, f_overlap in *; lia].
    eapply t_smallest; eauto; split; assumption.
  - intros c y Hc Hy Hne [Hxy Hsp]. apply In_f_nodes in Hy. destruct Hy as (b & Hb & Hy).
    destruct (siblings_apart ts c b (t_f c) y Hs Hk Hc Hb (t_f_node c) Hy) as [->|Hap].
    + destruct (twf_nodes b (Hkf b Hb) y Hy) as [Hyb _]. apply Hsp. unfold inside, f_span in *. f_equal; lia.
    + unfold inside, f_overlap in *. lia.
Qed.

(** ** order independence *)
Lemma add_hier_spec key pf ks c : forest_wf pf ks -> twf c -> inside (t_f c) pf -> hadd_result pf ks (t_nodes c) (add_hierarchical key pf ks c).
Proof. intros Hw Hc Hi. apply hadd_spec; auto. Qed.
Lemma add_all_spec key pf ks cs : forest_wf pf ks -> Forall twf cs -> Forall (fun c => inside (t_f c) pf) cs -> no_cross (f_nodes cs) (f_nodes cs) ->
  hadd_result pf ks (f_nodes cs) (add_hierarchical_all key pf ks cs).
Proof.
  intros Hw Ht Hi Hn. unfold add_hierarchical_all. apply (hfold_result pf _ cs ks (S (sizes cs + sizes ks))); auto.
  intros ks' d Hw' Hd Hdi _. apply add_hier_spec; assumption.
Qed.
Lemma add_all_order key key' pf ks cs cs' : forest_wf pf ks -> Forall twf cs -> Forall (fun c => inside (t_f c) pf) cs ->
  Forall f_nonempty (f_nodes cs ++ f_nodes ks) -> NoDup (map f_span (f_nodes cs ++ f_nodes ks)) ->
  no_cross (f_nodes cs) (f_nodes cs) -> no_cross (f_nodes ks) (f_nodes cs) -> Permutation cs cs' ->
  exists ks', add_hierarchical_all key pf ks cs = Ok ks' /\ add_hierarchical_all key' pf ks cs' = Ok ks' /\ forest_wf pf ks' /\ Permutation (f_nodes ks') (f_nodes cs ++ f_nodes ks).
Proof.
  intros Hw Ht Hi Hne Hnd Hcc Hkc Hp.
  assert (Hpn : Permutation (f_nodes cs) (f_nodes cs')) by (apply Permutation_flat_map; exact Hp).
  assert (Ht' : Forall twf cs') by (rewrite Forall_forall in *; intros x Hx; apply Ht; eapply Permutation_in; [symmetry; exact Hp|exact Hx]).
  assert (Hi' : Forall (fun c => inside (t_f c) pf) cs') by (rewrite Forall_forall in *; intros x Hx; apply Hi; eapply Permutation_in; [symmetry; exact Hp|exact Hx]).
  assert (Hcc' : no_cross (f_nodes cs') (f_nodes cs')) by (intros x y Hx Hy; apply Hcc; (eapply Permutation_in; [symmetry; exact Hpn|]); assumption).
  destruct (add_all_spec key pf ks cs Hw Ht Hi Hcc) as [(_ & k1 & E1 & W1 & P1)|((x & y & Hx & Hy & Hc) & _)]; [|exfalso; exact (Hkc x y Hx Hy Hc)].
  destruct (add_all_spec key' pf ks cs' Hw Ht' Hi' Hcc') as [(_ & k2 & E2 & W2 & P2)|((x & y & Hx & Hy & Hc) & _)].
  2:{ exfalso. apply (Hkc x y Hx); [|exact Hc]. eapply Permutation_in; [symmetry; exact Hpn|exact Hy]. }
  assert (E : k1 = k2).
  { apply (forest_unique pf); auto.
    - rewrite Forall_forall in *. intros x Hx. apply Hne. eapply Permutation_in; [exact P1|exact Hx].
    - eapply Permutation_NoDup; [|exact Hnd]. apply Permutation_map. symmetry. exact P1.
    - rewrite P1, P2. apply Permutation_app_tail. exact Hpn. }
  subst k2. exists k1. auto.
Qed.

(** ** keys *)
(** a property of the roots survives, when the new nodes have it *)
Lemma hplace_roots key rec pf ks f ks' (Q : fito -> Prop) : StronglySorted t_before ks -> Forall twf ks -> f_start f <= f_stop f ->
  hplace rec key pf ks f = Ok ks' -> Q f -> Forall (fun t => Q (t_f t)) ks -> Forall (fun t => Q (t_f t)) ks'.
Proof.
  intros Hs Ht Hf E HQ HQs.
  destruct (hplace_placed key rec pf ks f Hs Ht Hf) as [l k r Ek _ _ _|k _ _|l m r Ek _ _ _ _].
  - destruct (rec (t_f k) (t_kids k) f) as [k1|e]; cbn in E; [|discriminate]. injection E as <-. rewrite Ek in HQs. apply Forall_app in HQs. destruct HQs as [Q1 Q2]. inversion Q2; subst.
    apply Forall_app. split; [exact Q1|]. constructor; assumption.
  - discriminate.
  - destruct (forallb _ m && _); [|discriminate]. injection E as <-. rewrite Ek in HQs. apply Forall_app in HQs. destruct HQs as [Q1 Q2]. apply Forall_app in Q2. destruct Q2 as [_ Q3].
    apply Forall_app. split; [exact Q1|]. constructor; assumption.
Qed.

Lemma hadd_leaf n key pf ks f : hadd (S n) key pf ks (T f []) =
  match ks with [] => if f_fits_b f pf then Ok [T f []] else Err ValueError
  | _ => hplace (fun kf kk f => hadd n key kf kk (T f [])) key pf ks f end.
Proof. destruct ks; reflexivity. Qed.
Lemma hadd_leaf_roots n key pf ks f ks' (Q : fito -> Prop) : forest_wf pf ks -> f_start f <= f_stop f ->
  hadd n key pf ks (T f []) = Ok ks' -> Q f -> Forall (fun t => Q (t_f t)) ks -> Forall (fun t => Q (t_f t)) ks'.
Proof.
  intros (Hs & Hi & Hk) Hf. destruct n as [|n]; [discriminate|]. rewrite hadd_leaf. destruct ks as [|k ks].
  - destruct (f_fits_b f pf); [|discriminate]. intros [= <-] HQ _. constructor; [exact HQ|constructor].
  - intros E HQ HQs. eapply hplace_roots; eassumption.
Qed.

Definition edge_ok (key : fito -> Z) (e : fito * fito) : Prop := f_span (fst e) = f_span (snd e) -> key (fst e) <= key (snd e).
Definition edges_ok (key : fito -> Z) (ts : list tree) : Prop := Forall (edge_ok key) (f_edges ts).
Lemma f_edges_app a b : f_edges (a ++ b) = f_edges a ++ f_edges b. Proof. unfold f_edges. apply flat_map_app. Qed.
Lemma f_edges_cons a b : f_edges (a :: b) = t_edges a ++ f_edges b. Proof. reflexivity. Qed.
Lemma edges_ok_app key a b : edges_ok key (a ++ b) <-> edges_ok key a /\ edges_ok key b.
Proof. unfold edges_ok. rewrite f_edges_app. apply Forall_app. Qed.
Lemma edges_ok_cons key f ts b : edges_ok key (T f ts :: b) <-> Forall (fun t => edge_ok key (f, t_f t)) ts /\ edges_ok key ts /\ edges_ok key b.
Proof.
  unfold edges_ok. rewrite f_edges_cons, t_edges_T, !Forall_app. rewrite Forall_map. tauto.
Qed.
Lemma f_nonempty_app a b : Forall f_nonempty (f_nodes (a ++ b)) <-> Forall f_nonempty (f_nodes a) /\ Forall f_nonempty (f_nodes b).
Proof. rewrite f_nodes_app. apply Forall_app. Qed.
(** nonempty children with their parent's span are only children *)
Lemma full_child_alone ts x a b : StronglySorted t_before ts -> (forall y, In y ts -> a <= t_start y /\ t_stop y <= b) -> Forall (fun t => f_nonempty (t_f t)) ts ->
  In x ts -> t_start x = a -> t_stop x = b -> ts = [x].
Proof.
  intros Hs Hin Hne Hx Ea Eb. apply in_split in Hx. destruct Hx as (l & r & ->).
  assert (l = []) as ->.
  { destruct l as [|y l]; [reflexivity|]. exfalso. apply SS_app_inv in Hs. destruct Hs as (_ & _ & S). specialize (S y x (or_introl eq_refl) (or_introl eq_refl)). destruct S.
    destruct (Hin y (or_introl eq_refl)). lia. }
  assert (r = []) as ->; [|reflexivity].
  destruct r as [|y r]; [reflexivity|]. exfalso. inversion Hs as [|? ? _ F]; subst. inversion F as [|? ? [F1 F2] _]; subst. destruct (Hin y ltac:(right; left; reflexivity)).
  inversion Hne as [|? ? _ Hne2]; subst. inversion Hne2 as [|? ? Hne3 _]; subst. unfold f_nonempty, t_start, t_stop in *. lia.
Qed.
Lemma roots_nonempty ts : Forall f_nonempty (f_nodes ts) -> Forall (fun t => f_nonempty (t_f t)) ts.
Proof. rewrite !Forall_forall. intros H t Ht. apply H. apply In_f_nodes. exists t. split; [exact Ht|apply t_f_node]. Qed.

Lemma hplace_edges key rec pf ks f ks' : forest_wf pf ks -> fwf f -> Forall f_nonempty (f_nodes ks) -> edges_ok key ks ->
  (forall k kk', In k ks -> rec (t_f k) (t_kids k) f = Ok kk' -> edges_ok key kk' /\
     ((f_span (t_f k) = f_span f -> key (t_f k) <= key f) -> Forall (fun t => edge_ok key (t_f k, t_f t)) kk')) ->
  hplace rec (Some key) pf ks f = Ok ks' -> edges_ok key ks'.
Proof.
  intros (Hs & Hi & Hk) Hf Hne He Hrec E.
  destruct (hplace_placed (Some key) rec pf ks f Hs Hk ltac:(unfold fwf in Hf; lia)) as [l k r Ek _ _ Hd|k _ _|l m r Ek _ Hm _ Hd]; [|discriminate|].
  - destruct (rec (t_f k) (t_kids k) f) as [kk'|e] eqn:Er; cbn [bind] in E; [|discriminate]. injection E as <-.
    destruct (Hrec k kk' ltac:(rewrite Ek; apply in_or_app; right; left; reflexivity) Er) as [H1 H2]. subst ks. destruct k as [kf kk]. cbn [t_f t_kids] in *.
    apply edges_ok_app in He. destruct He as [He1 He2]. apply edges_ok_cons in He2. destruct He2 as (He2 & He3 & He4).
    apply edges_ok_app. split; [exact He1|]. apply edges_ok_cons. split; [|split; assumption].
    apply H2. intros Esp. unfold f_span in Esp. injection Esp as E1 E2. specialize (Hd E1 E2). cbn in Hd. lia.
  - destruct (forallb _ m && _); [|discriminate]. injection E as <-. subst ks. apply edges_ok_app in He. destruct He as [He1 He2]. apply edges_ok_app in He2. destruct He2 as [He2 He3].
    apply edges_ok_app. split; [exact He1|]. apply edges_ok_cons. split; [|split; assumption].
    apply Forall_forall. intros x Hx. unfold edge_ok. cbn [fst snd]. intros Esp. unfold f_span in Esp. injection Esp as E1 E2.
    assert (Em : m = [x]).
    { apply SS_app_inv in Hs. destruct Hs as (_ & S2 & _). apply SS_app_inv in S2. destruct S2 as (S3 & _ & _).
      apply f_nonempty_app in Hne. destruct Hne as [_ Hne]. apply f_nonempty_app in Hne. destruct Hne as [Hne _].
      apply (full_child_alone m x (f_start f) (f_stop f)); [exact S3|exact Hm|apply roots_nonempty; exact Hne|exact Hx|symmetry; exact E1|symmetry; exact E2]. }
    specialize (Hd x Em (eq_sym E1) (eq_sym E2)). cbn in Hd. lia.
Qed.
Lemma kid_forest pf ks k : forest_wf pf ks -> In k ks -> forest_wf (t_f k) (t_kids k).
Proof. intros (_ & _ & Hk) Hin. rewrite Forall_forall in Hk. specialize (Hk k Hin). destruct k as [kf kk]. apply twf_forest in Hk. apply Hk. Qed.
Lemma kid_nodes_sub ks k : In k ks -> forall x, In x (f_nodes (t_kids k)) -> In x (f_nodes ks).
Proof. intros Hin x Hx. apply In_f_nodes. exists k. split; [exact Hin|]. destruct k as [kf kk]. right. exact Hx. Qed.
Lemma kid_edges key ks k : In k ks -> edges_ok key ks -> edges_ok key (t_kids k) /\ Forall (fun t => edge_ok key (t_f k, t_f t)) (t_kids k).
Proof.
  intros Hin He. apply in_split in Hin. destruct Hin as (l & r & ->). apply edges_ok_app in He. destruct He as [_ He]. destruct k as [kf kk]. apply edges_ok_cons in He. cbn [t_f t_kids]. tauto.
Qed.
Lemma hadd_leaf_edges key f : fwf f -> forall n pf ks ks', forest_wf pf ks -> Forall f_nonempty (f_nodes ks) -> edges_ok key ks ->
  hadd n (Some key) pf ks (T f []) = Ok ks' -> edges_ok key ks'.
Proof.
  intros Hf. induction n as [|n IH]; intros pf ks ks' Hw Hne He; [discriminate|]. rewrite hadd_leaf. destruct ks as [|k0 ks0].
  - destruct (f_fits_b f pf); [|discriminate]. intros [= <-]. constructor.
  - intros E. eapply hplace_edges; [exact Hw|exact Hf|exact Hne|exact He| |exact E].
    intros k kk' Hkin Ek. cbn beta in Ek. destruct (kid_edges key _ k Hkin He) as [Ke Kr]. pose proof (kid_forest _ _ k Hw Hkin) as Kw. split.
    + apply (IH (t_f k) (t_kids k) kk'); auto. rewrite Forall_forall in *. intros x Hx. apply Hne. eapply kid_nodes_sub; eassumption.
    + intros HQ. apply (hadd_leaf_roots n (Some key) (t_f k) (t_kids k) f kk' (fun x => edge_ok key (t_f k, x))); auto. unfold fwf in Hf. lia.
Qed.
Lemma hadd_edges key : forall n pf ks c ks', forest_wf pf ks -> twf c -> inside (t_f c) pf -> (t_size c + sizes ks < n)%nat -> Forall f_nonempty (f_nodes ks ++ t_nodes c) -> edges_ok key ks -> edges_ok key [c] ->
  hadd n (Some key) pf ks c = Ok ks' -> edges_ok key ks'.
Proof.
  induction n as [|n IH]; intros pf ks c ks' Hw Hc Hin Hsz Hne He Hec; [discriminate|]. cbn [hadd]. destruct ks as [|k0 ks0].
  - destruct (f_fits_b _ pf); [|discriminate]. intros [= <-]. exact Hec.
  - set (ks := k0 :: ks0) in *. destruct c as [f ts]. cbn [t_kids t_f] in *. rewrite t_size_T in Hsz. rewrite t_nodes_cons in Hne.
    apply edges_ok_cons in Hec. destruct Hec as (_ & Hec & _). apply twf_forest in Hc. destruct Hc as (Hf & Hts).
    apply Forall_app in Hne. destruct Hne as [Hne1 Hne2]. inversion Hne2 as [|? ? Hnf Hnts]; subst.
    intros E.
    assert (G : forall ds ks0 ks1, Forall twf ds -> Forall (fun d => inside (t_f d) f) ds -> Forall f_nonempty (f_nodes ds) -> edges_ok key ds -> forest_wf pf ks0 -> Forall f_nonempty (f_nodes ks0) -> edges_ok key ks0 ->
                (sizes ds + sizes ks0 < n)%nat ->
                hfold (fun ks d => hadd n (Some key) pf ks d) ds ks0 = Ok ks1 -> edges_ok key ks1 /\ forest_wf pf ks1 /\ Forall f_nonempty (f_nodes ks1) /\ (sizes ks1 = sizes ds + sizes ks0)%nat).
    { clear E. induction ds as [|d ds IHd]; intros q q1 D1 D2 D3 D4 Q1 Q2 Q3 Q4; cbn [hfold].
      - intros [= <-]. cbn. auto.
      - fold (hfold (fun ks d => hadd n (Some key) pf ks d)). inversion D1; subst. inversion D2; subst. rewrite f_nodes_cons in D3. apply Forall_app in D3. destruct D3 as [D3 D3'].
        change (d :: ds) with ([d] ++ ds) in D4. apply edges_ok_app in D4. destruct D4 as [D4 D4']. rewrite sizes_cons in Q4.
        assert (Hdi : inside (t_f d) pf) by (eapply inside_trans; eassumption).
        destruct (hadd n (Some key) pf q d) as [q2|e] eqn:Eq; cbn [bind]; [|discriminate]. intros E.
        assert (Eq' := Eq). apply (IH pf q d q2) in Eq'; auto; [|lia|apply Forall_app; split; assumption].
        destruct (hadd_spec n (Some key) pf q d Q1 H1 Hdi ltac:(lia)) as [(_ & q3 & E3 & W3 & P3)|(_ & E3)]; [|congruence]. rewrite Eq in E3. injection E3 as <-.
        assert (Sz : sizes q2 = (t_size d + sizes q)%nat) by (rewrite !sizes_nodes, t_size_nodes, <- app_length; apply Permutation_length; exact P3).
        destruct (IHd q2 q1) as (R1 & R2 & R3 & R4); auto.
        + rewrite Forall_forall in *. intros x Hx. assert (In x (t_nodes d ++ f_nodes q)) by (eapply Permutation_in; eassumption). apply in_app_iff in H. destruct H; auto.
        + lia.
        + rewrite sizes_cons. repeat split; auto; try apply R2. lia. }
    destruct (hfold _ (rev ts) ks) as [ks1|e] eqn:E1; cbn [bind] in E; [|discriminate].
    destruct Hts as (Hts1 & Hts2 & Hts3).
    assert (Hsr : sizes (rev ts) = sizes ts) by (rewrite !sizes_nodes; apply Permutation_length, f_nodes_rev).
    destruct (G (rev ts) ks ks1) as (R1 & R2 & R3 & R4); auto.
    + apply Forall_rev. assumption.
    + apply Forall_rev. assumption.
    + rewrite Forall_forall in *. intros x Hx. apply Hnts. eapply Permutation_in; [apply f_nodes_rev|exact Hx].
    + unfold edges_ok in *. rewrite Forall_forall in *. intros e He'. apply Hec. apply In_f_edges in He'. destruct He' as (t & Ht & He'). apply In_f_edges. exists t. split; [apply in_rev; exact Ht|exact He'].
    + lia.
    + apply (hadd_leaf_edges key f Hf (S n) pf ks1 ks'); auto. rewrite hadd_leaf. destruct ks1 as [|k1 ks1]; [|exact E].
      exfalso. assert (S0 : (0 < sizes ks)%nat) by (unfold ks; rewrite sizes_cons; destruct k0; rewrite t_size_T; lia). change (sizes []) with 0%nat in R4. lia.
Qed.
