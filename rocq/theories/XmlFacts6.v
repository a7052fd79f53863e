(** Facts for Xml.v: the trees of the matches. *)
From Verif Require Import SpecXml PyFacts HeapFacts HeapFacts2 HeapFacts3 HeapFacts4 CombinFacts CombinFacts2 CombinFacts3 CombinFacts4 ArborFacts3 ArborFacts4 XmlFacts XmlFacts2 XmlFacts3 XmlFacts4 XmlFacts5.

Lemma keys_open m : re_keys re_open default_filter m = [KStr d_tag; KStr d_namespace; KStr d_name]. Proof. reflexivity. Qed.
Lemma keys_attribute m : re_keys re_attribute default_filter m = [KStr d_attribute; KStr d_tag; KStr d_namespace; KStr d_name; KStr d_value]. Proof. reflexivity. Qed.
Lemma keys_misc m : re_keys re_misc default_filter m = [KStr d_pi; KStr d_value; KStr d_comment]. Proof. reflexivity. Qed.
Lemma sorted_id l : StronglySorted cap2_order l -> sort_caps l = l.
Proof.
  induction 1 as [|x l S IH F]; [reflexivity|]. cbn [sort_caps fold_right]. change (fold_right insert_cap [] l) with (sort_caps l). rewrite IH. destruct l as [|y l]; [reflexivity|]. inversion F as [|? ? O _]; subst. cbn [insert_cap].
  assert (C : cap_le (fst x) (fst y) = true). { unfold cap2_order, cap_order in O. unfold cap_le. destruct (fst x) as [a b], (fst y) as [c d]. cbn [fst snd] in *. lia. }
  rewrite C. reflexivity.
Qed.
Ltac sorted_caps := apply sorted_id; repeat (apply SSorted_cons; [|repeat (apply Forall_cons; [unfold cap2_order, cap_order; cbn [fst snd]; lia|]); apply Forall_nil]); apply SSorted_nil.
Ltac caps_valid := cbn [map fst]; repeat (apply Forall_cons; [unfold cap_valid; cbn [fst snd rm_string to_match]; lia|]); apply Forall_nil.
Ltac caps_clear := intros ? ? Hx Hy; cbn [map fst In] in Hx, Hy; repeat (destruct Hx as [<-|Hx]; [|]); [..|destruct Hx]; repeat (destruct Hy as [<-|Hy]; [|]); first [destruct Hy|unfold cap_cross; cbn [fst snd]; lia].
Ltac caps_out := intros k Hk; destruct k as [|[|[|[|k]]]]; try lia; unfold cap_inside; cbn [nth map fst snd]; lia.
Ltac caps_par := intros j Hj; cbn [length] in Hj; destruct j as [|[|[|[|[|j]]]]]; try lia; cbn [nth];
  first [ split; [lia|]; split; [unfold cap_inside; cbn [nth map fst snd]; lia|]; caps_out | caps_out ].
Section Shapes.
  Variable s : pystr.
  Let dfl := (((0, 0), KInt 0) : span * gkey).
  Lemma name_gives n p sp : 0 <= p -> p + zlen (name_src n) <= zlen s ->
    gives default_desc (re_keys re_open default_filter) (to_match re_open s (sp, name_caps n p)) (name_tree s n p).
  Proof.
    intros Hp Hl h Hf. rewrite keys_open. pose proof (name_len n) as Ln. unfold name_tree. set (b := p + zlen (name_src n)) in *. pose proof (zlen_nonneg (x_local n)).
    destruct (x_prefix n) as [q|] eqn:Eq.
    - pose proof (zlen_nonneg q).
      destruct (from_match_shape h (to_match re_open s (sp, name_caps n p)) (default_desc (to_match re_open s (sp, name_caps n p))) [KStr d_tag; KStr d_namespace; KStr d_name]
        [((p, b), KStr d_tag); ((p, p + zlen q), KStr d_namespace); ((p + zlen q + 1, b), KStr d_name)] [None; Some 0%nat; Some 0%nat] Hf) as (h' & E1 & X1 & Hf1 & L1 & D).
      + assert (C : captures (to_match re_open s (sp, name_caps n p)) [KStr d_tag; KStr d_namespace; KStr d_name] = [((p, b), KStr d_tag); ((p, p + zlen q), KStr d_namespace); ((p + zlen q + 1, b), KStr d_name)]) by (unfold name_caps; rewrite Eq; reflexivity).
        rewrite C. sorted_caps.
      + caps_valid.
      + caps_clear.
      + caps_par.
      + exists h', (length h). split; [rewrite E1; cbn; rewrite Nat.add_0_r; reflexivity|]. split; [exact X1|]. split; [exact Hf1|]. cbn [length] in *. pose proof (D 0%nat ltac:(lia)) as D0. pose proof (D 1%nat ltac:(lia)) as D1. pose proof (D 2%nat ltac:(lia)) as D2. cbn in D0, D1, D2. rewrite Nat.add_0_r in D0. split; [|lia].
        split; [|split; [rewrite D0; reflexivity|lia]]. unfold at_. apply rep_unfold. rewrite D0. cbn. split; [reflexivity|]. constructor; [|constructor; [|constructor]]; apply rep_unfold; [rewrite D1|rewrite D2]; cbn; (split; [reflexivity|constructor]).
    - destruct (from_match_shape h (to_match re_open s (sp, name_caps n p)) (default_desc (to_match re_open s (sp, name_caps n p))) [KStr d_tag; KStr d_namespace; KStr d_name]
        [((p, b), KStr d_tag); ((p, b), KStr d_name)] [None; Some 0%nat] Hf) as (h' & E1 & X1 & Hf1 & L1 & D).
      + assert (C : captures (to_match re_open s (sp, name_caps n p)) [KStr d_tag; KStr d_namespace; KStr d_name] = [((p, b), KStr d_tag); ((p, b), KStr d_name)]) by (unfold name_caps; rewrite Eq; reflexivity).
        rewrite C. sorted_caps.
      + caps_valid.
      + caps_clear.
      + caps_par.
      + exists h', (length h). split; [rewrite E1; cbn; rewrite Nat.add_0_r; reflexivity|]. split; [exact X1|]. split; [exact Hf1|]. cbn [length] in *. pose proof (D 0%nat ltac:(lia)) as D0. pose proof (D 1%nat ltac:(lia)) as D1. cbn in D0, D1. rewrite Nat.add_0_r in D0. split; [|lia].
        split; [|split; [rewrite D0; reflexivity|lia]]. unfold at_. apply rep_unfold. rewrite D0. cbn. split; [reflexivity|]. constructor; [|constructor]; apply rep_unfold; rewrite D1; cbn; (split; [reflexivity|constructor]).
  Qed.
  Lemma att_gives x p sp : 0 <= p -> p + zlen (att_body x) <= zlen s ->
    gives default_desc (re_keys re_attribute default_filter) (to_match re_attribute s (sp, att_caps x p)) (att_tree s x p).
  Proof.
    intros Hp Hl h Hf. rewrite keys_attribute. pose proof (name_len (a_name x)) as Ln. pose proof (body_len x) as Lb. unfold att_tree, name_tree. set (b := p + zlen (name_src (a_name x))) in *. set (e := p + zlen (att_body x)) in *. pose proof (zlen_nonneg (x_local (a_name x))). pose proof (zlen_nonneg (a_value x)).
    set (v := b + 2). set (w := v + zlen (a_value x)). set (ks := [KStr d_attribute; KStr d_tag; KStr d_namespace; KStr d_name; KStr d_value]).
    destruct (x_prefix (a_name x)) as [q|] eqn:Eq.
    - pose proof (zlen_nonneg q). set (all := [((p, e), KStr d_attribute); ((p, b), KStr d_tag); ((p, p + zlen q), KStr d_namespace); ((p + zlen q + 1, b), KStr d_name); ((v, w), KStr d_value)]).
      destruct (from_match_shape h (to_match re_attribute s (sp, att_caps x p)) (default_desc (to_match re_attribute s (sp, att_caps x p))) ks all [None; Some 0%nat; Some 1%nat; Some 1%nat; Some 0%nat] Hf) as (h' & E1 & X1 & Hf1 & L1 & D).
      + assert (C : captures (to_match re_attribute s (sp, att_caps x p)) ks = all) by (unfold att_caps, name_caps; rewrite Eq; reflexivity).
        rewrite C. unfold all. sorted_caps.
      + unfold all. caps_valid.
      + unfold all. caps_clear.
      + unfold all. caps_par.
      + exists h', (length h). split; [rewrite E1; cbn; rewrite Nat.add_0_r; reflexivity|]. split; [exact X1|]. split; [exact Hf1|]. unfold all in *. cbn [length] in *.
        pose proof (D 0%nat ltac:(lia)) as D0. pose proof (D 1%nat ltac:(lia)) as D1. pose proof (D 2%nat ltac:(lia)) as D2. pose proof (D 3%nat ltac:(lia)) as D3. pose proof (D 4%nat ltac:(lia)) as D4. cbn in D0, D1, D2, D3, D4. rewrite Nat.add_0_r in D0. split; [|lia].
        split; [|split; [rewrite D0; reflexivity|lia]]. unfold at_. apply rep_unfold. rewrite D0. cbn. split; [reflexivity|]. constructor; [|constructor; [|constructor]]; apply rep_unfold; [rewrite D1|rewrite D4]; cbn; (split; [reflexivity|]); [|constructor].
        constructor; [|constructor; [|constructor]]; apply rep_unfold; [rewrite D2|rewrite D3]; cbn; (split; [reflexivity|constructor]).
    - set (all := [((p, e), KStr d_attribute); ((p, b), KStr d_tag); ((p, b), KStr d_name); ((v, w), KStr d_value)]).
      destruct (from_match_shape h (to_match re_attribute s (sp, att_caps x p)) (default_desc (to_match re_attribute s (sp, att_caps x p))) ks all [None; Some 0%nat; Some 1%nat; Some 0%nat] Hf) as (h' & E1 & X1 & Hf1 & L1 & D).
      + assert (C : captures (to_match re_attribute s (sp, att_caps x p)) ks = all) by (unfold att_caps, name_caps; rewrite Eq; reflexivity).
        rewrite C. unfold all. sorted_caps.
      + unfold all. caps_valid.
      + unfold all. caps_clear.
      + unfold all. caps_par.
      + exists h', (length h). split; [rewrite E1; cbn; rewrite Nat.add_0_r; reflexivity|]. split; [exact X1|]. split; [exact Hf1|]. unfold all in *. cbn [length] in *.
        pose proof (D 0%nat ltac:(lia)) as D0. pose proof (D 1%nat ltac:(lia)) as D1. pose proof (D 2%nat ltac:(lia)) as D2. pose proof (D 3%nat ltac:(lia)) as D3. cbn in D0, D1, D2, D3. rewrite Nat.add_0_r in D0. split; [|lia].
        split; [|split; [rewrite D0; reflexivity|lia]]. unfold at_. apply rep_unfold. rewrite D0. cbn. split; [reflexivity|]. constructor; [|constructor; [|constructor]]; apply rep_unfold; [rewrite D1|rewrite D3]; cbn; (split; [reflexivity|]); [|constructor].
        constructor; [|constructor]; apply rep_unfold; rewrite D2; cbn; (split; [reflexivity|constructor]).
  Qed.
  Lemma pi_gives a b v w sp : 0 <= a < v -> v <= w < b -> b <= zlen s ->
    gives default_desc (re_keys re_misc default_filter) (to_match re_misc s (sp, [(d_value, (v, w)); (d_pi, (a, b))])) (at_ s a b d_pi [at_ s v w d_value []]).
  Proof.
    intros Ha Hv Hb h Hf. rewrite keys_misc. set (m := to_match re_misc s (sp, [(d_value, (v, w)); (d_pi, (a, b))])).
    destruct (from_match_shape h m (default_desc m) [KStr d_pi; KStr d_value; KStr d_comment] [((a, b), KStr d_pi); ((v, w), KStr d_value)] [None; Some 0%nat] Hf) as (h' & E1 & X1 & Hf1 & L1 & D).
    + change (captures m [KStr d_pi; KStr d_value; KStr d_comment]) with [((a, b), KStr d_pi); ((v, w), KStr d_value)]. sorted_caps.
    + change (rm_string m) with s. caps_valid.
    + caps_clear.
    + caps_par.
    + exists h', (length h). split; [rewrite E1; cbn; rewrite Nat.add_0_r; reflexivity|]. split; [exact X1|]. split; [exact Hf1|]. cbn [length] in *. pose proof (D 0%nat ltac:(lia)) as D0. pose proof (D 1%nat ltac:(lia)) as D1. cbn in D0, D1. rewrite Nat.add_0_r in D0. split; [|lia].
      split; [|split; [rewrite D0; reflexivity|lia]]. unfold at_. apply rep_unfold. rewrite D0. cbn. split; [reflexivity|]. constructor; [|constructor]; apply rep_unfold; rewrite D1; cbn; (split; [reflexivity|constructor]).
  Qed.
  Lemma comment_gives a b v w sp : 0 <= a < v -> v <= w < b -> b <= zlen s ->
    gives default_desc (re_keys re_misc default_filter) (to_match re_misc s (sp, [(d_value, (v, w)); (d_comment, (a, b))])) (at_ s a b d_comment [at_ s v w d_value []]).
  Proof.
    intros Ha Hv Hb h Hf. rewrite keys_misc. set (m := to_match re_misc s (sp, [(d_value, (v, w)); (d_comment, (a, b))])).
    destruct (from_match_shape h m (default_desc m) [KStr d_pi; KStr d_value; KStr d_comment] [((a, b), KStr d_comment); ((v, w), KStr d_value)] [None; Some 0%nat] Hf) as (h' & E1 & X1 & Hf1 & L1 & D).
    + change (captures m [KStr d_pi; KStr d_value; KStr d_comment]) with [((v, w), KStr d_value); ((a, b), KStr d_comment)]. cbn [sort_caps fold_right insert_cap fst].
      assert (C : cap_le (v, w) (a, b) = false) by (unfold cap_le; cbn [fst snd]; lia). rewrite C. reflexivity.
    + change (rm_string m) with s. caps_valid.
    + caps_clear.
    + caps_par.
    + exists h', (length h). split; [rewrite E1; cbn; rewrite Nat.add_0_r; reflexivity|]. split; [exact X1|]. split; [exact Hf1|]. cbn [length] in *. pose proof (D 0%nat ltac:(lia)) as D0. pose proof (D 1%nat ltac:(lia)) as D1. cbn in D0, D1. rewrite Nat.add_0_r in D0. split; [|lia].
      split; [|split; [rewrite D0; reflexivity|lia]]. unfold at_. apply rep_unfold. rewrite D0. cbn. split; [reflexivity|]. constructor; [|constructor]; apply rep_unfold; rewrite D1; cbn; (split; [reflexivity|constructor]).
  Qed.
  Lemma piece_len p : zlen (piece_src p) = match p with PChars v => zlen v | PInstr v => 4 + zlen v | PComment v => 7 + zlen v end.
  Proof. destruct p as [v|v|v]; cbn [piece_src]; [reflexivity| |]; rewrite !zlen_app; [change (zlen (lit "<?")) with 2; change (zlen (lit "?>")) with 2|change (zlen (lit "<!--")) with 4; change (zlen (lit "-->")) with 3]; lia. Qed.
  Lemma pieces_give : forall t a, 0 <= a -> a + zlen (text_src t) <= zlen s ->
    Forall2 (gives default_desc (re_keys re_misc default_filter)) (map (to_match re_misc s) (pieces_matches t a)) (pieces_trees s t a).
  Proof.
    induction t as [|p t IH]; intros a Ha Hb; [constructor|]. unfold text_src in *. cbn [flat_map] in Hb. rewrite zlen_app in Hb. pose proof (piece_len p) as Lp. pose proof (zlen_nonneg (piece_src p)). pose proof (zlen_nonneg (flat_map piece_src t)).
    cbn [pieces_matches pieces_trees]. rewrite map_app. apply Forall2_app; [|apply IH; lia]. destruct p as [v|v|v]; cbn [piece_matches piece_trees map]; [constructor| |]; pose proof (zlen_nonneg v); (constructor; [|constructor]).
    - apply pi_gives; lia.
    - apply comment_gives; lia.
  Qed.
  Lemma atts_give : forall l a, 0 <= a -> a + zlen (flat_map att_src l) <= zlen s ->
    Forall2 (gives default_desc (re_keys re_attribute default_filter)) (map (to_match re_attribute s) (att_matches l a)) (att_trees s l a).
  Proof.
    induction l as [|x l IH]; intros a Ha Hb; [constructor|]. cbn [flat_map] in Hb. rewrite zlen_app in Hb. cbn [att_matches att_trees map]. cbv zeta. pose proof (zlen_nonneg (flat_map att_src l)). pose proof (zlen_nonneg (a_space x)). pose proof (zlen_nonneg (att_body x)).
    assert (E : zlen (att_src x) = zlen (a_space x) + zlen (att_body x)) by (unfold att_src; apply zlen_app).
    constructor; [apply att_gives; lia|apply IH; lia].
  Qed.
End Shapes.
