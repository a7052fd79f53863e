(** Facts for Xml.v: the tags and the text. *)
From Verif Require Import SpecXml PyFacts ItoStrFacts FormatFacts HeapFacts HeapFacts2 HeapFacts3 HeapFacts4 CombinFacts CombinFacts2 CombinFacts3 CombinFacts4 ArborFacts3 ArborFacts4 XmlFacts XmlFacts2 XmlFacts3 XmlFacts4 XmlFacts5 XmlFacts6.

(** u stands in s at position a *)
Definition sits (s : pystr) (a : Z) (u : pystr) : Prop := 0 <= a /\ a + zlen u <= zlen s /\ zsub s a (a + zlen u) = u.
Lemma sits_app s a u v : sits s a (u ++ v) <-> sits s a u /\ sits s (a + zlen u) v.
Proof.
  unfold sits. rewrite zlen_app. pose proof (zlen_nonneg u). pose proof (zlen_nonneg v). split.
  - intros (Ha & Hb & E). assert (E' := E). rewrite <- (zsub_app_split s a (a + zlen u) (a + (zlen u + zlen v))) in E' by lia.
    assert (L : length (zsub s a (a + zlen u)) = length u). { pose proof (zsub_len s a (a + zlen u) ltac:(lia) ltac:(lia) ltac:(lia)) as L. unfold zlen in *. lia. }
    assert (Q : zsub s a (a + zlen u) = u /\ zsub s (a + zlen u) (a + (zlen u + zlen v)) = v).
    { clear - E' L. revert E' L. generalize (zsub s a (a + zlen u)) (zsub s (a + zlen u) (a + (zlen u + zlen v))). clear. induction u as [|x u IH]; intros [|y l] m E L; try discriminate L; [auto|]. injection E as -> E. injection L as L. destruct (IH l m E L) as [-> ->]. auto. }
    destruct Q as [Q1 Q2]. split; [split; [lia|]; split; [lia|exact Q1]|]. split; [lia|]. split; [lia|]. transitivity (zsub s (a + zlen u) (a + (zlen u + zlen v))); [f_equal; lia|exact Q2].
  - intros ((Ha & Hb & E1) & (_ & Hc & E2)). split; [lia|]. split; [lia|]. rewrite <- (zsub_app_split s a (a + zlen u) (a + (zlen u + zlen v))) by lia. rewrite E1. f_equal. transitivity (zsub s (a + zlen u) (a + zlen u + zlen v)); [f_equal; lia|exact E2].
Qed.
Lemma sits_whole p u q : sits (p ++ u ++ q) (zlen p) u.
Proof. split; [apply zlen_nonneg|]. split; [rewrite !zlen_app; pose proof (zlen_nonneg q); lia|]. rewrite <- (Z.add_0_r (zlen p)) at 1. rewrite zsub_app_2 by lia. rewrite zsub_app_l by lia. apply zsub_all. lia. Qed.
Lemma sits_nth s a u k : sits s a u -> 0 <= k < zlen u -> zsub s (a + k) (a + k + 1) = zsub u k (k + 1).
Proof. intros (Ha & Hb & E) Hk. transitivity (zsub (zsub s a (a + zlen u)) k (k + 1)); [rewrite zsub_zsub by lia; f_equal; lia|rewrite E; reflexivity]. Qed.

(** the first '>' *)
Lemma gt_index s a c u : sits s a (c :: u ++ [62]) -> ~ In 62 u -> py_index_of s (lit ">") (Some (a + 1)) None = Ok (a + 1 + zlen u).
Proof.
  intros Hs N. change (c :: u ++ [62]) with ([c] ++ u ++ [62]) in Hs. apply sits_app in Hs. destruct Hs as [H1 Hs]. change (zlen [c]) with 1 in *. assert (Hs' := Hs). apply sits_app in Hs. destruct Hs as [Hu Hg].
  pose proof (zlen_nonneg u) as Lu. destruct H1 as (Ha & _). destruct Hg as (_ & Hg & Eg). change (zlen [62]) with 1 in *. destruct Hu as (_ & _ & Eu).
  unfold py_index_of. assert (S1 : adj_start (zlen s) (Some (a + 1)) = a + 1). { unfold adj_start. destruct (Z.ltb_spec (a + 1) 0); lia. }
  assert (E1 : adj_end (zlen s) None = zlen s) by (unfold adj_end; cbn; lia).
  assert (O : occ (lit ">") s (a + 1 + zlen u)). { split; [lia|]. split; [change (zlen (lit ">")) with 1; lia|]. change (zlen (lit ">")) with 1. exact Eg. }
  destruct (py_find_char s (lit ">") (Some (a + 1)) None) as [[E F]|(B1 & B2 & B3 & B4)]; rewrite S1, E1 in *; change (zlen (lit ">")) with 1 in *.
  - exfalso. apply (F (a + 1 + zlen u)); [lia|lia|exact O].
  - set (k := py_find s (lit ">") (Some (a + 1)) None) in *. cbv zeta. destruct (Z.eqb_spec k (-1)); [lia|]. f_equal. specialize (B4 (a + 1 + zlen u) ltac:(lia) ltac:(lia) O).
    destruct (Z.eq_dec k (a + 1 + zlen u)) as [->|Nk]; [reflexivity|]. exfalso. apply N.
    destruct B3 as (_ & _ & B3). change (zlen (lit ">")) with 1 in B3. rewrite <- Eu. assert (Z : zsub (zsub s (a + 1) (a + 1 + zlen u)) (k - (a + 1)) (k - (a + 1) + 1) = [62]). { rewrite zsub_zsub by lia. change [62] with (lit ">"). rewrite <- B3. f_equal; lia. }
    assert (I : In 62 (zsub (zsub s (a + 1) (a + 1 + zlen u)) (k - (a + 1)) (k - (a + 1) + 1))) by (rewrite Z; left; reflexivity).
    unfold zsub at 1 in I. revert I. generalize (zsub s (a + 1) (a + 1 + zlen u)). clear. intros l I. assert (I2 : In 62 (skipn (Z.to_nat (k - (a + 1))) l)). { revert I. generalize (skipn (Z.to_nat (k - (a + 1))) l). generalize (Z.to_nat (k - (a + 1) + 1 - (k - (a + 1)))). clear. intros n m H. rewrite <- (firstn_skipn n m). apply in_or_app. left. exact H. }
    rewrite <- (firstn_skipn (Z.to_nat (k - (a + 1))) l). apply in_or_app. right. exact I2.
Qed.

(** ** the tags *)
Definition makes (f : heap -> out nat) (t : tree) : Prop :=
  forall h, fine h -> exists h' r, f h = (h', Ok r) /\ extends h h' /\ fine h' /\ own h' t r /\ (length h <= r)%nat.
Definition ends_by (q : Z) (t : tree) : Prop := t_start t < t_stop t <= q.
Lemma name_pos n : xname_ok n -> 0 < zlen (name_src n).
Proof. intros H. destruct (name_first n H) as (x & u & -> & _). rewrite zlen_cons. pose proof (zlen_nonneg u). lia. Qed.
Lemma own_span h s a b d ks r : own h (at_ s a b d ks) r -> h_string h r = s /\ h_start h r = a /\ h_stop h r = b.
Proof. intros (R & _). unfold h_string, h_start, h_stop. rewrite (rep_f _ _ _ R). auto. Qed.
Lemma fresh_not_in (l : list nat) (n r : nat) : Forall (fun c => (n <= c)%nat) l -> (r < n)%nat -> ~ In r l.
Proof. intros F L I. rewrite Forall_forall in F. specialize (F r I). lia. Qed.
Lemma att_src_len x : zlen (att_src x) = zlen (a_space x) + zlen (att_body x). Proof. unfold att_src. apply zlen_app. Qed.
Lemma att_trees_in s : forall l p t, In t (att_trees s l p) -> t_string t = s /\ p <= t_start t < t_stop t /\ t_stop t <= p + zlen (flat_map att_src l).
Proof.
  induction l as [|x l IH]; intros p t I; [destruct I|]. cbn [att_trees flat_map] in *. rewrite zlen_app, att_src_len. pose proof (zlen_nonneg (a_space x)). pose proof (zlen_nonneg (flat_map att_src l)). pose proof (body_len x). pose proof (zlen_nonneg (name_src (a_name x))). pose proof (zlen_nonneg (a_value x)).
  destruct I as [<-|I]; [unfold att_tree, at_, t_string, t_start, t_stop; cbn [t_f f_str f_start f_stop]; split; [reflexivity|]; lia|].
  destruct (IH _ _ I) as (Q1 & Q2 & Q3). rewrite att_src_len in *. split; [exact Q1|]. lia.
Qed.
Lemma att_trees_sorted s : forall l p, StronglySorted t_before (att_trees s l p).
Proof.
  induction l as [|x l IH]; intros p; [constructor|]. cbn [att_trees]. constructor; [apply IH|]. apply Forall_forall. intros t I. destruct (att_trees_in s _ _ _ I) as (_ & Q & _). rewrite att_src_len in Q.
  pose proof (body_len x). pose proof (zlen_nonneg (name_src (a_name x))). pose proof (zlen_nonneg (a_value x)). unfold t_before, att_tree, at_, t_start, t_stop in *. cbn [t_f f_start f_stop]. lia.
Qed.
Lemma att_trees_last s x l p : exists t, In t (att_trees s (x :: l) p) /\ t_stop t = p + zlen (flat_map att_src (x :: l)).
Proof.
  revert x p. induction l as [|y l IH]; intros x p.
  - exists (att_tree s x (p + zlen (a_space x))). split; [left; reflexivity|]. cbn [flat_map]. rewrite app_nil_r, att_src_len. unfold att_tree, at_, t_stop. cbn [t_f f_stop]. lia.
  - destruct (IH y (p + zlen (att_src x))) as (t & I & E). exists t. split; [right; exact I|]. rewrite E. cbn [flat_map]. rewrite !zlen_app. lia.
Qed.
Lemma Forall2_own_f h ts cs : Forall2 (own h) ts cs -> map (fun c => n_f (nd h c)) cs = map t_f ts.
Proof. induction 1 as [|t c ts cs (R & _) F IH]; [reflexivity|]. cbn [map]. rewrite (rep_f _ _ _ R), IH. reflexivity. Qed.
Lemma join_atts s x l p h cs : fine h -> Forall2 (own h) (att_trees s (x :: l) p) cs ->
  ito_join (map (fun c => n_f (nd h c)) cs) (Some d_attributes) = Ok (FI s (p + zlen (a_space x)) (p + zlen (flat_map att_src (x :: l))) (Some d_attributes) None).
Proof.
  intros [W A] F. set (ts := att_trees s (x :: l) p) in *. rewrite (Forall2_own_f h ts cs F).
  assert (FW : Forall fwf (map t_f ts)). { apply Forall_forall. intros f I. apply in_map_iff in I. destruct I as (t & <- & I). destruct (Forall2_in_l _ _ _ _ F I) as (c & _ & (R & _)). rewrite <- (rep_f _ _ _ R). apply (hwf_span h W). }
  destruct (join_spec (map t_f ts) (Some d_attributes) FW) as [(s' & FS & j & -> & Ej & Dj & Vj & _ & (SI & (f1 & I1 & E1) & (f2 & I2 & E2)))|((u & v & Iu & Iv & N) & _)]; [discriminate| |].
  - f_equal. assert (s' = s). { assert (In (t_f (att_tree s x (p + zlen (a_space x)))) (map t_f ts)) by (left; reflexivity). rewrite Forall_forall in FS. specialize (FS _ H). cbn in FS. congruence. }
    assert (Ea : f_start j = p + zlen (a_space x)).
    { rewrite Forall_forall in SI. pose proof (SI (t_f (att_tree s x (p + zlen (a_space x)))) (or_introl eq_refl)) as [Q _]. cbn [t_f att_tree at_ f_start] in Q. apply in_map_iff in I1. destruct I1 as (t & <- & I1). destruct I1 as [<-|I1]; [cbn in E1; lia|].
      destruct (att_trees_in s l _ t I1) as (_ & Q2 & _). rewrite att_src_len in Q2. unfold t_start in Q2. pose proof (zlen_nonneg (att_body x)). lia. }
    assert (Eb : f_stop j = p + zlen (flat_map att_src (x :: l))).
    { destruct (att_trees_last s x l p) as (t & It & Et). rewrite Forall_forall in SI. destruct (SI (t_f t) (in_map t_f _ _ It)) as [_ Q]. apply in_map_iff in I2. destruct I2 as (t2 & <- & I2). destruct (att_trees_in s (x :: l) p t2 I2) as (_ & _ & Q3). unfold t_stop in *. lia. }
    destruct j as [js ja jb jd jv]. cbn in *. congruence.
  - exfalso. apply N. apply in_map_iff in Iu, Iv. destruct Iu as (t1 & <- & I1), Iv as (t2 & <- & I2). destruct (att_trees_in s _ _ _ I1) as (Q1 & _), (att_trees_in s _ _ _ I2) as (Q2 & _). unfold t_string in *. congruence.
Qed.
Lemma att_no62 x : att_ok x -> ~ In 62 (att_src x).
Proof.
  intros ((Hw & _) & Hn & (_ & Hv & _)) I. unfold att_src, att_body in I. apply in_app_or in I. destruct I as [I|I]; [revert I; apply white_no; [exact Hw|cbn; intuition discriminate]|].
  apply in_app_or in I. destruct I as [I|I]; [revert I; apply name_no; [exact Hn|vm_compute; auto 20]|].
  apply in_app_or in I. destruct I as [I|I]; [cbn in I; intuition discriminate|]. apply in_app_or in I. destruct I as [I|I]; [|cbn in I; intuition discriminate].
  rewrite Forall_forall in Hv. apply (Hv 62 I). vm_compute. auto.
Qed.
Lemma open_gt n ats sp fin : tag_ok n ats sp -> fin = lit ">" \/ fin = lit "/>" -> exists u, open_src n ats sp fin = 60 :: u ++ [62] /\ ~ In 62 u.
Proof.
  intros (Hn & Ha & Hs & _) Hf. assert (exists w, fin = w ++ [62] /\ ~ In 62 w) as (w & -> & Hw) by (destruct Hf as [-> | ->]; [exists []|exists [47]]; (split; [reflexivity|cbn; intuition discriminate])).
  exists (name_src n ++ flat_map att_src ats ++ sp ++ w). split; [unfold open_src; rewrite <- !app_assoc; reflexivity|]. intros I.
  apply in_app_or in I. destruct I as [I|I]; [revert I; apply name_no; [exact Hn|vm_compute; auto 20]|]. apply in_app_or in I. destruct I as [I|I].
  - apply in_flat_map in I. destruct I as (x & Ix & I). rewrite Forall_forall in Ha. exact (att_no62 x (Ha x Ix) I).
  - apply in_app_or in I. destruct I as [I|I]; [|exact (Hw I)]. revert I. apply white_no; [exact Hs|cbn; intuition discriminate].
Qed.
Section Tags.
  Variable s : pystr.
  Lemma start_tag_made n ats sp fin a : tag_ok n ats sp -> fin = lit ">" \/ fin = lit "/>" -> sits s a (open_src n ats sp fin) ->
    makes (fun h => make_start_tag parser_itors s h a) (open_tree s n ats sp fin a).
  Proof.
    intros Ht Hf Hs h Hfine. destruct (open_gt n ats sp fin Ht Hf) as (u & Eu & Nu). pose proof Hs as (Ha & Hb & Ez).
    assert (EL : zlen (open_src n ats sp fin) = zlen u + 2) by (rewrite Eu, zlen_cons, zlen_app; change (zlen [62]) with 1; lia).
    assert (EL2 : zlen (open_src n ats sp fin) = 1 + zlen (name_src n) + zlen (flat_map att_src ats) + zlen sp + zlen fin) by (unfold open_src; rewrite !zlen_app; change (zlen (lit "<")) with 1; lia).
    pose proof Ht as (Hn & Hat & _ & _). pose proof (name_pos n Hn) as Ln. pose proof (zlen_nonneg (flat_map att_src ats)) as La. pose proof (zlen_nonneg sp) as Lsp. assert (Lf : 0 < zlen fin) by (destruct Hf as [-> | ->]; reflexivity).
    unfold make_start_tag. rewrite (gt_index s a 60 u) by (rewrite <- ?Eu; assumption). unfold obind at 1. cbn [fst snd].
    set (b := a + zlen (open_src n ats sp fin)) in *. replace (a + 1 + zlen u + 1) with b by lia. pose proof (zlen_nonneg u) as Lu.
    destruct (new_str_own h s a b d_start_tag Hfine ltac:(lia) ltac:(lia)) as (h1 & E1 & F1 & X1 & O1). rewrite E1. unfold obind at 1. cbn [fst snd]. set (st := length h) in *.
    assert (Lst1 : (st < length h1)%nat) by (destruct O1 as (_ & _ & ?); assumption).
    (* the name *)
    destruct (own_span _ _ _ _ _ _ _ O1) as (S1 & S2 & S3).
    destruct (extract_own re_open rx_open h1 st s a b [((a, a + 1 + zlen (name_src n)), name_caps n (a + 1))] [name_tree s n (a + 1)] F1 Lst1 S1 S2 S3) as (h2 & l & E2 & X2 & F2 & O2 & G2 & N2).
    { rewrite Ez. apply finds_open; assumption. }
    { constructor; [|constructor]. apply name_gives; lia. }
    change (x_tag parser_itors h1 st) with (extract re_open rx_open h1 st). rewrite E2. unfold obind at 1. cbn [fst snd].
    pose proof (own_ext _ _ _ _ F1 X2 O1) as O1'. unfold at_ at 1 in O1'.
    destruct (own_add_all st _ l [name_tree s n (a + 1)] h2 [] F2 O1' O2) as (h3 & E3 & F3 & L3 & O3 & K3 & D3).
    { apply (fresh_not_in l (length h1)); assumption. } { exact N2. }
    { constructor; [|constructor]. unfold t_fits, name_tree, at_, t_string, t_start, t_stop. cbn [t_f f_str f_start f_stop]. split; [reflexivity|lia]. }
    { constructor; constructor. }
    rewrite E3. unfold obind at 1. cbn [fst snd app] in *.
    assert (X3 : extends h h3).
    { apply (extends_only h h2 h3 (st :: l)); [exact (extends_trans _ _ _ X1 X2)|exact L3| |].
      - intros j Hj. apply D3; [intros ->; apply Hj; left; reflexivity|intros I; apply Hj; right; exact I].
      - constructor; [unfold st; lia|]. eapply Forall_impl; [|exact G2]. cbn. intros. destruct X1. lia. }
    (* the attributes *)
    assert (Lst3 : (st < length h3)%nat) by (destruct O3 as (_ & _ & ?); assumption).
    destruct (own_span _ _ _ _ _ _ _ O3) as (T1 & T2 & T3).
    set (q := a + 1 + zlen (name_src n)).
    destruct (extract_own re_attribute rx_attribute h3 st s a b (att_matches ats q) (att_trees s ats q) F3 Lst3 T1 T2 T3) as (h4 & l4 & E4 & X4 & F4 & O4 & G4 & N4).
    { rewrite Ez. apply finds_attributes; assumption. }
    { apply atts_give; unfold q; lia. }
    change (x_attr parser_itors h3 st) with (extract re_attribute rx_attribute h3 st). rewrite E4. unfold obind at 1. cbn [fst snd].
    pose proof (own_ext _ _ _ _ F3 X4 O3) as O5. pose proof (extends_trans _ _ _ X3 X4) as X5.
    destruct ats as [|x ats'].
    - cbn [att_trees] in O4. inversion O4; subst. exists h4, st. split; [reflexivity|]. split; [exact X5|]. split; [exact F4|]. split; [exact O5|unfold st; lia].
    - set (ats := x :: ats') in *. destruct l4 as [|c4 l4'] eqn:El4; [inversion O4|]. rewrite <- El4 in *. clear El4.
      rewrite (join_atts s x ats' q h4 l4 F4 O4). unfold obind at 1. cbn [fst snd]. fold ats. unfold new_node. unfold obind at 1. cbn [fst snd].
      set (f := FI s (q + zlen (a_space x)) (q + zlen (flat_map att_src ats)) (Some d_attributes) None).
      assert (Lx : zlen (flat_map att_src ats) = zlen (a_space x) + zlen (att_body x) + zlen (flat_map att_src ats')) by (unfold ats; cbn [flat_map]; rewrite zlen_app, att_src_len; lia).
      pose proof (zlen_nonneg (a_space x)). pose proof (body_len x). pose proof (zlen_nonneg (name_src (a_name x))). pose proof (zlen_nonneg (a_value x)). pose proof (zlen_nonneg (flat_map att_src ats')).
      destruct (own_new h4 f F4) as (F6 & X6 & O6); [split; unfold f; cbn [f_start f_stop f_str]; unfold q; lia|]. set (h6 := h4 ++ [Nd f None []]) in *. set (p := length h4) in *.
      assert (O4' : Forall2 (own h6) (att_trees s ats q) l4) by (refine (Forall2_imp _ _ _ _ _ O4); intros; apply (own_ext h4); assumption).
      assert (Gp : Forall (fun c => (c < p)%nat) l4). { apply Forall_forall. intros c I. destruct (Forall2_in_r _ _ _ _ O4 I) as (t & _ & (_ & _ & Lc)). exact Lc. }
      assert (Np : ~ In p l4) by (intros I; rewrite Forall_forall in Gp; specialize (Gp p I); lia).
      destruct (own_add_all p f l4 (att_trees s ats q) h6 [] F6 O6 O4' Np N4) as (h7 & E7 & F7 & L7 & O7 & K7 & D7).
      { apply Forall_forall. intros t I. destruct I as [<-|I].
        - unfold t_fits, f, att_tree, at_, t_string, t_start, t_stop. cbn [t_f f_str f_start f_stop]. split; [reflexivity|lia].
        - destruct (att_trees_in s ats' _ t I) as (Q1 & Q2 & Q3). rewrite att_src_len in *. unfold t_fits. rewrite Q1. unfold f, t_string, t_start, t_stop in *. cbn [t_f f_str f_start f_stop]. split; [reflexivity|lia]. }
      { apply att_trees_sorted. }
      rewrite E7. unfold obind at 1. cbn [fst snd app] in *.
      assert (Nst : ~ In st l4) by (apply (fresh_not_in l4 (length h3)); assumption). assert (Nsp : st <> p) by (unfold p; destruct O5 as (_ & _ & ?); lia).
      pose proof (K7 _ _ (own_ext _ _ _ _ F4 X6 O5) Nsp Nst) as O8.
      destruct (own_add h7 st p (FI s a b (Some d_start_tag) None) [name_tree s n (a + 1)] [] (T f (att_trees s ats q)) F7) as (h9 & E9 & F9 & L9 & O9 & K9 & D9).
      { exact O8. } { exact O7. } { congruence. }
      { unfold t_fits, f, t_string, t_start, t_stop. cbn [t_f f_str f_start f_stop]. split; [reflexivity|unfold q; lia]. }
      { constructor; [|constructor]. unfold t_before, name_tree, at_, f, t_start, t_stop. cbn [t_f f_start f_stop]. unfold q. lia. }
      { constructor. }
      rewrite E9. unfold obind. cbn [fst snd].
      assert (Gl4 : Forall (fun c => (length h <= c)%nat) l4) by (eapply Forall_impl; [|exact G4]; cbn; intros; destruct X3; lia).
      assert (Gpp : (length h <= p)%nat) by (unfold p; destruct X5; lia).
      assert (X7 : extends h h7).
      { apply (extends_only h h6 h7 (p :: l4)); [exact (extends_trans _ _ _ X5 X6)|exact L7| |constructor; assumption]. intros j Hj. apply D7; [intros ->; apply Hj; left; reflexivity|intros I; apply Hj; right; exact I]. }
      exists h9, st. split; [reflexivity|]. split; [|split; [exact F9|]; split; [exact O9|unfold st; lia]].
      apply (extends_only h h7 h9 [st; p]); [exact X7|exact L9| |]. { intros j Hj. apply D9; intros ->; apply Hj; cbn; auto. } { apply Forall_cons; [unfold st; lia|]. apply Forall_cons; [exact Gpp|apply Forall_nil]. }
  Qed.
  Lemma end_tag_made n sp a : xname_ok n -> white sp -> after_name sp -> sits s a (close_src n sp) ->
    makes (fun h => make_end_tag parser_itors s h a) (close_tree s n sp a).
  Proof.
    intros Hn Hw Han Hs h Hfine. pose proof Hs as (Ha & Hb & Ez). pose proof (name_pos n Hn) as Ln. pose proof (zlen_nonneg sp) as Lsp.
    assert (EL : zlen (close_src n sp) = 2 + zlen (name_src n) + zlen sp + 1) by (unfold close_src; rewrite !zlen_app; change (zlen (lit "</")) with 2; change (zlen (lit ">")) with 1; lia).
    unfold make_end_tag. rewrite (gt_index s a 60 (47 :: name_src n ++ sp)).
    2: { assert (E : 60 :: (47 :: name_src n ++ sp) ++ [62] = close_src n sp) by (unfold close_src; cbn [app lit]; rewrite <- app_assoc; reflexivity). rewrite E. exact Hs. }
    2: { intros [I|I]; [discriminate|]. apply in_app_or in I. destruct I as [I|I]; [revert I; apply name_no; [exact Hn|vm_compute; auto 20]|revert I; apply white_no; [exact Hw|cbn; intuition discriminate]]. }
    unfold obind at 1. cbn [fst snd]. rewrite zlen_cons, zlen_app. set (b := a + zlen (close_src n sp)) in *. replace (a + 1 + (1 + (zlen (name_src n) + zlen sp)) + 1) with b by lia.
    destruct (new_str_own h s a b d_end_tag Hfine ltac:(lia) ltac:(lia)) as (h1 & E1 & F1 & X1 & O1). rewrite E1. unfold obind at 1. cbn [fst snd]. set (st := length h) in *.
    assert (Lst1 : (st < length h1)%nat) by (destruct O1 as (_ & _ & ?); assumption).
    destruct (own_span _ _ _ _ _ _ _ O1) as (S1 & S2 & S3).
    destruct (extract_own re_open rx_open h1 st s a b [((a, a + 2 + zlen (name_src n)), name_caps n (a + 2))] [name_tree s n (a + 2)] F1 Lst1 S1 S2 S3) as (h2 & l & E2 & X2 & F2 & O2 & G2 & N2).
    { rewrite Ez. apply finds_close; assumption. }
    { constructor; [|constructor]. apply name_gives; lia. }
    change (x_tag parser_itors h1 st) with (extract re_open rx_open h1 st). rewrite E2. unfold obind at 1. cbn [fst snd].
    pose proof (own_ext _ _ _ _ F1 X2 O1) as O1'. unfold at_ at 1 in O1'.
    destruct (own_add_all st _ l [name_tree s n (a + 2)] h2 [] F2 O1' O2) as (h3 & E3 & F3 & L3 & O3 & K3 & D3).
    { apply (fresh_not_in l (length h1)); assumption. } { exact N2. }
    { constructor; [|constructor]. unfold t_fits, name_tree, at_, t_string, t_start, t_stop. cbn [t_f f_str f_start f_stop]. split; [reflexivity|lia]. }
    { constructor; constructor. }
    rewrite E3. unfold obind. cbn [fst snd app] in *. exists h3, st. split; [reflexivity|]. split; [|split; [exact F3|]; split; [exact O3|unfold st; lia]].
    apply (extends_only h h2 h3 (st :: l)); [exact (extends_trans _ _ _ X1 X2)|exact L3| |].
    - intros j Hj. apply D3; [intros ->; apply Hj; left; reflexivity|intros I; apply Hj; right; exact I].
    - constructor; [unfold st; lia|]. eapply Forall_impl; [|exact G2]. cbn. intros. destruct X1. lia.
  Qed.
End Tags.
