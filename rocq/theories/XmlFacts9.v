(** Facts for Xml.v: the element and the document. *)
From Verif Require Import SpecXml PyFacts ItoStrFacts FormatFacts HeapFacts HeapFacts2 HeapFacts3 HeapFacts4 CombinFacts CombinFacts2 CombinFacts3 CombinFacts4 ArborFacts3 ArborFacts4 XmlFacts XmlFacts2 XmlFacts3 XmlFacts4 XmlFacts5 XmlFacts6 XmlFacts7 XmlFacts8.

(** the character before the '>' of a start tag *)
Lemma last_no (u : pystr) c w : (forall x v, u = v ++ [x] -> x <> c) -> u <> [] -> u <> w ++ [c].
Proof. intros H _ E. exact (H c w E eq_refl). Qed.
Lemma end_app (u v w : pystr) (c : Z) : u ++ v = w ++ [c] -> (v = [] /\ u = w ++ [c]) \/ exists v', v = v' ++ [c].
Proof.
  intros E. destruct v as [|x v] using rev_ind; [left; rewrite app_nil_r in E; auto|]. right. clear IHv. rewrite app_assoc in E. apply app_inj_tail in E. destruct E as [_ ->]. exists v. reflexivity.
Qed.
Lemma white_last sp c v : white sp -> sp = v ++ [c] -> In c [9; 10; 13; 32].
Proof. intros H ->. unfold white in H. rewrite Forall_forall in H. apply H. apply in_or_app. right. left. reflexivity. Qed.
Lemma open_last n ats sp w c : tag_ok n ats sp -> c = 47 \/ c = 63 -> (lit "<" ++ name_src n ++ flat_map att_src ats ++ sp) <> w ++ [c].
Proof.
  intros (Hn & _ & Hs & _) Hc E. apply end_app in E. destruct E as [[E _]|(w1 & E)].
  { destruct (name_first n Hn) as (x & u & En & _). rewrite En in E. discriminate E. }
  apply end_app in E. destruct E as [[E En]|(w2 & E)].
  { pose proof (name_chars n Hn) as F. rewrite En in F. apply Forall_app in F. destruct F as [_ F]. inversion F; subst. apply H1. destruct Hc as [-> | ->]; vm_compute; auto 20. }
  apply end_app in E. destruct E as [[_ E]|(w3 & E)].
  - assert (G : forall l w, flat_map att_src l = w ++ [c] -> c = 34).
    { induction l as [|x l IH]; intros w0 G; [destruct w0; discriminate|]. cbn [flat_map] in G. apply end_app in G. destruct G as [[_ G]|(w4 & G)]; [|exact (IH _ G)]. unfold att_src, att_body in G. rewrite !app_assoc in G. apply app_inj_tail in G. destruct G as [_ G]. symmetry. exact G. }
    specialize (G _ _ E). destruct Hc; congruence.
  - pose proof (white_last sp c w3 Hs E) as I. cbn in I. destruct Hc; subst; intuition discriminate.
Qed.
Lemma not_closed n ats sp txt w c : tag_ok n ats sp -> no_slash txt -> c = 47 \/ c = 63 -> open_src n ats sp (lit ">") ++ text_src txt <> w ++ [c; 62].
Proof.
  intros Ht Hn Hc E. change [c; 62] with ([c] ++ [62]) in E. rewrite app_assoc in E. assert (E0 := E). apply end_app in E. destruct E as [[_ E]|(t & Et)].
  - unfold open_src in E. rewrite !app_assoc in E. apply app_inj_tail in E. destruct E as [E _]. apply (open_last n ats sp w c Ht Hc). rewrite <- !app_assoc in E. exact E.
  - rewrite Et, app_assoc in E0. apply app_inj_tail in E0. destruct E0 as [E0 _]. apply end_app in E0. destruct E0 as [[_ E0]|(t' & E0)].
    + unfold open_src in E0. rewrite !app_assoc in E0. apply app_inj_tail in E0. destruct E0 as [_ E0]. destruct Hc as [-> | ->]; discriminate.
    + destruct (Hn t') as [N1 N2]. rewrite Et, E0, <- app_assoc in N1, N2. destruct Hc as [-> | ->]; [exact (N1 eq_refl)|exact (N2 eq_refl)].
Qed.
Section Doc.
  Variables (isspace : Z -> bool) (ie : bool) (s : pystr).
  Notation TT := (text_trees isspace ie s).
  Lemma window_sits a w : sits s a w -> 2 <= zlen w -> exists u x y, w = u ++ [x; y] /\ py_slice s (Some (a + zlen w - 2)) (Some (a + zlen w)) = [x; y].
  Proof.
    intros Hs L. destruct w as [|y w] using rev_ind; [rewrite zlen_nil in L; lia|]. clear IHw. destruct w as [|x w] using rev_ind; [change (zlen ([] ++ [y])) with 1 in L; lia|]. clear IHw. exists w, x, y. split; [rewrite <- app_assoc; reflexivity|].
    rewrite <- app_assoc in Hs. cbn [app] in Hs. assert (Hs0 := Hs). apply sits_app in Hs. destruct Hs as [Hw (H1 & H2 & H3)]. rewrite !zlen_app in *. change (zlen [x]) with 1 in *. change (zlen [y]) with 1 in *. change (zlen [x; y]) with 2 in *.
    destruct Hw as (Ha & _). pose proof (zlen_nonneg w). rewrite py_slice_in by lia. rewrite <- H3. f_equal; lia.
  Qed.
  Lemma eqb_two x y a b : eqb_str [x; y] [a; b] = (x =? a) && (y =? b).
  Proof. cbn. rewrite andb_true_r. reflexivity. Qed.
  Lemma self_closing_elem n ats sp txt a b childless : tag_ok n ats sp -> sits s a (open_src n ats sp (lit ">") ++ text_src txt) -> b = a + zlen (open_src n ats sp (lit ">")) + zlen (text_src txt) -> (childless = true -> no_slash txt) ->
    self_closing s b childless = false.
  Proof.
    intros Ht Hs Eb Hn. unfold self_closing. destruct childless; [|apply andb_false_r]. rewrite andb_true_r. specialize (Hn eq_refl).
    destruct (window_sits a _ Hs) as (u & x & y & Ew & Es).
    { rewrite zlen_app. unfold open_src. rewrite !zlen_app. change (zlen (lit "<")) with 1. change (zlen (lit ">")) with 1. pose proof (zlen_nonneg (name_src n)). pose proof (zlen_nonneg (flat_map att_src ats)). pose proof (zlen_nonneg sp). pose proof (zlen_nonneg (text_src txt)). lia. }
    rewrite zlen_app in Es. replace (a + (zlen (open_src n ats sp (lit ">")) + zlen (text_src txt))) with b in Es by lia. rewrite Es.
    change (lit "/>") with [47; 62]. change (lit "?>") with [63; 62]. rewrite !eqb_two. destruct (y =? 62) eqn:Ey; [|rewrite !andb_false_r; reflexivity]. apply Z.eqb_eq in Ey. subst y. rewrite !andb_true_r.
    destruct (x =? 47) eqn:E1; [apply Z.eqb_eq in E1; exfalso; exact (not_closed n ats sp txt u x Ht Hn (or_introl E1) Ew)|].
    destruct (x =? 63) eqn:E2; [apply Z.eqb_eq in E2; exfalso; exact (not_closed n ats sp txt u x Ht Hn (or_intror E2) Ew)|reflexivity].
  Qed.
  Lemma self_closing_empty n ats sp a : sits s a (open_src n ats sp (lit "/>")) -> self_closing s (a + zlen (open_src n ats sp (lit "/>"))) true = true.
  Proof.
    intros Hs. unfold self_closing. rewrite andb_true_r. unfold open_src in *. rewrite !app_assoc in *. set (w := ((lit "<" ++ name_src n) ++ flat_map att_src ats) ++ sp) in *.
    destruct (window_sits a _ Hs) as (u & x & y & Ew & Es); [rewrite zlen_app; change (zlen (lit "/>")) with 2; pose proof (zlen_nonneg w); lia|]. rewrite Es.
    assert (E : [x; y] = lit "/>").
    { change (lit "/>") with ([47] ++ [62]) in Ew. change [x; y] with ([x] ++ [y]) in Ew. rewrite !app_assoc in Ew. apply app_inj_tail in Ew. destruct Ew as [Ew <-]. apply app_inj_tail in Ew. destruct Ew as [_ <-]. reflexivity. }
    rewrite E. reflexivity.
  Qed.
  Lemma doc_ok_elem n ats sp txt kids sp' : doc_ok (XElem n ats sp txt kids sp') ->
    tag_ok n ats sp /\ white sp' /\ after_name sp' /\ Forall piece_ok txt /\ (kids = [] -> no_slash txt) /\ Forall (fun k => doc_ok (fst k) /\ Forall piece_ok (snd k)) kids.
  Proof.
    cbn [doc_ok]. intros (H1 & H2 & H3 & H4 & H5 & H6). do 5 (split; [assumption|]). clear - H6. induction kids as [|k kids IH]; [constructor|]. destruct H6 as (A & B & C). constructor; [split; assumption|apply IH; exact C].
  Qed.
  Lemma open_span n ats sp fin a : t_string (open_tree s n ats sp fin a) = s /\ t_start (open_tree s n ats sp fin a) = a /\ t_stop (open_tree s n ats sp fin a) = a + zlen (open_src n ats sp fin).
  Proof. unfold open_tree, at_, t_string, t_start, t_stop. cbn. auto. Qed.
  Lemma close_span n sp a : t_string (close_tree s n sp a) = s /\ t_start (close_tree s n sp a) = a /\ t_stop (close_tree s n sp a) = a + zlen (close_src n sp).
  Proof. unfold close_tree, at_, t_string, t_start, t_stop. cbn. auto. Qed.
  Lemma own_spans h t r : own h t r -> h_start h r = t_start t /\ h_stop h r = t_stop t.
  Proof. intros (R & _). unfold h_start, h_stop, t_start, t_stop. rewrite (rep_f _ _ _ R). auto. Qed.
  Lemma open_len n ats sp fin : 0 < zlen (open_src n ats sp fin).
  Proof. unfold open_src. rewrite zlen_app. change (zlen (lit "<")) with 1. pose proof (zlen_nonneg (name_src n ++ flat_map att_src ats ++ sp ++ fin)). lia. Qed.
  Theorem element_made : forall d, doc_ok d -> forall a, sits s a (doc_src d) -> makes (extract_itos parser_itors isspace ie s (elem_of d a)) (doc_tree isspace ie s d a).
  Proof.
    induction d as [n ats sp txt kids sp' IH|n ats sp] using xdoc_ind'; intros Hd a Hs h Hf.
    - set (d := XElem n ats sp txt kids sp') in *. apply doc_ok_elem in Hd. destruct Hd as (Ht & Hw & Han & Hpt & Hns & Hk).
      unfold d. rewrite elem_of_eq. fold d. cbn [extract_itos]. unfold extract_element.
      assert (Hs0 := Hs). unfold d in Hs. rewrite doc_src_eq in Hs. assert (Hs1 := Hs). rewrite app_assoc in Hs1. apply sits_app in Hs1. destruct Hs1 as [Hs1 _]. apply sits_app in Hs. destruct Hs as [Ho Hs]. apply sits_app in Hs. destruct Hs as [Htx Hs]. apply sits_app in Hs. destruct Hs as [Hkd Hc].
      set (O := open_src n ats sp (lit ">")) in *. set (p := a + zlen O) in *. set (p1 := p + zlen (text_src txt)) in *. set (e := p1 + zlen (flat_map kid_src kids)) in *.
      pose proof (open_len n ats sp (lit ">")) as LO. fold O in LO. pose proof (zlen_nonneg (text_src txt)) as LT. pose proof (zlen_nonneg (flat_map kid_src kids)) as LK. pose proof (close_len n sp') as LC.
      assert (EL : zlen (doc_src d) = zlen O + zlen (text_src txt) + zlen (flat_map kid_src kids) + zlen (close_src n sp')) by (unfold d; rewrite doc_src_eq, !zlen_app; fold O; lia).
      assert (Ee : close_at n sp' a d = e) by (unfold close_at, e, p1, p; lia). rewrite Ee. pose proof Hs0 as (Ha & Hb & _).
      (* start tag *)
      destruct (start_tag_made s n ats sp (lit ">") a Ht (or_introl eq_refl) Ho h Hf) as (h1 & st & E1 & X1 & F1 & O1 & L1). rewrite E1. unfold obind at 1. cbn [fst snd].
      assert (SC : self_closing s e (match map (extract_itos parser_itors isspace ie s) (walk_kids elem_of p1 kids) with [] => true | _ => false end) = false).
      { destruct kids as [|k kids'] eqn:Ek; [|cbn [walk_kids map]; unfold self_closing; apply andb_false_r]. apply (self_closing_elem n ats sp txt a e true Ht Hs1); [unfold e, p1, p; cbn [flat_map]; change (zlen (@nil Z)) with 0; fold O; lia|]. intros _. apply Hns. reflexivity. }
      fold p1. fold p in p1. rewrite SC.
      (* end tag *)
      destruct (end_tag_made s n sp' e (proj1 Ht) Hw Han Hc h1 F1) as (h2 & et & E2 & X2 & F2 & O2 & L2). rewrite E2. unfold obind at 2. unfold obind at 1. cbn [fst snd].
      pose proof (own_ext _ _ _ _ F1 X2 O1) as O1'. destruct (own_spans _ _ _ O1') as [S1 S2]. destruct (own_spans _ _ _ O2) as [S3 S4].
      destruct (open_span n ats sp (lit ">") a) as (P1 & P2 & P3). destruct (close_span n sp' e) as (Q1 & Q2 & Q3). fold O in P3. fold p in P3.
      rewrite S1, S4, P2, Q3. set (z := e + zlen (close_src n sp')).
      destruct (new_str_own h2 s a z d_element F2) as (h3 & E3 & F3 & X3 & O3); [unfold z, e, p1, p; lia|unfold z, e, p1, p; lia|]. rewrite E3. unfold obind at 1. cbn [fst snd]. set (ito := length h2) in *.
      unfold at_ in O3. set (f := FI s a z (Some d_element) None) in *.
      assert (H3 : holds h h3 ito f ([] ++ [])) by (split; [exact F3|]; split; [exact (extends_trans _ _ _ X1 (extends_trans _ _ _ X2 X3))|]; split; [exact O3|unfold ito; destruct X1, X2; lia]).
      pose proof (own_ext _ _ _ _ F2 X3 O1') as O1''. pose proof (own_ext _ _ _ _ F2 X3 O2) as O2'.
      assert (Nst : st <> ito) by (unfold ito; destruct O1' as (_ & _ & ?); lia). assert (Net : et <> ito) by (unfold ito; destruct O2 as (_ & _ & ?); lia). assert (Nse : st <> et) by (destruct O1 as (_ & _ & ?); lia).
      destruct (add_made isspace ie s h h3 ito f [] [] (open_tree s n ats sp (lit ">") a) st H3 O1'' L1 Nst) as (h4 & E4 & H4 & G4 & K4).
      { unfold t_fits. rewrite P1, P2, P3. unfold f, t_string, t_start, t_stop. cbn [t_f f_str f_start f_stop]. split; [reflexivity|]. unfold z, e, p1, p. lia. } { constructor. } { constructor. }
      rewrite E4. unfold obind at 1. cbn [fst snd app] in *.
      pose proof (K4 _ _ O2' Net (not_eq_sym Nse)) as O4e.
      assert (Fk : Forall (fun k => doc_ok (fst k) /\ Forall piece_ok (snd k) /\ forall a, sits s a (doc_src (fst k)) -> makes (extract_itos parser_itors isspace ie s (elem_of (fst k) a)) (doc_tree isspace ie s (fst k) a)) kids).
      { clear - IH Hk. induction Hk as [|k l [A B] F G]; constructor; inversion IH; subst; auto. }
      destruct (children_added isspace ie s h ito f eq_refl kids p1 None [open_tree s n ats sp (lit ">") a] h4 None None p) as (h5 & fc & lc & E5 & H5 & G5 & K5 & Q5).
      { exact Fk. } { exact Hkd. } { unfold f; cbn [f_start]. unfold p1, p. lia. } { unfold f; cbn [f_stop]. unfold z, e. lia. } { exact H4. }
      { apply Forall_cons; [unfold ends_by; rewrite P2, P3; unfold p; lia|apply Forall_nil]. } { unfold f; cbn [f_start]. unfold p. lia. } { unfold p1. lia. }
      rewrite E5. unfold obind at 1. cbn [fst snd].
      pose proof (K5 _ _ O4e Net) as O5e. destruct (own_spans _ _ _ O5e) as [S5 _]. rewrite Q2 in S5.
      (* the text after the last child *)
      set (OT := open_tree s n ats sp (lit ">") a) in *. set (LT0 := loop_trees isspace ie s None p1 kids) in *.
      assert (Dk : Forall (fun k => doc_ok (fst k)) kids) by (eapply Forall_impl; [|exact Hk]; intros k [? _]; assumption).
      assert (M : exists h6, (match lc with None => (h5, Ok tt) | Some lc => add_text parser_itors isspace ie s h5 ito (h_stop h5 lc) (h_start h5 et) end) = (h6, Ok tt) /\ holds h h6 ito f (([OT] ++ LT0) ++ opt_trees isspace ie s (last_piece None kids) e) /\ kept h5 h6 /\ (forall t' j, own h5 t' j -> j <> ito -> own h6 t' j)).
      { assert (CK : kids = [] \/ exists k0 kids0, kids = k0 :: kids0) by (destruct kids as [|k0 kids0]; [left; reflexivity|right; exists k0, kids0; reflexivity]).
        destruct CK as [Ekids|(k0 & kids0 & Ekids)]; rewrite Ekids in Q5.
        - rewrite Ekids. destruct Q5 as [-> ->]. exists h5. split; [reflexivity|]. split; [cbn [last_piece opt_trees]; rewrite app_nil_r; exact H5|]. split; [apply kept_ext, extends_refl|auto].
        - destruct Q5 as [(lc0 & t & -> & Elp & Hpl & Llc & Slc) _]. rewrite <- Ekids in Elp, Slc. fold e in Slc. rewrite Slc, S5, Elp. unfold opt_trees.
          assert (Hsl : sits s (e - zlen (text_src t)) (text_src t)).
          { clear - Elp Hkd Ekids. unfold e. revert Elp Hkd. generalize p1 (@None (list xpiece)). intros q o Elp Hkd.
            assert (G : forall l q o, last_piece o l = Some t -> l <> [] -> sits s q (flat_map kid_src l) -> sits s (q + zlen (flat_map kid_src l) - zlen (text_src t)) (text_src t)).
            { induction l as [|k l IH]; intros q0 o0 E N H; [congruence|]. cbn [last_piece flat_map] in *. apply sits_app in H. destruct H as [H1 H2]. unfold kid_src at 1 in H1. apply sits_app in H1. destruct H1 as [_ H1]. rewrite zlen_app. destruct l as [|k' l'].
              - injection E as <-. cbn [flat_map]. change (zlen (@nil Z)) with 0. rewrite kid_len. replace (q0 + (zlen (doc_src (fst k)) + zlen (text_src (snd k)) + 0) - zlen (text_src (snd k))) with (q0 + zlen (doc_src (fst k))) by lia. exact H1.
              - specialize (IH _ _ E ltac:(discriminate) H2). replace (q0 + (zlen (kid_src k) + zlen (flat_map kid_src (k' :: l'))) - zlen (text_src t)) with (q0 + zlen (kid_src k) + zlen (flat_map kid_src (k' :: l')) - zlen (text_src t)) by lia. exact IH. }
            apply (G kids q o Elp); [|exact Hkd]. rewrite Ekids. discriminate. }
          assert (HI := loop_in isspace ie s kids Dk p1 None). rewrite Elp in HI. cbn beta iota in HI.
          assert (LLp : e - zlen (text_src t) >= p1). { destruct Hsl as (_ & _ & _). clear - Elp Ekids. unfold e. rewrite Ekids in *. clear Ekids. cbn [last_piece flat_map] in *. rewrite zlen_app, kid_len. revert Elp. generalize (snd k0) as o. intros o Elp. assert (G : forall l o, last_piece (Some o) l = Some t -> zlen (text_src t) <= zlen (text_src o) + zlen (flat_map kid_src l)). { induction l as [|k l IH]; intros o0 E; [injection E as ->; change (zlen (flat_map kid_src [])) with 0; lia|]. cbn [last_piece flat_map] in *. rewrite zlen_app, kid_len. specialize (IH _ E). pose proof (zlen_nonneg (doc_src (fst k))). pose proof (zlen_nonneg (text_src o0)). lia. } specialize (G _ _ Elp). pose proof (zlen_nonneg (doc_src (fst k0))). lia. }
          pose proof (zlen_nonneg (text_src t)) as Ltt.
          destruct (text_added isspace ie s h h5 ito f ([OT] ++ LT0) [] t (e - zlen (text_src t))) as (h6 & E6 & H6 & G6 & K6); [rewrite app_nil_r; exact H5|exact Hpl|exact Hsl|reflexivity|unfold f; cbn [f_start]; unfold p1, p in *; lia|unfold f; cbn [f_stop]; unfold z; lia| |constructor|].
          { apply Forall_cons; [unfold ends_by; rewrite P2, P3; unfold p1, p in *; lia|]. apply Forall_forall. intros u I. destruct (HI u I) as [U1 U2]. unfold ends_by. fold e in U2. lia. }
          replace (e - zlen (text_src t) + zlen (text_src t)) with e in E6 by lia. exists h6. split; [exact E6|]. split; [rewrite app_nil_r in H6; exact H6|]. split; assumption. }
      destruct M as (h6 & E6 & H6 & G6 & K6). rewrite E6. unfold obind at 1. cbn [fst snd].
      (* the text before the first child *)
      assert (EK : LT0 ++ opt_trees isspace ie s (last_piece None kids) e = kids_trees isspace ie s p1 kids) by (unfold LT0, e; apply (kids_loop isspace ie s kids p1 None)).
      rewrite <- app_assoc, EK in H6.
      assert (KB : forall u, In u (kids_trees isspace ie s p1 kids) -> p1 <= t_start u < t_stop u /\ t_stop u <= e).
      { rewrite <- EK. intros u I. apply in_app_or in I. pose proof (loop_in isspace ie s kids Dk p1 None u) as LI. cbn beta iota in LI. destruct I as [I|I].
        - destruct (LI I) as [U1 U2]. fold e in U2. split; [lia|]. destruct (last_piece None kids) as [t|]; [pose proof (zlen_nonneg (text_src t))|]; lia.
        - unfold opt_trees in I. destruct (last_piece None kids) as [t|] eqn:Elp; [|destruct I]. destruct (text_in isspace ie s _ _ _ I) as (_ & U1 & U2 & U3). split; [|lia]. rewrite U1.
          assert (LLp : e - zlen (text_src t) >= p1). { clear - Elp. unfold e. destruct kids as [|k0 kids]; [discriminate|]. cbn [last_piece flat_map] in *. rewrite zlen_app, kid_len. revert Elp. generalize (snd k0) as o. intros o Elp. assert (G : forall l o, last_piece (Some o) l = Some t -> zlen (text_src t) <= zlen (text_src o) + zlen (flat_map kid_src l)). { induction l as [|k l IH]; intros o0 E; [injection E as ->; change (zlen (flat_map kid_src [])) with 0; lia|]. cbn [last_piece flat_map] in *. rewrite zlen_app, kid_len. specialize (IH _ E). pose proof (zlen_nonneg (doc_src (fst k))). pose proof (zlen_nonneg (text_src o0)). lia. } specialize (G _ _ Elp). pose proof (zlen_nonneg (doc_src (fst k0))). lia. }
          lia. }
      pose proof (K6 _ _ O5e Net) as O6e. destruct (own_spans _ _ _ O6e) as [S6 _]. rewrite Q2 in S6.
      assert (S1' : h_stop h6 st = p).
      { assert (Lst2 : (st < length h2)%nat) by (destruct O1' as (_ & _ & ?); assumption).
        pose proof (kept_trans isspace ie s _ _ _ (kept_ext _ _ X3) (kept_trans isspace ie s _ _ _ G4 (kept_trans isspace ie s _ _ _ G5 G6))) as KK. destruct (kept_stop h2 h6 st KK Lst2) as [-> _]. rewrite S2. exact P3. }
      assert (S7 : (match fc with Some x => h_start h6 x | None => h_start h6 et end) = p1).
      { destruct kids as [|k0 kids0]; [destruct Q5 as [-> _]; rewrite S6; unfold e; cbn [flat_map]; change (zlen (@nil Z)) with 0; lia|]. destruct Q5 as [_ (c & -> & Lc & Sc)]. destruct (kept_stop h5 h6 c G6 Lc) as [_ ->]. exact Sc. }
      rewrite S1', S7. replace p1 with (p + zlen (text_src txt)) by reflexivity.
      destruct (text_added isspace ie s h h6 ito f [OT] (kids_trees isspace ie s p1 kids) txt p) as (h7 & E7 & H7 & G7 & K7).
      { exact H6. } { exact Hpt. } { exact Htx. } { reflexivity. } { unfold f; cbn [f_start]. unfold p. lia. } { unfold f; cbn [f_stop]. unfold z, e, p1. lia. }
      { apply Forall_cons; [unfold ends_by; rewrite P2, P3; unfold p; lia|apply Forall_nil]. }
      { apply Forall_forall. intros u I. unfold starts_at. destruct (KB u I). fold p1. lia. }
      rewrite E7. unfold obind at 1. cbn [fst snd].
      (* the end tag *)
      pose proof (K7 _ _ O6e Net) as O7e.
      destruct (add_made isspace ie s h h7 ito f ([OT] ++ TT txt p ++ kids_trees isspace ie s p1 kids) [] (close_tree s n sp' e) et) as (h8 & E8 & H8 & G8 & K8).
      { rewrite app_nil_r. exact H7. } { exact O7e. } { destruct X1; lia. } { exact Net. }
      { unfold t_fits. rewrite Q1, Q2, Q3. unfold f, t_string, t_start, t_stop. cbn [t_f f_str f_start f_stop]. split; [reflexivity|]. unfold z, e, p1, p. lia. }
      { apply Forall_forall. intros u I. unfold t_before. rewrite Q2. cbn [app] in I. destruct I as [<-|I]; [rewrite P2, P3; unfold e, p1, p; lia|]. apply in_app_or in I. destruct I as [I|I].
        - destruct (text_in isspace ie s _ _ _ I) as (_ & U1 & U2 & U3). unfold e, p1 in *. lia.
        - destruct (KB u I). lia. }
      { constructor. }
      rewrite E8. unfold obind. cbn [fst snd]. destruct H8 as (F8 & X8 & O8 & L8). exists h8, ito. split; [reflexivity|]. split; [exact X8|]. split; [exact F8|]. split; [|exact L8].
      unfold d. rewrite doc_tree_eq. cbv zeta. fold d. rewrite Ee. fold O. fold p. fold p1. unfold at_. replace (a + zlen (doc_src d)) with z by (unfold z, e, p1, p; lia). fold f. fold OT.
      rewrite <- !app_assoc in O8. exact O8.
    - cbn [doc_ok] in Hd. cbn [elem_of extract_itos doc_tree doc_src] in *. unfold extract_element. pose proof (open_len n ats sp (lit "/>")) as LO. pose proof Hs as (Ha & Hb & _).
      destruct (start_tag_made s n ats sp (lit "/>") a Hd (or_intror eq_refl) Hs h Hf) as (h1 & st & E1 & X1 & F1 & O1 & L1). rewrite E1. unfold obind at 1. cbn [fst snd map].
      rewrite self_closing_empty by exact Hs. unfold obind at 1. cbn [fst snd]. destruct (own_spans _ _ _ O1) as [S1 _]. destruct (open_span n ats sp (lit "/>") a) as (P1 & P2 & P3). rewrite S1, P2.
      set (z := a + zlen (open_src n ats sp (lit "/>"))) in *.
      destruct (new_str_own h1 s a z d_element F1) as (h3 & E3 & F3 & X3 & O3); [lia|lia|]. rewrite E3. unfold obind at 1. cbn [fst snd]. set (ito := length h1) in *. unfold at_ in O3. set (f := FI s a z (Some d_element) None) in *.
      assert (H3 : holds h h3 ito f ([] ++ [])) by (split; [exact F3|]; split; [exact (extends_trans _ _ _ X1 X3)|]; split; [exact O3|unfold ito; destruct X1; lia]).
      pose proof (own_ext _ _ _ _ F1 X3 O1) as O1''. assert (Nst : st <> ito) by (unfold ito; destruct O1 as (_ & _ & ?); lia).
      destruct (add_made isspace ie s h h3 ito f [] [] (open_tree s n ats sp (lit "/>") a) st H3 O1'' L1 Nst) as (h4 & E4 & H4 & G4 & K4).
      { unfold t_fits. rewrite P1, P2, P3. unfold f, t_string, t_start, t_stop. cbn [t_f f_str f_start f_stop]. split; [reflexivity|]. lia. } { constructor. } { constructor. }
      rewrite E4. unfold obind at 1. cbn [fst snd app] in *. cbn [add_children]. unfold obind. cbn [fst snd]. destruct H4 as (F4 & X4 & O4 & L4). exists h4, ito. split; [reflexivity|]. split; [exact X4|]. split; [exact F4|]. split; [exact O4|exact L4].
  Qed.
End Doc.
Theorem parse_made c ok isspace ie pre d post h : codec_for c ok -> let text := pre ++ doc_src d ++ post in Forall ok text -> doc_ok d -> hwf h -> acyclic h ->
  exists h' r, xml_parse c isspace ie h text (doc_report (event_at (cd_enc c) text) d (zlen pre)) = (h', Ok r) /\ extends h h' /\ hwf h' /\ acyclic h' /\
    rep h' (doc_tree isspace ie text d (zlen pre)) r /\ n_par (nd h' r) = None.
Proof.
  intros C text Ft Hd W A. pose proof (sits_whole pre (doc_src d) post) as Hs. fold text in Hs. pose proof Hs as (Ha & Hb & _).
  destruct (index_doc c ok text C Ft d (zlen pre) ix_reset Ha Hb (or_intror eq_refl)) as (st & E & _).
  destruct (element_made isspace ie text d Hd (zlen pre) Hs h (conj W A)) as (h' & r & E1 & X & [W' A'] & (R & P & _) & _).
  exists h', r. unfold xml_parse. rewrite E. split; [exact E1|]. auto 6.
Qed.
