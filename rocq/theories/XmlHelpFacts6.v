(** Facts for XmlHelp.v: namespaces and elements of a parsed document. *)
From Verif Require Import SpecXmlHelp PyFacts ItoStrFacts UtilFacts HeapFacts HeapFacts2 HeapFacts3 HeapFacts4 HierHeap CombinFacts3 ArborFacts4 QueryFacts16 XmlFacts XmlFacts2 XmlFacts4 XmlFacts5 XmlFacts7 XmlFacts8 XmlHelpFacts XmlHelpFacts2 XmlHelpFacts3 XmlHelpFacts4 XmlHelpFacts5.

(** ** names *)
Lemma name_no_colon v : name_ok v -> ~ In 58 v.
Proof. intros [_ F] I. rewrite Forall_forall in F. apply (F 58 I). vm_compute. tauto. Qed.
Lemma xmlns_colon (v : pystr) : xmlns_text v = true -> In 58 v \/ v = lit "xmlns".
Proof.
  unfold xmlns_text. intros H. apply orb_prop in H. destruct H as [H|H]; [right; apply eqb_str_eq; exact H|left]. apply andb_prop in H. destruct H as [H _]. apply prefixb_spec in H. destruct H as [r ->]. apply in_or_app. left. vm_compute. tauto.
Qed.
Lemma decl_name x : xname_ok (a_name x) -> xmlns_text (name_src (a_name x)) = default_decl x || prefix_decl x.
Proof.
  intros [L P]. unfold default_decl, prefix_decl, name_src. destruct (x_prefix (a_name x)) as [p|].
  - cbn [orb]. destruct (eqb_str p (lit "xmlns")) eqn:Ep.
    + apply eqb_str_eq in Ep. subst p. unfold xmlns_text. apply orb_true_iff. right. apply andb_true_iff. split; [apply prefixb_spec; exists (x_local (a_name x)); rewrite app_assoc; reflexivity|].
      rewrite !zlen_app. change (zlen (lit "xmlns")) with 5. change (zlen (lit ":")) with 1. destruct L as [L _]. destruct (x_local (a_name x)) as [|c u]; [congruence|]. rewrite (zlen_cons c u). pose proof (zlen_nonneg u). lia.
    + destruct (xmlns_text (p ++ lit ":" ++ x_local (a_name x))) eqn:X; [|reflexivity]. exfalso. unfold xmlns_text in X. apply orb_prop in X. destruct X as [X|X].
      * apply eqb_str_eq in X. assert (I : In 58 (lit "xmlns")) by (rewrite <- X; apply in_or_app; right; left; reflexivity). vm_compute in I. intuition discriminate.
      * apply andb_prop in X. destruct X as [X _]. apply prefixb_spec in X. destruct X as [r X]. change (lit "xmlns:" ++ r) with (lit "xmlns" ++ 58 :: r) in X. change (lit ":" ++ x_local (a_name x)) with (58 :: x_local (a_name x)) in X.
        destruct (split_once 58 _ _ _ _ _ X eq_refl) as [E _]; [vm_compute; intuition discriminate|exact (name_no_colon p P)|]. rewrite <- E in Ep. vm_compute in Ep. discriminate.
  - rewrite orb_false_r. unfold xmlns_text. destruct (prefixb (lit "xmlns:") (x_local (a_name x))) eqn:X; [|apply orb_false_r]. exfalso. apply prefixb_spec in X. destruct X as [r X]. apply (name_no_colon _ L). rewrite X. apply in_or_app. left. vm_compute. tauto.
Qed.
Lemma looks_right x : xname_ok (a_name x) -> value_no_decl x -> looks_decl x = default_decl x || prefix_decl x.
Proof. intros N V. unfold looks_decl. rewrite (decl_name x N), V. apply orb_false_r. Qed.
(** ** the dict of declarations *)
Definition unprefixed (x : xatt) : bool := match x_prefix (a_name x) with Some _ => false | None => true end.
Lemma item_prefix h x kv : decl_item h x kv -> match fst (fst kv) with Some _ => false | None => true end = unprefixed x.
Proof. intros (P & _ & _). unfold unprefixed. rewrite <- P. destruct (fst (fst kv)); reflexivity. Qed.
Lemma item_default h ats l : Forall2 (decl_item h) ats l ->
  match find unprefixed ats with
  | Some x => exists k v, find (fun x => match fst (fst x) with Some _ => false | None => true end) l = Some (k, Some v) /\ ito_str (n_f (nd h v)) = a_value x
  | None => find (fun x => match fst (fst x) with Some _ => false | None => true end) l = None
  end.
Proof.
  induction 1 as [|x kv ats l I F IH]; [reflexivity|]. cbn [find]. rewrite (item_prefix h x kv I). destruct (unprefixed x); [|exact IH]. destruct kv as [k [v|]]; destruct I as (_ & _ & V); cbn in V; [|discriminate]. injection V as V. eauto.
Qed.
Lemma put_new k v d : ~ In k (map fst d) -> put k v d = d ++ [(k, v)].
Proof.
  induction d as [|[k' v'] d IH]; intros N; [reflexivity|]. cbn [put app]. destruct (eqb_str k k') eqn:X; [apply eqb_str_eq in X; subst k'; exfalso; apply N; left; reflexivity|]. rewrite IH; [reflexivity|]. intros I. apply N. right. exact I.
Qed.
Definition pair_of (x : xatt) : pystr * pystr := (x_local (a_name x), a_value x).
Lemma map_items h ats l : Forall2 (decl_item h) ats l -> forall d, NoDup (map fst d ++ map (fun x => x_local (a_name x)) (filter (fun x => negb (unprefixed x)) ats)) ->
  fold_left (fun d x => match fst (fst x) with Some _ => put (str_opt h (snd (fst x))) (str_opt h (snd x)) d | None => d end) l d = d ++ map pair_of (filter (fun x => negb (unprefixed x)) ats).
Proof.
  induction 1 as [|x kv ats l I F IH]; intros d N; [cbn; rewrite app_nil_r; reflexivity|]. cbn [fold_left filter] in *. pose proof (item_prefix h x kv I) as P. destruct (fst (fst kv)); rewrite <- P in *; cbn [negb] in *.
  - destruct I as (_ & K & V). assert (K' : str_opt h (snd (fst kv)) = x_local (a_name x)) by (destruct (snd (fst kv)); cbn in K; [injection K as <-; reflexivity|discriminate]).
    assert (V' : str_opt h (snd kv) = a_value x) by (destruct (snd kv); cbn in V; [injection V as <-; reflexivity|discriminate]). rewrite K', V'. cbn [map] in N. assert (N1 := NoDup_remove_2 _ _ _ N).
    rewrite put_new by (intros X; apply N1; apply in_or_app; left; exact X). rewrite IH; [cbn [map]; rewrite <- app_assoc; reflexivity|]. rewrite map_app. cbn [map fst]. rewrite <- app_assoc. exact N.
  - exact (IH d N).
Qed.
Lemma filter_both {A} (p q : A -> bool) l : filter q (filter p l) = filter (fun x => p x && q x) l.
Proof. induction l as [|x l IH]; [reflexivity|]. cbn [filter]. destruct (p x); cbn [filter andb]; rewrite IH; reflexivity. Qed.
Lemma filter_same {A} (p q : A -> bool) l : Forall (fun x => p x = q x) l -> filter p l = filter q l.
Proof. induction 1 as [|x l E F IH]; [reflexivity|]. cbn [filter]. rewrite E, IH. reflexivity. Qed.
Lemma find_filter_and {A} (p q : A -> bool) l : find q (filter p l) = find (fun x => p x && q x) l.
Proof. induction l as [|x l IH]; [reflexivity|]. cbn [filter find]. destruct (p x); cbn [find andb]; rewrite IH; reflexivity. Qed.
Lemma find_same {A} (p q : A -> bool) l : Forall (fun x => p x = q x) l -> find p l = find q l.
Proof. induction 1 as [|x l E F IH]; [reflexivity|]. cbn [find]. rewrite E, IH. reflexivity. Qed.
(** ** an element and the elements around it *)
Lemma above_kid h j q l : hwf h -> n_par (nd h j) = Some q -> is_element h q -> elems_above h q l -> elems_above h j (q :: l).
Proof.
  intros H P Q [L1 L2]. split.
  - intros k. cbn [In]. split.
    + intros [<-|I]; [split; [apply anc_parent; exact P|exact Q]|]. apply L1 in I. destruct I as [A B]. split; [exact (anc_up h k j q P A)|exact B].
    + intros [A B]. inversion A as [? P' E|? p P' A' E]; subst; rewrite P in P'; injection P' as <-; [left; reflexivity|right; apply L1; auto].
  - constructor; [exact L2|]. apply Forall_forall. intros k I. apply L1 in I. apply I.
Qed.
Lemma above_none h j : n_par (nd h j) = None -> elems_above h j [].
Proof. intros P. split; [|constructor]. intros k. split; [intros []|]. intros [A _]. inversion A; congruence. Qed.
Section Doc.
  Variables (isspace : Z -> bool) (ie : bool) (s : pystr) (h : heap).
  Let DT := doc_tree isspace ie s.
  Definition doc_node (e : xdoc) (j : nat) : Prop := (exists a, sits s a (doc_src e) /\ rep h (DT e a) j) /\ (j < length h)%nat.
  Lemma node_element e j : doc_node e j -> is_element h j.
  Proof. intros ((a & _ & R) & _). unfold is_element. rewrite (rep_f _ _ _ R). unfold DT. destruct (doc_shape isspace ie s e a) as (_ & _ & _ & ->). reflexivity. Qed.
  Definition kid_pos (n : xname) (ats : list xatt) (sp : pystr) (txt : list xpiece) (l : list (xdoc * list xpiece)) (p : Z) : Z :=
    p + zlen (open_src n ats sp (lit ">")) + zlen (text_src txt) + zlen (flat_map kid_src l).
  Lemma kids_tree_in : forall l k r p, In (DT (fst k) (p + zlen (flat_map kid_src l))) (kids_trees isspace ie s p (l ++ k :: r)).
  Proof.
    induction l as [|x l IH]; intros k r p; cbn [app kids_trees flat_map].
    - left. change (zlen []) with 0. rewrite Z.add_0_r. reflexivity.
    - right. apply in_or_app. right. rewrite zlen_app, kid_len, !Z.add_assoc. apply IH.
  Qed.
  Lemma kids_tree_inv : forall l t p, In t (kids_trees isspace ie s p l) -> (exists l1 k l2, l = l1 ++ k :: l2 /\ t = DT (fst k) (p + zlen (flat_map kid_src l1))) \/ exists tx q, In t (text_trees isspace ie s tx q).
  Proof.
    induction l as [|x l IH]; intros t p I; [destruct I|]. cbn [kids_trees] in I. destruct I as [<-|I].
    - left. exists [], x, l. split; [reflexivity|]. cbn [flat_map]. change (zlen []) with 0. rewrite Z.add_0_r. reflexivity.
    - apply in_app_or in I. destruct I as [I|I]; [right; eauto|]. destruct (IH t _ I) as [(l1 & k & l2 & -> & ->)|X]; [|right; exact X]. left. exists (x :: l1), k, l2. split; [reflexivity|]. cbn [flat_map]. rewrite zlen_app, kid_len, !Z.add_assoc. reflexivity.
  Qed.
  Lemma kid_sits n ats sp txt l k r sp' p : sits s p (doc_src (XElem n ats sp txt (l ++ k :: r) sp')) -> sits s (kid_pos n ats sp txt l p) (doc_src (fst k)).
  Proof.
    rewrite doc_src_eq. intros S. apply sits_app in S. destruct S as [_ S]. apply sits_app in S. destruct S as [_ S]. apply sits_app in S. destruct S as [S _]. rewrite flat_map_app in S. apply sits_app in S. destruct S as [_ S]. cbn [flat_map] in S. apply sits_app in S. destruct S as [S _]. unfold kid_src in S at 2. apply sits_app in S. apply S.
  Qed.
  Hypothesis (H : hwf h).
  Definition chain (e : xdoc) (p : Z) (up : list xdoc) (j : nat) (js : list nat) : Prop :=
    sits s p (doc_src e) /\ rep h (DT e p) j /\ (j < length h)%nat /\ elems_above h j js /\ n_par (nd h j) = hd_error js /\ Forall2 doc_node up js.
  Lemma chain_kid n ats sp txt l k r sp' p up j js c : chain (XElem n ats sp txt (l ++ k :: r) sp') p up j js -> In c (n_kids (nd h j)) -> rep h (DT (fst k) (kid_pos n ats sp txt l p)) c ->
    chain (fst k) (kid_pos n ats sp txt l p) (XElem n ats sp txt (l ++ k :: r) sp' :: up) c (j :: js).
  Proof.
    intros (S & R & B & A & P & F) I Rc. destruct (hwf_kid h H j c I) as (Pc & _ & _ & Bc). set (e := XElem n ats sp txt (l ++ k :: r) sp') in *. assert (N : doc_node e j) by (split; [exists p; auto|exact B]).
    split; [exact (kid_sits _ _ _ _ _ _ _ _ _ S)|]. split; [exact Rc|]. split; [exact Bc|]. split; [exact (above_kid h c j js H Pc (node_element e j N) A)|]. split; [exact Pc|]. constructor; [exact N|exact F].
  Qed.
  Lemma elem_chain_of d a root : sits s a (doc_src d) -> rep h (DT d a) root -> (root < length h)%nat -> n_par (nd h root) = None ->
    forall up e p, elem_in d a up e p -> exists j js, chain e p up j js.
  Proof.
    intros S R B P up e p Pl. induction Pl as [|up n ats sp txt l k r sp' p Pl (j & js & C)].
    - exists root, []. split; [exact S|]. split; [exact R|]. split; [exact B|]. split; [exact (above_none h root P)|]. split; [exact P|constructor].
    - pose proof C as (_ & Rj & _ & _ & _ & _). pose proof (rep_kids h _ j Rj) as K. unfold DT in K. rewrite doc_tree_eq in K. cbv zeta in K. cbn [at_ t_kids] in K.
      pose proof (kids_tree_in l k r (p + zlen (open_src n ats sp (lit ">")) + zlen (text_src txt))) as I.
      assert (I' : exists c, In c (n_kids (nd h j)) /\ rep h (DT (fst k) (kid_pos n ats sp txt l p)) c).
      { destruct (Forall2_in_l _ _ _ (DT (fst k) (kid_pos n ats sp txt l p)) K) as (c & Ic & Rc); [|eauto]. right. apply in_or_app. right. apply in_or_app. left. exact I. }
      destruct I' as (c & Ic & Rc). exists c, (j :: js). exact (chain_kid _ _ _ _ _ _ _ _ _ _ _ _ _ C Ic Rc).
  Qed.
  (** a tree without elements *)
  Definition no_elem (t : tree) : Prop := filter (t_has d_element) (t_all t) = [].
  Lemma no_elem_kid t k : no_elem t -> In k (t_kids t) -> no_elem k.
  Proof.
    unfold no_elem. rewrite t_all_eq. cbn [filter]. destruct (t_has d_element t); [discriminate|]. unfold t_subs. intros N I. apply no_desc. intros u Iu.
    destruct (t_has d_element u) eqn:X; [|reflexivity]. exfalso. assert (Y : In u (filter (t_has d_element) (flat_map t_all (t_kids t)))) by (apply filter_In; split; [apply in_flat_map; eauto|exact X]). rewrite N in Y. destruct Y.
  Qed.
  Lemma no_elem_node f ts : t_has d_element (T f ts) = false -> Forall no_elem ts -> no_elem (T f ts).
  Proof.
    unfold no_elem at 2. intros E F. rewrite t_all_eq. cbn [filter]. rewrite E. unfold t_subs. cbn [t_kids]. induction F as [|t ts N F IH]; [reflexivity|]. cbn [flat_map]. rewrite filter_app, N. apply IH. unfold t_has in *. exact E.
  Qed.
  Lemma name_no_elem n a : no_elem (name_tree s n a).
  Proof. unfold name_tree. destruct (x_prefix n); reflexivity. Qed.
  Lemma att_no_elem x a : no_elem (att_tree s x a).
  Proof. apply no_elem_node; [reflexivity|]. constructor; [apply name_no_elem|]. constructor; [reflexivity|constructor]. Qed.
  Lemma atts_no_elem : forall l a, Forall no_elem (att_trees s l a).
  Proof. induction l as [|x l IH]; intros a; cbn [att_trees]; constructor; [apply att_no_elem|apply IH]. Qed.
  Lemma open_no_elem n ats sp fin a : no_elem (open_tree s n ats sp fin a).
  Proof. apply no_elem_node; [reflexivity|]. constructor; [apply name_no_elem|]. destruct ats as [|x ats]; [constructor|]. constructor; [|constructor]. apply no_elem_node; [reflexivity|apply atts_no_elem]. Qed.
  Lemma close_no_elem n sp a : no_elem (close_tree s n sp a).
  Proof. apply no_elem_node; [reflexivity|]. constructor; [apply name_no_elem|constructor]. Qed.
  Lemma pieces_no_elem : forall l a, Forall no_elem (pieces_trees s l a).
  Proof. induction l as [|x l IH]; intros a; cbn [pieces_trees]; [constructor|]. apply Forall_app. split; [|apply IH]. destruct x; cbn [piece_trees]; constructor; try constructor; reflexivity. Qed.
  Lemma text_no_elem tx q t : In t (text_trees isspace ie s tx q) -> no_elem t.
  Proof. unfold text_trees. destruct (match text_src tx with [] => true | _ => _ end); [intros []|]. intros [<-|[]]. apply no_elem_node; [reflexivity|apply pieces_no_elem]. Qed.
  Lemma doc_kid_inv e p t : In t (t_kids (DT e p)) -> no_elem t \/
    exists n ats sp txt l k r sp', e = XElem n ats sp txt (l ++ k :: r) sp' /\ t = DT (fst k) (kid_pos n ats sp txt l p).
  Proof.
    destruct e as [n ats sp txt kids sp'|n ats sp].
    - unfold DT at 1. rewrite doc_tree_eq. cbv zeta. cbn [at_ t_kids]. intros [<-|I]; [left; apply open_no_elem|]. apply in_app_or in I. destruct I as [I|I]; [left; exact (text_no_elem _ _ _ I)|]. apply in_app_or in I. destruct I as [I|[<-|[]]]; [|left; apply close_no_elem].
      destruct (kids_tree_inv _ _ _ I) as [(l1 & k & l2 & -> & ->)|(tx & q & X)]; [right|left; exact (text_no_elem _ _ _ X)]. exists n, ats, sp, txt, l1, k, l2, sp'. split; reflexivity.
    - intros [<-|[]]. left. apply open_no_elem.
  Qed.
  Lemma anc_chain d a root : sits s a (doc_src d) -> rep h (DT d a) root -> (root < length h)%nat -> n_par (nd h root) = None ->
    forall j, j = root \/ anc h root j -> (exists up e p js, elem_in d a up e p /\ chain e p up j js) \/ exists t, rep h t j /\ no_elem t.
  Proof.
    intros S R B P.
    assert (Root : chain d a [] root []) by (split; [exact S|]; split; [exact R|]; split; [exact B|]; split; [exact (above_none h root P)|]; split; [exact P|constructor]).
    assert (Step : forall j q, n_par (nd h j) = Some q -> ((exists up e p js, elem_in d a up e p /\ chain e p up q js) \/ exists t, rep h t q /\ no_elem t) -> (exists up e p js, elem_in d a up e p /\ chain e p up j js) \/ exists t, rep h t j /\ no_elem t).
    { intros j q Pj C. destruct (hwf_par h H q j Pj) as [I _]. destruct C as [(up & e & p & js & Pl & C)|(t & Rt & N)].
      - pose proof C as (_ & Rq & _). destruct (Forall2_in_r _ _ _ j (rep_kids h _ q Rq) I) as (t & It & Rt). destruct (doc_kid_inv e p t It) as [N|(n & ats & sp & txt & l & k & r & sp' & -> & ->)]; [right; eauto|]. left.
        exists (XElem n ats sp txt (l ++ k :: r) sp' :: up), (fst k), (kid_pos n ats sp txt l p), (q :: js). split; [exact (pl_kid d a up n ats sp txt l k r sp' p Pl)|]. exact (chain_kid _ _ _ _ _ _ _ _ _ _ _ _ _ C I Rt).
      - right. destruct (Forall2_in_r _ _ _ j (rep_kids h _ q Rt) I) as (u & Iu & Ru). exists u. split; [exact Ru|exact (no_elem_kid t u N Iu)]. }
    intros j [->|A].
    - left. exists [], d, a, []. split; [apply pl_root|exact Root].
    - induction A as [j Pj|j q Pj A IH]; apply (Step j _ Pj); [left; exists [], d, a, []; split; [apply pl_root|exact Root]|exact IH].
  Qed.
  Lemma element_chain d a root : sits s a (doc_src d) -> rep h (DT d a) root -> (root < length h)%nat -> n_par (nd h root) = None ->
    forall j, j = root \/ anc h root j -> is_element h j -> exists up e p js, elem_in d a up e p /\ chain e p up j js.
  Proof.
    intros S R B P j J Ej. destruct (anc_chain d a root S R B P j J) as [X|(t & Rt & N)]; [exact X|]. exfalso. unfold no_elem in N. rewrite t_all_eq in N. cbn [filter] in N.
    assert (X : t_has d_element t = true). { unfold is_element in Ej. unfold t_has. rewrite <- (rep_f _ _ _ Rt), Ej. reflexivity. } rewrite X in N. discriminate.
  Qed.
End Doc.
