(** Facts for Nlp.v: the document. *)
From Verif Require Import NlpDoc PyFacts HeapFacts4 ArborFacts3 ArborFacts4 NlpFacts NlpFacts2 NlpFacts3 NlpFacts5 NlpFacts6 NlpFacts7 NlpFacts8 NlpFacts9 NlpFacts10 NlpFacts11 NlpFacts12.

Lemma filter_flat {A B} (f : B -> bool) (g : A -> list B) l : filter f (flat_map g l) = flat_map (fun x => filter f (g x)) l.
Proof. induction l as [|x l IH]; [reflexivity|]. cbn. rewrite filter_app, IH. reflexivity. Qed.
Lemma flat_same {A B} (f g : A -> list B) l : (forall x, In x l -> f x = g x) -> flat_map f l = flat_map g l.
Proof. intros H. induction l as [|x l IH]; [reflexivity|]. cbn. rewrite (H x) by (left; reflexivity). rewrite IH; [reflexivity|]. intros y Hy. apply H. right. exact Hy. Qed.
Lemma flat_one {A} (l : list A) : flat_map (fun x => [x]) l = l. Proof. induction l; [reflexivity|]. cbn. f_equal. exact IHl. Qed.
Lemma flat_none {A B} (f : A -> list B) l : (forall x, In x l -> f x = []) -> flat_map f l = [].
Proof. intros H. induction l as [|x l IH]; [reflexivity|]. cbn. rewrite (H x) by (left; reflexivity). apply IH. intros y Hy. apply H. right. exact Hy. Qed.
(** the nodes with a property, when the root has it not *)
Lemma nodes_below (f : tree -> bool) t : f t = false -> filter f (all_nodes t) = flat_map (fun k => filter f (all_nodes k)) (t_kids t).
Proof. destruct t as [x ks]. intros E. cbn [all_nodes filter t_kids]. rewrite E. apply filter_flat. Qed.
Lemma nodes_here (f : tree -> bool) t : f t = true -> filter f (all_nodes t) = t :: flat_map (fun k => filter f (all_nodes k)) (t_kids t).
Proof. destruct t as [x ks]. intros E. cbn [all_nodes filter t_kids]. rewrite E. f_equal. apply filter_flat. Qed.
(** a number's parts are no tokens, sentences, paragraphs *)
Definition part_free (f : tree -> bool) : Prop := forall s a b d ks, In d [sign_desc; integer_desc; decimal_desc; exponent_desc] -> f (at_ s a b d ks) = false.
Lemma num_below f s a n : part_free f -> flat_map (fun k => filter f (all_nodes k)) (t_kids (num_tree s a n)) = [].
Proof.
  intros P. unfold num_tree. cbv zeta. cbn [t_kids at_]. unfold part_at.
  assert (L : forall d a b, In d [sign_desc; integer_desc; decimal_desc; exponent_desc] -> flat_map (fun k => filter f (all_nodes k)) (if a <? b then [at_ s a b d []] else []) = []).
  { intros d x y H. destruct (x <? y); [|reflexivity]. cbn. fold (at_ s x y d []). rewrite (P s x y d [] H). reflexivity. }
  rewrite !flat_map_app, !L by (cbn; tauto). cbn [app]. destruct (_ <? _); [|reflexivity]. cbn [flat_map]. rewrite app_nil_r. rewrite nodes_below by (apply P; cbn; tauto). cbn [t_kids at_]. apply L. cbn. tauto.
Qed.
Lemma desc_at s a b d d' ks : desc_is d (at_ s a b d' ks) = eqb_str d' d. Proof. reflexivity. Qed.
Ltac free := intros s0 a0 b0 d0 ks0 H0; repeat (destruct H0 as [<-|H0]; [reflexivity|]); destruct H0.
Definition is_token (u : tree) : bool := desc_is word_desc u || desc_is number_desc u.

Section Doc.
  Variables (C : classes) (point sep : pystr) (optional : bool) (s : pystr).
  Notation numrx := (number_rx C point sep optional).
  Notation is_num := (is_number C point sep optional s).
  Notation is_sent := (is_sentence C point sep optional s).
  Notation is_para := (is_paragraph C point sep optional s).
  Notation is_doc := (is_document C point sep optional s).
  Definition no_chars : false = false \/ (forall a b, 0 <= a -> b <= zlen s -> found_spans numrx s a b = []) := or_introl eq_refl.
  Definition cutin := cut_in C point sep optional s false no_chars.
  (** what can be among the children of a sentence *)
  Definition is_tok (u : tree) : Prop := (exists x y, u = at_ s x y word_desc []) \/ (exists a n, numeral_ok C point sep optional n /\ u = num_tree s a n).
  Lemma tokens_tok : forall sp nums a b, Forall2 is_num sp nums -> Forall is_tok (tokens C s a nums b).
  Proof.
    assert (W : forall a b, Forall is_tok (words C s a b)) by (intros a b; unfold words; apply Forall_forall; intros u Hu; apply in_map_iff in Hu; destruct Hu as (x & <- & _); left; eauto).
    intros sp nums a b F. revert a. induction F as [|x t sp nums (n & On & _ & ->) F IH]; intros a; cbn [tokens]; [apply W|]. apply Forall_app. split; [apply W|]. constructor; [right; exists (fst x), n; auto|apply IH].
  Qed.
  Lemma tok_nodes f u : is_tok u -> part_free f -> filter f (all_nodes u) = if f u then [u] else [].
  Proof.
    intros [(x & y & ->)|(a & n & _ & ->)] P.
    - cbn. fold (at_ s x y word_desc []). destruct (f _); reflexivity.
    - destruct (f (num_tree s a n)) eqn:E; [rewrite nodes_here by exact E|rewrite nodes_below by exact E]; rewrite (num_below f s a n P); reflexivity.
  Qed.
  Lemma tok_desc u : is_tok u -> is_token u = true /\ desc_is sentence_desc u = false /\ desc_is paragraph_desc u = false /\ desc_is document_desc u = false.
  Proof. intros [(x & y & ->)|(a & n & _ & ->)]; auto. Qed.
  (** the shape of a document *)
  Definition sent_ok (q : tree) : Prop := exists x, is_sent x q.
  Definition para_ok (p : tree) : Prop := exists x, is_para x p.
  Lemma sent_kids q : sent_ok q -> Forall is_tok (t_kids q) /\ desc_is sentence_desc q = true.
  Proof. intros (x & nums & F & ->). split; [exact (tokens_tok _ nums _ _ F)|reflexivity]. Qed.
  Lemma F2_right {A B} (R : A -> B -> Prop) l l' : Forall2 R l l' -> Forall (fun y => exists x, R x y) l'.
  Proof. intros F. induction F; constructor; eauto. Qed.
  Lemma para_kids p : para_ok p -> Forall sent_ok (t_kids p) /\ desc_is paragraph_desc p = true.
  Proof. intros (x & ss & F & ->). split; [exact (F2_right _ _ _ F)|reflexivity]. Qed.
  Lemma doc_kids t : is_doc t -> Forall para_ok (t_kids t) /\ desc_is document_desc t = true.
  Proof. intros (ps & F & ->). split; [exact (F2_right _ _ _ F)|reflexivity]. Qed.
  Definition desc_other (f : tree -> bool) (d : pystr) : Prop := forall a b ks, f (at_ s a b d ks) = false.
  Lemma sent_nodes f q : sent_ok q -> part_free f -> desc_other f sentence_desc -> filter f (all_nodes q) = filter f (t_kids q).
  Proof.
    intros Hq P N. destruct (sent_kids q Hq) as [K _]. rewrite nodes_below by (destruct Hq as (x & nums & _ & ->); apply N). induction K as [|u l Hu K IH]; [reflexivity|]. cbn [flat_map filter]. rewrite IH, (tok_nodes f u Hu P). destruct (f u); reflexivity.
  Qed.
  Lemma para_nodes f p : para_ok p -> part_free f -> desc_other f sentence_desc -> desc_other f paragraph_desc -> filter f (all_nodes p) = flat_map (fun q => filter f (t_kids q)) (t_kids p).
  Proof.
    intros Hp P N N'. destruct (para_kids p Hp) as [K _]. rewrite nodes_below by (destruct Hp as (x & nums & _ & ->); apply N'). apply flat_same. intros q Hq. rewrite Forall_forall in K. apply sent_nodes; auto.
  Qed.
  Lemma doc_nodes f t : is_doc t -> part_free f -> desc_other f sentence_desc -> desc_other f paragraph_desc -> desc_other f document_desc ->
    filter f (all_nodes t) = flat_map (fun p => flat_map (fun q => filter f (t_kids q)) (t_kids p)) (t_kids t).
  Proof.
    intros Ht P N N' N''. destruct (doc_kids t Ht) as [K _]. rewrite nodes_below by (destruct Ht as (ps & _ & ->); apply N''). apply flat_same. intros p Hp. rewrite Forall_forall in K. apply para_nodes; auto.
  Qed.
  Lemma all_true {A} (f : A -> bool) l : Forall (fun x => f x = true) l -> filter f l = l.
  Proof. intros F. induction F as [|x l E F IH]; [reflexivity|]. cbn. rewrite E, IH. reflexivity. Qed.
  Lemma all_false {A} (f : A -> bool) l : Forall (fun x => f x = false) l -> filter f l = [].
  Proof. intros F. induction F as [|x l E F IH]; [reflexivity|]. cbn. rewrite E. exact IH. Qed.
  Theorem doc_tokens t : is_doc t -> all_tokens t = flat_map t_kids (flat_map t_kids (t_kids t)).
  Proof.
    intros Ht. unfold all_tokens. fold is_token. rewrite (doc_nodes is_token t Ht) by (free || (intros a b ks; reflexivity)). destruct (doc_kids t Ht) as [K _].
    induction K as [|p ps Hp K IH]; [reflexivity|]. cbn [flat_map]. rewrite flat_map_app, IH. f_equal. apply flat_same. intros q Hq. destruct (para_kids p Hp) as [Kp _]. rewrite Forall_forall in Kp. destruct (sent_kids q (Kp q Hq)) as [Kq _]. apply all_true. eapply Forall_impl; [|exact Kq]. intros u Hu. apply tok_desc. exact Hu.
  Qed.
  Theorem doc_paragraphs t : is_doc t -> paragraphs t = t_kids t.
  Proof.
    intros Ht. unfold paragraphs, with_desc. rewrite nodes_below by (destruct Ht as (ps & _ & ->); reflexivity). destruct (doc_kids t Ht) as [K _]. rewrite <- (flat_one (t_kids t)) at 2. apply flat_same. intros p Hp. rewrite Forall_forall in K. specialize (K p Hp). destruct (para_kids p K) as [Kp Dp].
    rewrite nodes_here by exact Dp. f_equal. apply flat_none. intros q Hq. rewrite Forall_forall in Kp. specialize (Kp q Hq). rewrite sent_nodes; [|exact Kp|free|intros a b ks; reflexivity]. apply all_false. eapply Forall_impl; [|exact (proj1 (sent_kids q Kp))]. intros u Hu. apply tok_desc. exact Hu.
  Qed.
  Theorem doc_sentences t : is_doc t -> sentences t = flat_map t_kids (t_kids t).
  Proof.
    intros Ht. unfold sentences, with_desc. rewrite nodes_below by (destruct Ht as (ps & _ & ->); reflexivity). destruct (doc_kids t Ht) as [K _]. apply flat_same. intros p Hp. rewrite Forall_forall in K. specialize (K p Hp). destruct (para_kids p K) as [Kp Dp].
    rewrite nodes_below by (destruct K as (x & ss & _ & ->); reflexivity). rewrite <- (flat_one (t_kids p)) at 2. apply flat_same. intros q Hq. rewrite Forall_forall in Kp. specialize (Kp q Hq). destruct (sent_kids q Kp) as [Kq Dq]. rewrite nodes_here by exact Dq. f_equal. apply flat_none. intros u Hu. rewrite Forall_forall in Kq. rewrite (tok_nodes _ u (Kq u Hu)) by free.
    destruct (tok_desc u (Kq u Hu)) as (_ & -> & _). reflexivity.
  Qed.
  (** positions *)
  Lemma sent_span x q : is_sent x q -> t_start q = fst x /\ t_stop q = snd x /\ t_string q = s. Proof. intros (nums & _ & ->). auto. Qed.
  Lemma para_span x p : is_para x p -> t_start p = fst x /\ t_stop p = snd x /\ t_string p = s. Proof. intros (ss & _ & ->). auto. Qed.
  Lemma leftover_cover sp a b k : a <= k < b -> (exists x, In x sp /\ fst x <= k < snd x) \/ (exists x, In x (leftover a b sp) /\ fst x <= k < snd x).
  Proof.
    intros Hk. rewrite leftover_wide by lia. revert a Hk. induction sp as [|[x y] sp IH]; intros a Hk; cbn [gaps filter].
    - right. exists (a, b). unfold wide. cbn [fst snd]. destruct (Z.ltb_spec a b); [|lia]. split; [left; reflexivity|cbn; lia].
    - destruct (Z.lt_ge_cases k x) as [L|L].
      + right. exists (a, x). split; [|cbn; lia]. unfold wide at 1. cbn [fst snd]. destruct (Z.ltb_spec a x); [|lia]. left. reflexivity.
      + destruct (Z.lt_ge_cases k y) as [L'|L']; [left; exists (x, y); split; [left; reflexivity|cbn; lia]|]. destruct (IH y ltac:(lia)) as [(z & Hz & Q)|(z & Hz & Q)]; [left; exists z; split; [right; exact Hz|exact Q]|]. right. exists z. split; [|exact Q]. destruct (wide (a, x)); [right|]; exact Hz.
  Qed.
  Lemma leftover_ordered sp a b : ordered a sp b -> ordered a (leftover a b sp) b.
  Proof.
    intros O. unfold leftover. destruct sp as [|y sp]; [cbn in *; lia|]. revert O. generalize (y :: sp) as l. clear. intros l. revert a. induction l as [|[u v] l IH]; intros a O; cbn [gaps filter]; cbn in O.
    - unfold wide. cbn [fst snd]. destruct (Z.ltb_spec a b); cbn; lia.
    - destruct O as (O1 & O2 & O3). specialize (IH v O3). unfold wide at 1. cbn [fst snd]. destruct (Z.ltb_spec a u).
      + cbn. split; [lia|]. split; [lia|]. clear - IH O2. destruct (filter wide (gaps v l b)) as [|[p q] r]; cbn in *; [lia|]. destruct IH as (I1 & I2 & I3). split; [lia|]. split; [lia|exact I3].
      + clear - IH O1 O2. destruct (filter wide (gaps v l b)) as [|[p q] r]; cbn in *; [lia|]. destruct IH as (I1 & I2 & I3). split; [lia|]. split; [lia|exact I3].
  Qed.
  Lemma para_in t p : is_doc t -> In p (t_kids t) -> exists x, is_para x p /\ 0 <= fst x <= snd x /\ snd x <= zlen s.
  Proof.
    intros (ps & F & ->) Hp. cbn [t_kids at_] in Hp. destruct (Forall2_in_r _ _ _ p F Hp) as (x & Hx & Q). exists x. split; [exact Q|]. pose proof (zlen_nonneg s). exact (cutin _ 0 (zlen s) x (found_ordered _ s 0 (zlen s) ltac:(lia)) Hx).
  Qed.
  Lemma sent_in p q x : is_para x p -> 0 <= fst x <= snd x -> snd x <= zlen s -> In q (t_kids p) -> exists y, is_sent y q /\ fst x <= fst y <= snd y /\ snd y <= snd x.
  Proof.
    intros (ss & F & ->) Hx Hx' Hq. cbn [t_kids at_] in Hq. destruct (Forall2_in_r _ _ _ q F Hq) as (y & Hy & Q). exists y. split; [exact Q|]. exact (cutin _ _ _ y (found_ordered _ s (fst x) (snd x) ltac:(lia)) Hy).
  Qed.
  (** every position is in a sentence or holds white space *)
  Lemma text_char k i j c : 0 <= i <= k -> k < j -> j <= zlen s -> zget s k = Some c -> In c (zsub s i j).
  Proof.
    intros Hi Hj Hl Hc. rewrite <- (zsub_app_split s i k j) by lia. apply in_or_app. right. rewrite (zsub_step s k j c) by (try lia; exact Hc). left. reflexivity.
  Qed.
  Lemma match_blank r a b k c : b <= zlen s -> 0 <= a -> (forall i j, 0 <= i <= b -> hits s b r i j -> Forall (fun x => In x blanks) (zsub s i j)) -> (exists x, In x (found_spans r s a b) /\ fst x <= k < snd x) -> zget s k = Some c -> In c blanks.
  Proof.
    intros Hb Ha H (x & Hx & Hk) Hc. unfold found_spans in Hx. apply in_map_iff in Hx. destruct Hx as (m & <- & Hm). destruct (found_way _ _ _ _ _ Hm) as (B1 & B2 & W). specialize (H (fst (fst m)) (snd (fst m)) ltac:(lia) ltac:(exists (snd m); exact W)). rewrite Forall_forall in H. apply H. apply (text_char k); [lia|lia|lia|exact Hc].
  Qed.
  Lemma space_blank u : space u -> Forall (fun c => In c blanks) u.
  Proof.
    unfold space. change space_texts with sen_ws. unfold sen_ws. intros H. apply in_app_or in H. destruct H as [[<-|[<-|[]]]|H].
    - repeat constructor; vm_compute; tauto.
    - repeat constructor; vm_compute; tauto.
    - apply in_map_iff in H. destruct H as (c & <- & Hc). constructor; [|constructor]. apply in_or_app. left. exact Hc.
  Qed.
  Lemma concat_blank us : Forall (fun u => Forall (fun c => In c blanks) u) us -> Forall (fun c => In c blanks) (concat us).
  Proof. intros F. induction F as [|u us H F IH]; [constructor|]. cbn. apply Forall_app. auto. Qed.
  Lemma sentence_blank b i j : b <= zlen s -> 0 <= i <= b -> hits s b (sentence_rx C) i j -> Forall (fun x => In x blanks) (zsub s i j).
  Proof.
    intros Hb Hi H. apply (sentence_hits C s b Hb i j Hi) in H. destruct H as (_ & r & Hr & H). destruct (rules_spaces C s b Hb r i j Hi Hr H) as (us & F & (_ & _ & W) & -> & _). rewrite W. apply concat_blank. eapply Forall_impl; [|exact F]. exact space_blank.
  Qed.
  Lemma line_blank u : empty_line u -> Forall (fun c => In c blanks) u.
  Proof. intros (w & c & -> & F & Hc). apply Forall_app. split; [eapply Forall_impl; [|exact F]; cbn beta; intros x Hx; apply in_or_app; left; exact Hx|constructor; [apply in_or_app; right; exact Hc|constructor]]. Qed.
  Lemma para_blank i j : 0 <= i <= zlen s -> hits s (zlen s) (para_rx 2) i j -> Forall (fun x => In x blanks) (zsub s i j).
  Proof.
    intros Hi H. apply (plain_para s 2 i j Hi) in H. destruct H as (u & (ls & _ & -> & F) & (_ & _ & W) & ->). rewrite W. apply concat_blank. eapply Forall_impl; [|exact F]. exact line_blank.
  Qed.
  Theorem in_sentence t k c : is_doc t -> zget s k = Some c -> ~ In c blanks -> exists q, In q (sentences t) /\ takes_in q k.
  Proof.
    intros Ht Hc Nb. assert (Hk : 0 <= k < zlen s) by (apply zget_bounds in Hc; exact Hc). rewrite (doc_sentences t Ht). destruct Ht as (ps & F & ->).
    destruct (leftover_cover (found_spans (para_rx 2) s 0 (zlen s)) 0 (zlen s) k Hk) as [Q|(x & Hx & Q)]; [exfalso; apply Nb; apply (match_blank (para_rx 2) 0 (zlen s) k c); [lia|lia|exact para_blank|exact Q|exact Hc]|].
    destruct (cutin _ 0 (zlen s) x (found_ordered _ s 0 (zlen s) ltac:(lia)) Hx) as [B1 B2]. destruct (Forall2_in_l _ _ _ x F Hx) as (p & Hp & (ss & Fs & ->)).
    destruct (leftover_cover (found_spans (sentence_rx C) s (fst x) (snd x)) (fst x) (snd x) k Q) as [Q'|(y & Hy & Q')]; [exfalso; apply Nb; apply (match_blank (sentence_rx C) (fst x) (snd x) k c); [lia|lia|intros i j Hi; apply sentence_blank; lia|exact Q'|exact Hc]|].
    destruct (Forall2_in_l _ _ _ y Fs Hy) as (q & Hq & Hs). destruct (sent_span y q Hs) as (S1 & S2 & _). exists q. split; [|unfold takes_in; lia]. cbn [t_kids at_]. apply in_flat_map. eexists. split; [exact Hp|exact Hq].
  Qed.
End Doc.
