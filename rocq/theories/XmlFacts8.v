(** Facts for Xml.v: text, elements, the document. *)
From Verif Require Import SpecXml PyFacts ItoStrFacts FormatFacts HeapFacts HeapFacts2 HeapFacts3 HeapFacts4 CombinFacts CombinFacts2 CombinFacts3 CombinFacts4 ArborFacts3 ArborFacts4 XmlFacts XmlFacts2 XmlFacts3 XmlFacts4 XmlFacts5 XmlFacts6 XmlFacts7.

Lemma pieces_in s : forall l p t, In t (pieces_trees s l p) -> t_string t = s /\ p <= t_start t < t_stop t /\ t_stop t <= p + zlen (text_src l).
Proof.
  unfold text_src. induction l as [|x l IH]; intros p t I; [destruct I|]. cbn [pieces_trees flat_map] in *. rewrite zlen_app. pose proof (zlen_nonneg (flat_map piece_src l)). pose proof (piece_len x) as Lx. pose proof (zlen_nonneg (piece_src x)). apply in_app_or in I. destruct I as [I|I].
  - destruct x as [v|v|v]; cbn [piece_trees] in I; [destruct I| |]; pose proof (zlen_nonneg v); (destruct I as [<-|[]]; unfold at_, t_string, t_start, t_stop; cbn [t_f f_str f_start f_stop]; split; [reflexivity|lia]).
  - destruct (IH _ _ I) as (Q1 & Q2 & Q3). split; [exact Q1|]. lia.
Qed.
Lemma pieces_sorted s : forall l p, StronglySorted t_before (pieces_trees s l p).
Proof.
  induction l as [|x l IH]; intros p; [constructor|]. cbn [pieces_trees]. apply SS_app; [|apply IH|].
  - destruct x; cbn [piece_trees]; repeat constructor.
  - intros u v Iu Iv. destruct (pieces_in s _ _ _ Iv) as (_ & Q & _). pose proof (piece_len x) as Lx.
    destruct x as [w|w|w]; cbn [piece_trees] in Iu; [destruct Iu| |]; pose proof (zlen_nonneg w); (destruct Iu as [<-|[]]; unfold t_before, at_, t_start, t_stop in *; cbn [t_f f_start f_stop]; lia).
Qed.
Section Doc.
  Variables (isspace : Z -> bool) (ie : bool) (s : pystr).
  Let FT := find_text parser_itors isspace ie s.
  Let AT := add_text parser_itors isspace ie s.
  Let TT := text_trees isspace ie s.
  Lemma text_in t a k : In k (TT t a) -> t_string k = s /\ t_start k = a /\ t_stop k = a + zlen (text_src t) /\ 0 < zlen (text_src t).
  Proof.
    unfold TT, text_trees. destruct (text_src t) as [|x u] eqn:E; [intros []|]. rewrite <- E. destruct (ie && forallb isspace (text_src t)); [intros []|]. intros [<-|[]]. cbn. rewrite E, zlen_cons. pose proof (zlen_nonneg u). split; [reflexivity|]. split; [reflexivity|]. split; [reflexivity|lia].
  Qed.
  Lemma find_text_made t a h : Forall piece_ok t -> sits s a (text_src t) -> fine h ->
    exists h' o, FT h a (a + zlen (text_src t)) = (h', Ok o) /\ extends h h' /\ fine h' /\
      ((TT t a = [] /\ o = None) \/ exists k r, TT t a = [k] /\ o = Some r /\ own h' k r /\ (length h <= r)%nat).
  Proof.
    intros Hp Hs Hf. pose proof Hs as (Ha & Hb & Ez). pose proof (zlen_nonneg (text_src t)) as Lt. unfold FT, find_text. set (b := a + zlen (text_src t)) in *.
    destruct (new_str_own h s a b d_text Hf ltac:(lia) ltac:(lia)) as (h1 & E1 & F1 & X1 & O1). rewrite E1. unfold obind at 1. cbn [fst snd]. set (r := length h) in *.
    assert (Ef : n_f (nd h1 r) = FI s a b (Some d_text) None) by (destruct O1 as (R & _); rewrite (rep_f _ _ _ R); reflexivity). rewrite Ef.
    assert (W : fwf (FI s a b (Some d_text) None)) by (split; cbn; lia).
    rewrite str_is_class_eq by exact W. rewrite ito_str_zsub by exact W. cbn [f_str f_start f_stop]. rewrite Ez.
    assert (EL : ito_len (FI s a b (Some d_text) None) = zlen (text_src t)) by (unfold ito_len; cbn [f_start f_stop]; lia). rewrite EL.
    assert (Q : (0 <? zlen (text_src t)) && negb (ie && py_all_class isspace (text_src t)) = negb (match text_src t with [] => true | _ => ie && forallb isspace (text_src t) end)).
    { destruct (text_src t) as [|x u] eqn:E; [reflexivity|]. assert (L : 0 <? zlen (x :: u) = true) by (apply Z.ltb_lt; rewrite zlen_cons; pose proof (zlen_nonneg u); lia). rewrite L. reflexivity. }
    rewrite Q. unfold TT, text_trees. destruct (match text_src t with [] => true | _ => ie && forallb isspace (text_src t) end) eqn:G; cbn [negb].
    - exists h1, None. split; [reflexivity|]. split; [exact X1|]. split; [exact F1|]. left. auto.
    - assert (Lr : (r < length h1)%nat) by (destruct O1 as (_ & _ & ?); assumption). destruct (own_span _ _ _ _ _ _ _ O1) as (S1 & S2 & S3).
      destruct (extract_own re_misc rx_misc h1 r s a b (pieces_matches t a) (pieces_trees s t a) F1 Lr S1 S2 S3) as (h2 & l & E2 & X2 & F2 & O2 & G2 & N2).
      { rewrite Ez. apply finds_misc. exact Hp. } { apply pieces_give; lia. }
      change (x_misc parser_itors h1 r) with (extract re_misc rx_misc h1 r). rewrite E2. unfold obind at 1. cbn [fst snd].
      pose proof (own_ext _ _ _ _ F1 X2 O1) as O1'. unfold at_ at 1 in O1'.
      destruct (own_add_all r _ l (pieces_trees s t a) h2 [] F2 O1' O2) as (h3 & E3 & F3 & L3 & O3 & K3 & D3).
      { apply (fresh_not_in l (length h1)); assumption. } { exact N2. }
      { apply Forall_forall. intros k I. destruct (pieces_in s _ _ _ I) as (Q1 & Q2 & Q3). unfold t_fits. rewrite Q1. unfold t_string, t_start, t_stop in *. cbn [t_f f_str f_start f_stop]. split; [reflexivity|lia]. }
      { apply pieces_sorted. }
      rewrite E3. unfold obind. cbn [fst snd app] in *. exists h3, (Some r). split; [reflexivity|]. split.
      + apply (extends_only h h2 h3 (r :: l)); [exact (extends_trans _ _ _ X1 X2)|exact L3| |].
        * intros j Hj. apply D3; [intros ->; apply Hj; left; reflexivity|intros I; apply Hj; right; exact I].
        * constructor; [unfold r; lia|]. eapply Forall_impl; [|exact G2]. cbn. intros. destruct X1. lia.
      + split; [exact F3|]. right. exists (at_ s a b d_text (pieces_trees s t a)), r. split; [reflexivity|]. split; [reflexivity|]. split; [exact O3|unfold r; lia].
  Qed.

  (** the element under construction: ito, made after h0, has the data f and the children ks *)
  Definition holds (h0 h : heap) (ito : nat) (f : fito) (ks : list tree) : Prop :=
    fine h /\ extends h0 h /\ own h (T f ks) ito /\ (length h0 <= ito)%nat.
  (** data survive *)
  Definition kept (h h' : heap) : Prop := (length h <= length h')%nat /\ forall j, (j < length h)%nat -> n_f (nd h' j) = n_f (nd h j).
  Lemma kept_trans a b c : kept a b -> kept b c -> kept a c.
  Proof. intros [L1 K1] [L2 K2]. split; [lia|]. intros j Hj. rewrite K2 by lia. apply K1. exact Hj. Qed.
  Lemma kept_ext h h' : extends h h' -> kept h h'.
  Proof. intros [L X]. split; [exact L|]. intros j Hj. rewrite X by exact Hj. reflexivity. Qed.
  Lemma kept_stop h h' j : kept h h' -> (j < length h)%nat -> h_stop h' j = h_stop h j /\ h_start h' j = h_start h j.
  Proof. intros [_ K] Hj. unfold h_stop, h_start. rewrite K by exact Hj. auto. Qed.
  (** a further Ito added between others *)
  Lemma add_made h0 h ito f l r t c : holds h0 h ito f (l ++ r) -> own h t c -> (length h0 <= c)%nat -> c <> ito -> t_fits t (T f []) ->
    Forall (fun k => t_before k t) l -> Forall (t_before t) r ->
    exists h', kids_add h ito [c] = (h', Ok tt) /\ holds h0 h' ito f (l ++ t :: r) /\ kept h h' /\ (forall t' j, own h t' j -> j <> ito -> j <> c -> own h' t' j).
  Proof.
    intros (Hf & X & O & L) Oc Lc N Ft Fl Fr. destruct (own_add h ito c f l r t Hf O Oc N Ft Fl Fr) as (h' & E & F' & L' & O' & K & D).
    exists h'. split; [exact E|]. split; [split; [exact F'|]; split; [|split; assumption]|].
    - apply (extends_only h0 h h' [ito; c]); [exact X|exact L'| |]. { intros j Hj. apply D; intros ->; apply Hj; cbn; auto. } apply Forall_cons; [exact L|]. apply Forall_cons; [exact Lc|apply Forall_nil].
    - split; [|exact K]. destruct O as (_ & _ & Li). destruct Oc as (_ & _ & Lci).
      pose proof (kids_add_inv h ito [c] (proj1 Hf) Li (Forall_cons c Lci (Forall_nil _))) as I. cbv zeta in I. rewrite E in I. cbn [fst] in I. destruct I as (_ & L1 & I & _). split; [lia|]. intros j _. apply I.
  Qed.
  Definition starts_at (q : Z) (t : tree) : Prop := q <= t_start t.
  Lemma text_added h0 h ito f l r t a : holds h0 h ito f (l ++ r) -> Forall piece_ok t -> sits s a (text_src t) ->
    f_str f = s -> f_start f <= a -> a + zlen (text_src t) <= f_stop f -> Forall (ends_by a) l -> Forall (starts_at (a + zlen (text_src t))) r ->
    exists h', AT h ito a (a + zlen (text_src t)) = (h', Ok tt) /\ holds h0 h' ito f (l ++ TT t a ++ r) /\ kept h h' /\ (forall t' j, own h t' j -> j <> ito -> own h' t' j).
  Proof.
    intros H Hp Hs Fs Fa Fb Fl Fr. pose proof H as (Hf & X & O & L). destruct (find_text_made t a h Hp Hs Hf) as (h1 & o & E1 & X1 & F1 & D). unfold AT, add_text. fold FT. rewrite E1. unfold obind. cbn [fst snd].
    assert (H1 : holds h0 h1 ito f (l ++ r)) by (split; [exact F1|]; split; [exact (extends_trans _ _ _ X X1)|]; split; [exact (own_ext _ _ _ _ Hf X1 O)|exact L]).
    destruct D as [(E & ->)|(k & c & E & -> & Oc & Lc)]; rewrite E.
    - exists h1. split; [reflexivity|]. split; [exact H1|]. split; [apply kept_ext; exact X1|]. intros. apply (own_ext h); assumption.
    - assert (Ik : In k (TT t a)) by (rewrite E; left; reflexivity). destruct (text_in t a k Ik) as (K1 & K2 & K3 & K4). pose proof O as (_ & _ & Li).
      destruct (add_made h0 h1 ito f l r k c H1 Oc) as (h2 & E2 & H2 & G2 & P2).
      { destruct X. lia. } { lia. }
      { unfold t_fits. rewrite K1, K2, K3. unfold t_string, t_start, t_stop. cbn [t_f]. split; [symmetry; exact Fs|lia]. }
      { eapply Forall_impl; [|exact Fl]. intros u [U1 U2]. split; lia. } { eapply Forall_impl; [|exact Fr]. intros u U. unfold starts_at, t_before in *. lia. }
      exists h2. split; [exact E2|]. split; [exact H2|]. split; [exact (kept_trans _ _ _ (kept_ext _ _ X1) G2)|]. intros t' j Oj Nj. apply P2; [apply (own_ext h); assumption|exact Nj|]. intros ->. destruct Oj as (_ & _ & ?). lia.
  Qed.

  (** ** the children *)
  Lemma doc_len d : doc_ok d -> 0 < zlen (doc_src d).
  Proof. destruct d as [n ats sp txt kids sp'|n ats sp]; intros _; cbn [doc_src]; unfold open_src; rewrite !zlen_app; change (zlen (lit "<")) with 1; repeat match goal with |- context [zlen ?u] => let H := fresh in assert (H := zlen_nonneg u); revert H; generalize (zlen u) end; intros; lia. Qed.
  Lemma doc_tree_span d a : t_string (doc_tree isspace ie s d a) = s /\ t_start (doc_tree isspace ie s d a) = a /\ t_stop (doc_tree isspace ie s d a) = a + zlen (doc_src d).
  Proof. destruct d; cbn [doc_tree]; unfold at_, t_string, t_start, t_stop; cbn [t_f f_str f_start f_stop]; auto. Qed.
  (** the trees of the children, with the text after each *)
  Fixpoint kids_trees (p : Z) (l : list (xdoc * list xpiece)) : list tree :=
    match l with
    | [] => []
    | k :: r => doc_tree isspace ie s (fst k) p :: TT (snd k) (p + zlen (doc_src (fst k))) ++ kids_trees (p + zlen (doc_src (fst k)) + zlen (text_src (snd k))) r
    end.
  Lemma doc_tree_eq n ats sp txt kids sp' a : doc_tree isspace ie s (XElem n ats sp txt kids sp') a =
    let d := XElem n ats sp txt kids sp' in let p := a + zlen (open_src n ats sp (lit ">")) in
    at_ s a (a + zlen (doc_src d)) d_element (open_tree s n ats sp (lit ">") a :: TT txt p ++ kids_trees (p + zlen (text_src txt)) kids ++ [close_tree s n sp' (close_at n sp' a d)]).
  Proof.
    reflexivity.
  Qed.
  (** the same without the text after the last child *)
  Fixpoint loop_trees (prev : option (list xpiece)) (p : Z) (l : list (xdoc * list xpiece)) : list tree :=
    match l with
    | [] => []
    | k :: r => match prev with Some t => TT t (p - zlen (text_src t)) | None => [] end ++ doc_tree isspace ie s (fst k) p :: loop_trees (Some (snd k)) (p + zlen (doc_src (fst k)) + zlen (text_src (snd k))) r
    end.
  Fixpoint last_piece (prev : option (list xpiece)) (l : list (xdoc * list xpiece)) : option (list xpiece) :=
    match l with [] => prev | k :: r => last_piece (Some (snd k)) r end.
  Definition opt_trees (t : option (list xpiece)) (q : Z) : list tree := match t with Some t => TT t (q - zlen (text_src t)) | None => [] end.
  Lemma kids_loop : forall l p prev, loop_trees prev p l ++ opt_trees (last_piece prev l) (p + zlen (flat_map kid_src l)) = opt_trees prev p ++ kids_trees p l.
  Proof.
    induction l as [|k l IH]; intros p prev; [cbn [loop_trees last_piece flat_map kids_trees]; rewrite app_nil_r; change (zlen []) with 0; rewrite Z.add_0_r; reflexivity|].
    cbn [loop_trees last_piece flat_map kids_trees]. rewrite zlen_app, kid_len. rewrite <- app_assoc. cbn [app]. unfold opt_trees at 2. f_equal. f_equal.
    specialize (IH (p + zlen (doc_src (fst k)) + zlen (text_src (snd k))) (Some (snd k))). replace (p + zlen (doc_src (fst k)) + zlen (text_src (snd k)) + zlen (flat_map kid_src l)) with (p + (zlen (doc_src (fst k)) + zlen (text_src (snd k)) + zlen (flat_map kid_src l))) in IH by lia.
    rewrite IH. unfold opt_trees. f_equal. f_equal. lia.
  Qed.
  Lemma loop_in : forall l, Forall (fun k => doc_ok (fst k)) l -> forall p prev k, In k (loop_trees prev p l) ->
    p - match prev with Some t => zlen (text_src t) | None => 0 end <= t_start k < t_stop k /\ t_stop k <= p + zlen (flat_map kid_src l) - match last_piece prev l with Some t => zlen (text_src t) | None => 0 end.
  Proof.
    assert (LP : forall l prev, match last_piece prev l with Some t => zlen (text_src t) | None => 0 end <= match prev with Some t => zlen (text_src t) | None => 0 end + zlen (flat_map kid_src l)).
    { induction l as [|k l IH]; intros prev; [cbn [last_piece flat_map]; change (zlen []) with 0; lia|]. cbn [last_piece flat_map]. rewrite zlen_app, kid_len. specialize (IH (Some (snd k))). cbn beta iota in IH. pose proof (zlen_nonneg (doc_src (fst k))). destruct prev as [t|]; [pose proof (zlen_nonneg (text_src t))|]; lia. }
    induction l as [|k0 l IH]; intros F p prev k I; [destruct I|]. inversion F as [|? ? Hk F']; subst. cbn [loop_trees last_piece flat_map] in *. rewrite zlen_app, kid_len.
    pose proof (doc_len _ Hk) as Ld. pose proof (zlen_nonneg (text_src (snd k0))). pose proof (zlen_nonneg (flat_map kid_src l)). specialize (LP l (Some (snd k0))). cbn beta iota in LP.
    apply in_app_or in I. destruct I as [I|[<-|I]].
    - destruct prev as [t|]; [|destruct I]. destruct (text_in _ _ _ I) as (_ & -> & -> & Lp). lia.
    - destruct (doc_tree_span (fst k0) p) as (_ & -> & ->). destruct prev as [t|]; [pose proof (zlen_nonneg (text_src t))|]; lia.
    - destruct (IH F' _ _ _ I) as [Q1 Q2]. cbn beta iota in Q1. destruct prev as [t|]; [pose proof (zlen_nonneg (text_src t))|]; lia.
  Qed.
  Lemma children_added h0 ito f : f_str f = s -> forall l p prev ks h first last q,
    Forall (fun k => doc_ok (fst k) /\ Forall piece_ok (snd k) /\ forall a, sits s a (doc_src (fst k)) -> makes (extract_itos parser_itors isspace ie s (elem_of (fst k) a)) (doc_tree isspace ie s (fst k) a)) l ->
    sits s p (flat_map kid_src l) -> f_start f <= p -> p + zlen (flat_map kid_src l) <= f_stop f ->
    holds h0 h ito f ks -> Forall (ends_by q) ks -> f_start f <= q ->
    match prev, last with
    | Some t, Some lc => Forall piece_ok t /\ q = p - zlen (text_src t) /\ sits s q (text_src t) /\ (lc < length h)%nat /\ h_stop h lc = q
    | None, None => q <= p
    | _, _ => False
    end ->
    exists h' first' last', add_children parser_itors isspace ie s ito h first last (map (extract_itos parser_itors isspace ie s) (walk_kids elem_of p l)) = (h', Ok (first', last')) /\
      holds h0 h' ito f (ks ++ loop_trees prev p l) /\ kept h h' /\ (forall t j, own h t j -> j <> ito -> own h' t j) /\
      match l with
      | [] => first' = first /\ last' = last
      | _ => (exists lc t, last' = Some lc /\ last_piece prev l = Some t /\ Forall piece_ok t /\ (lc < length h')%nat /\ h_stop h' lc = p + zlen (flat_map kid_src l) - zlen (text_src t)) /\
             (match first with Some x => first' = Some x | None => exists c, first' = Some c /\ (c < length h')%nat /\ h_start h' c = p end)
      end.
  Proof.
    intros Fs. induction l as [|k l IH]; intros p prev ks h first last q Hl Hs Fa Fb Hh Hks Fq Hp.
    - exists h, first, last. cbn [walk_kids map add_children loop_trees]. rewrite app_nil_r. split; [reflexivity|]. split; [exact Hh|]. split; [apply kept_ext, extends_refl|]. auto.
    - inversion Hl as [|? ? (Kd & Kp & Km) Hl']; subst. cbn [walk_kids map add_children]. cbn [flat_map] in Hs, Fb. rewrite zlen_app, kid_len in Fb. assert (Hs0 := Hs). apply sits_app in Hs. destruct Hs as [Hk Hr]. unfold kid_src in Hk. apply sits_app in Hk. destruct Hk as [Hkd Hkt].
      pose proof (doc_len _ Kd) as Ld. pose proof (zlen_nonneg (text_src (snd k))) as Lt. pose proof (zlen_nonneg (flat_map kid_src l)) as Ll.
      pose proof Hh as (F0 & X0 & O0 & L0). destruct (Km p Hkd h F0) as (h1 & c & E1 & X1 & F1 & O1 & L1). rewrite E1. unfold obind at 1. cbn [fst snd].
      assert (H1 : holds h0 h1 ito f (ks ++ [])) by (rewrite app_nil_r; split; [exact F1|]; split; [exact (extends_trans _ _ _ X0 X1)|]; split; [exact (own_ext _ _ _ _ F0 X1 O0)|exact L0]).
      destruct (doc_tree_span (fst k) p) as (Sp1 & Sp2 & Sp3). set (dt := doc_tree isspace ie s (fst k) p) in *.
      assert (Qp : q <= p) by (destruct prev as [t|], last as [lc|]; try contradiction; [destruct Hp as (_ & -> & _); pose proof (zlen_nonneg (text_src t)); lia|exact Hp]).
      assert (Nc : c <> ito) by (destruct O0 as (_ & _ & ?); lia).
      destruct (add_made h0 h1 ito f ks [] dt c H1 O1) as (h2 & E2 & H2 & G2 & P2).
      { destruct X0. lia. } { exact Nc. }
      { unfold t_fits. rewrite Sp1, Sp2, Sp3. unfold t_string, t_start, t_stop. cbn [t_f]. split; [symmetry; exact Fs|lia]. }
      { eapply Forall_impl; [|exact Hks]. intros u [U1 U2]. split; lia. } { constructor. }
      rewrite E2. unfold obind at 1. cbn [fst snd].
      assert (C1 : (c < length h1)%nat) by (destruct O1 as (_ & _ & ?); assumption).
      assert (CS : h_start h1 c = p /\ h_stop h1 c = p + zlen (doc_src (fst k))) by (destruct O1 as (R & _); unfold h_start, h_stop; rewrite (rep_f _ _ _ R); split; [exact Sp2|exact Sp3]).
      destruct (kept_stop h1 h2 c G2 C1) as [CB CA].
      (* the text before it *)
      assert (M : exists h3, (match last with None => (h2, Ok tt) | Some lc => AT h2 ito (h_stop h2 lc) (h_start h2 c) end) = (h3, Ok tt) /\ holds h0 h3 ito f (ks ++ opt_trees prev p ++ [dt]) /\ kept h2 h3 /\ (forall t' j, own h2 t' j -> j <> ito -> own h3 t' j)).
      { destruct prev as [t|], last as [lc|]; try contradiction.
        - destruct Hp as (P1 & P3 & P4 & P5 & P6). assert (Elc : h_stop h2 lc = q). { destruct (kept_stop h h1 lc (kept_ext _ _ X1) P5) as [Q _]. destruct (kept_stop h1 h2 lc G2) as [Q2 _]; [destruct X1; lia|]. congruence. }
          rewrite Elc, CA. destruct CS as [-> _]. replace p with (q + zlen (text_src t)) by lia. unfold opt_trees. replace (q + zlen (text_src t) - zlen (text_src t)) with q by lia.
          apply text_added; try assumption; [lia|]. apply Forall_cons; [unfold starts_at; lia|apply Forall_nil].
        - exists h2. split; [reflexivity|]. split; [exact H2|]. split; [apply kept_ext, extends_refl|]. auto. }
      destruct M as (h3 & E3 & H3 & G3 & P3). fold AT. rewrite E3. unfold obind at 1. cbn [fst snd]. rewrite kid_len in Hr.
      assert (C3 : (c < length h3)%nat /\ h_start h3 c = p /\ h_stop h3 c = p + zlen (doc_src (fst k))).
      { assert (C2 : (c < length h2)%nat) by (destruct G2; lia). destruct (kept_stop h2 h3 c G3 C2). destruct G3. split; [lia|]. split; [|]; destruct CS; congruence. }
      destruct C3 as (C3 & CA3 & CB3).
      destruct (IH (p + zlen (doc_src (fst k)) + zlen (text_src (snd k))) (Some (snd k)) (ks ++ opt_trees prev p ++ [dt]) h3 (match first with None => Some c | Some x => Some x end) (Some c) (p + zlen (doc_src (fst k)))) as (h4 & f4 & l4 & E4 & H4 & G4 & P4 & Q4).
      { exact Hl'. } { replace (p + zlen (doc_src (fst k)) + zlen (text_src (snd k))) with (p + (zlen (doc_src (fst k)) + zlen (text_src (snd k)))) by lia. exact Hr. } { lia. } { lia. } { exact H3. }
      { apply Forall_app. split; [eapply Forall_impl; [|exact Hks]; intros u [U1 U2]; split; lia|]. apply Forall_app. split; [|apply Forall_cons; [split; lia|apply Forall_nil]].
        unfold opt_trees. destruct prev as [t|]; [|constructor]. apply Forall_forall. intros u I. destruct (text_in _ _ _ I) as (_ & U1 & U2 & U3). unfold ends_by. lia. }
      { lia. } { split; [exact Kp|]. split; [lia|]. split; [exact Hkt|]. split; [exact C3|exact CB3]. }
      exists h4, f4, l4. split; [exact E4|]. split; [cbn [loop_trees]; unfold opt_trees in H4; rewrite <- !app_assoc in H4; exact H4|].
      split; [exact (kept_trans _ _ _ (kept_ext _ _ X1) (kept_trans _ _ _ G2 (kept_trans _ _ _ G3 G4)))|]. split.
      { intros t j Oj Nj. apply P4; [apply P3; [apply P2; [apply (own_ext h); assumption|exact Nj|]|exact Nj]|exact Nj]. intros ->. destruct Oj as (_ & _ & ?). lia. }
      destruct (kept_stop h3 h4 c G4 C3) as [KB KA]. assert (C4 : (c < length h4)%nat) by (destruct G4; lia).
      destruct l as [|k' l'].
      + destruct Q4 as [-> ->]. cbn [last_piece flat_map]. rewrite app_nil_r, kid_len. split.
        * exists c, (snd k). split; [reflexivity|]. split; [reflexivity|]. split; [exact Kp|]. split; [exact C4|]. rewrite KB, CB3. lia.
        * destruct first as [x|]; [reflexivity|]. exists c. split; [reflexivity|]. split; [exact C4|]. rewrite KA. exact CA3.
      + destruct Q4 as [(lc & t & Q1 & Q2 & Q3 & Q4 & Q5) Q6]. split.
        * exists lc, t. split; [exact Q1|]. split; [exact Q2|]. split; [exact Q3|]. split; [exact Q4|]. rewrite Q5. cbn [flat_map]. rewrite !zlen_app, !kid_len. lia.
        * destruct first as [x|]; [exact Q6|]. exists c. split; [exact Q6|]. split; [exact C4|]. rewrite KA. exact CA3.
  Qed.
End Doc.
