(** Facts about Xml.v: the elements' spans. *)
From Verif Require Import SpecXml PyFacts ItoStrFacts FormatFacts XmlFacts.

Section DocInd.
  Variable P : xdoc -> Prop.
  Hypothesis elem : forall n ats sp txt kids sp', Forall (fun k => P (fst k)) kids -> P (XElem n ats sp txt kids sp').
  Hypothesis empty : forall n ats sp, P (XEmpty n ats sp).
  Fixpoint xdoc_ind' (d : xdoc) : P d :=
    match d with
    | XElem n ats sp txt kids sp' =>
      elem n ats sp txt kids sp'
        ((fix go (l : list (xdoc * list xpiece)) : Forall (fun k => P (fst k)) l :=
            match l with [] => Forall_nil _ | k :: r => Forall_cons k (xdoc_ind' (fst k)) (go r) end) kids)
    | XEmpty n ats sp => empty n ats sp
    end.
End DocInd.

(** the children of an element, walked with their positions *)
Fixpoint walk_kids {A} (f : xdoc -> Z -> A) (p : Z) (l : list (xdoc * list xpiece)) : list A :=
  match l with [] => [] | k :: r => f (fst k) p :: walk_kids f (p + zlen (doc_src (fst k)) + zlen (text_src (snd k))) r end.
Definition kid_src (k : xdoc * list xpiece) : pystr := doc_src (fst k) ++ text_src (snd k).
Lemma kid_len k : zlen (kid_src k) = zlen (doc_src (fst k)) + zlen (text_src (snd k)). Proof. apply zlen_app. Qed.
Definition close_at (n : xname) (sp' : pystr) (a : Z) (d : xdoc) : Z := a + zlen (doc_src d) - zlen (close_src n sp').
(** the element with the spans it should have *)
Fixpoint elem_of (d : xdoc) (a : Z) : Xml.elem :=
  match d with
  | XElem n ats sp txt kids sp' =>
    El a (a + zlen (doc_src d) - zlen (close_src n sp'))
       ((fix go (p : Z) (l : list (xdoc * list xpiece)) : list Xml.elem :=
           match l with
           | [] => []
           | k :: r => elem_of (fst k) p :: go (p + zlen (doc_src (fst k)) + zlen (text_src (snd k))) r
           end) (a + zlen (open_src n ats sp (lit ">")) + zlen (text_src txt)) kids)
  | XEmpty n ats sp => El a (a + zlen (doc_src d)) []
  end.
Lemma elem_of_eq n ats sp txt kids sp' a : elem_of (XElem n ats sp txt kids sp') a =
  El a (close_at n sp' a (XElem n ats sp txt kids sp')) (walk_kids elem_of (a + zlen (open_src n ats sp (lit ">")) + zlen (text_src txt)) kids).
Proof. cbn [elem_of]. unfold close_at. f_equal. generalize (a + zlen (open_src n ats sp (lit ">")) + zlen (text_src txt)). induction kids as [|k kids IH]; intros p; [reflexivity|]. cbn [walk_kids]. f_equal. apply IH. Qed.
Lemma doc_report_eq ev n ats sp txt kids sp' a : doc_report ev (XElem n ats sp txt kids sp') a =
  Ev (ev a) (walk_kids (doc_report ev) (a + zlen (open_src n ats sp (lit ">")) + zlen (text_src txt)) kids) (ev (close_at n sp' a (XElem n ats sp txt kids sp'))).
Proof. cbn [doc_report]. unfold close_at. f_equal. generalize (a + zlen (open_src n ats sp (lit ">")) + zlen (text_src txt)). induction kids as [|k kids IH]; intros p; [reflexivity|]. cbn [walk_kids]. f_equal. apply IH. Qed.
Lemma doc_src_eq n ats sp txt kids sp' : doc_src (XElem n ats sp txt kids sp') =
  open_src n ats sp (lit ">") ++ text_src txt ++ flat_map kid_src kids ++ close_src n sp'.
Proof. reflexivity. Qed.
(** the loop over the children, as a function of its own *)
Fixpoint index_kids (c : codec) (text : pystr) (st : indexer) (l : list etree) : res (list Xml.elem * indexer) :=
  match l with
  | [] => Ok ([], st)
  | t :: r => do x <- index_tree c text st t; do y <- index_kids c text (snd x) r; Ok (fst x :: fst y, snd y)
  end.
Lemma index_tree_eq c text st s kids e : index_tree c text st (Ev s kids e) =
  do a <- char_offset_ex c text st s; do k <- index_kids c text (snd a) kids; do b <- char_offset_ex c text (snd k) e; Ok (El (fst a) (fst b) (fst k), snd b).
Proof.
  cbn [index_tree]. destruct (char_offset_ex c text st s) as [a|]; [|reflexivity]. cbn [bind].
  assert (E : forall l st, (fix go (st : indexer) (l : list etree) : res (list Xml.elem * indexer) :=
               match l with [] => Ok ([], st) | t :: r => do x <- index_tree c text st t; do y <- go (snd x) r; Ok (fst x :: fst y, snd y) end) st l = index_kids c text st l).
  { induction l as [|t l IH]; intros st'; [reflexivity|]. cbn [index_kids]. destruct (index_tree c text st' t) as [x|]; [|reflexivity]. cbn [bind]. rewrite IH. reflexivity. }
  rewrite E. reflexivity.
Qed.
Lemma close_len n sp : 0 < zlen (close_src n sp).
Proof. unfold close_src. rewrite zlen_app. cbn [zlen length Z.of_nat]. pose proof (zlen_nonneg (name_src n ++ sp ++ lit ">")). change (zlen (lit "</")) with 2. lia. Qed.

Section Idx.
  Variables (c : codec) (ok : Z -> Prop) (s : pystr).
  Hypothesis C : codec_for c ok.
  Hypothesis S : Forall ok s.
  Let ev := event_at (cd_enc c) s.
  (** the indexer has seen nothing, or a position not after p *)
  Definition before (st : indexer) (p : Z) : Prop := (exists m, at_line c s st m /\ (m <= Z.to_nat p)%nat) \/ st = ix_reset.
  Lemma before_mono st p q : p <= q -> before st p -> before st q.
  Proof. intros H [(m & A & L)|E]; [left; exists m; split; [exact A|lia]|right; exact E]. Qed.
  Lemma step_before st p : 0 <= p <= zlen s -> before st p -> exists st', char_offset_ex c s st (ev p) = Ok (p, st') /\ before st' p.
  Proof.
    intros Hp [(m & A & L)|E].
    - destruct (offset_step c ok s C S st m p Hp (or_introl (conj A L))) as (st' & E & A'). exists st'. split; [exact E|]. left. exists (Z.to_nat p). split; [exact A'|lia].
    - destruct (offset_step c ok s C S st 0%nat p Hp (or_intror E)) as (st' & E' & A'). exists st'. split; [exact E'|]. left. exists (Z.to_nat p). split; [exact A'|lia].
  Qed.
  Lemma index_doc : forall d a st, 0 <= a -> a + zlen (doc_src d) <= zlen s -> before st a ->
    exists st', index_tree c s st (doc_report ev d a) = Ok (elem_of d a, st') /\ before st' (a + zlen (doc_src d)).
  Proof.
    induction d as [n ats sp txt kids sp' IH|n ats sp] using xdoc_ind'; intros a st Ha Hb B.
    - rewrite doc_report_eq, elem_of_eq, index_tree_eq. set (d := XElem n ats sp txt kids sp') in *.
      set (p := a + zlen (open_src n ats sp (lit ">")) + zlen (text_src txt)).
      pose proof (zlen_nonneg (open_src n ats sp (lit ">"))) as L1. pose proof (zlen_nonneg (text_src txt)) as L2. pose proof (zlen_nonneg (flat_map kid_src kids)) as L3.
      assert (El : zlen (doc_src d) = zlen (open_src n ats sp (lit ">")) + zlen (text_src txt) + zlen (flat_map kid_src kids) + zlen (close_src n sp')) by (unfold d; rewrite doc_src_eq, !zlen_app; lia).
      pose proof (close_len n sp') as L4.
      destruct (step_before st a ltac:(lia) B) as (st1 & E1 & B1). rewrite E1. cbn [bind fst snd].
      assert (K : forall l q st, Forall (fun k => forall a st, 0 <= a -> a + zlen (doc_src (fst k)) <= zlen s -> before st a ->
                      exists st', index_tree c s st (doc_report ev (fst k) a) = Ok (elem_of (fst k) a, st') /\ before st' (a + zlen (doc_src (fst k)))) l ->
                    0 <= q -> q + zlen (flat_map kid_src l) <= zlen s -> before st q ->
                    exists st', index_kids c s st (walk_kids (doc_report ev) q l) = Ok (walk_kids elem_of q l, st') /\ before st' (q + zlen (flat_map kid_src l))).
      { clear. induction l as [|k l IHl]; intros q st F Hq Hl Bq; [exists st; split; [reflexivity|eapply before_mono; [|exact Bq]; change (zlen (flat_map kid_src [])) with 0; lia]|].
        inversion F; subst. cbn [walk_kids index_kids flat_map] in *. rewrite zlen_app, kid_len in Hl.
        pose proof (zlen_nonneg (doc_src (fst k))). pose proof (zlen_nonneg (text_src (snd k))). pose proof (zlen_nonneg (flat_map kid_src l)).
        destruct (H1 q st Hq ltac:(lia) Bq) as (st1 & E1 & B1). rewrite E1. cbn [bind fst snd].
        destruct (IHl (q + zlen (doc_src (fst k)) + zlen (text_src (snd k))) st1 H2 ltac:(lia) ltac:(lia)) as (st2 & E2 & B2); [eapply before_mono; [|exact B1]; lia|].
        rewrite E2. cbn [bind fst snd]. exists st2. split; [reflexivity|]. eapply before_mono; [|exact B2]. rewrite zlen_app, kid_len. lia. }
      destruct (K kids p st1 IH) as (st2 & E2 & B2); [unfold p; lia|unfold p; lia|eapply before_mono; [|exact B1]; unfold p; lia|]. rewrite E2. cbn [bind fst snd].
      assert (Ep : p + zlen (flat_map kid_src kids) = close_at n sp' a d) by (unfold p, close_at; lia). rewrite Ep in B2.
      destruct (step_before st2 (close_at n sp' a d)) as (st3 & E3 & B3); [unfold close_at; lia|exact B2|]. rewrite E3. cbn [bind fst snd].
      exists st3. split; [reflexivity|]. eapply before_mono; [|exact B3]. unfold close_at. lia.
    - cbn [doc_report elem_of]. rewrite index_tree_eq. pose proof (zlen_nonneg (doc_src (XEmpty n ats sp))).
      destruct (step_before st a ltac:(lia) B) as (st1 & E1 & B1). rewrite E1. cbn [bind fst snd index_kids].
      destruct (step_before st1 (a + zlen (doc_src (XEmpty n ats sp)))) as (st2 & E2 & B2); [lia|eapply before_mono; [|exact B1]; lia|].
      rewrite E2. cbn [bind fst snd]. exists st2. split; [reflexivity|exact B2].
  Qed.
End Idx.
