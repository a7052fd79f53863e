(** Facts about the model of pawpaw/_type_magic.py. *)
From Coq Require Import Permutation.
From Verif Require Export SpecTypes PyFacts.

Lemma ty_rect2 (P : ty -> Prop) :
  (forall c, P (TCls c)) -> (forall o args, P (TGen o args)) -> (forall ts, Forall P ts -> P (TUnion ts)) -> (forall ts, Forall P ts -> P (TOld ts)) -> forall t, P t.
Proof.
  intros H1 H2 H3 H4. fix IH 1. intros [c|o args|ts|ts]; [apply H1|apply H2|apply H3|apply H4].
  - induction ts as [|t ts IHts]; constructor; [apply IH|exact IHts].
  - induction ts as [|t ts IHts]; constructor; [apply IH|exact IHts].
Qed.

Lemma any_res_ok {A} (f : A -> res bool) (P : A -> Prop) l :
  (forall x, In x l -> exists b, f x = Ok b /\ (b = true <-> P x)) -> exists b, any_res f l = Ok b /\ (b = true <-> exists x, In x l /\ P x).
Proof.
  induction l as [|x l IH]; intros H.
  - exists false. split; [reflexivity|]. split; [discriminate|intros (x & [] & _)].
  - destruct (H x (or_introl eq_refl)) as (b & E & Hb). cbn. rewrite E. cbn. destruct b.
    + exists true. split; [reflexivity|]. split; [intros _; exists x; split; [left; reflexivity|apply Hb; reflexivity]|reflexivity].
    + destruct IH as (b & E' & Hb'); [intros y Hy; apply H; right; exact Hy|]. exists b. split; [exact E'|]. rewrite Hb'. split.
      * intros (y & Hy & Py). exists y. split; [right; exact Hy|exact Py].
      * intros (y & [->|Hy] & Py); [apply Hb in Py; discriminate|exists y; split; assumption].
Qed.

Lemma unpack_modern t : modern t -> forall u, In u (unpack t) -> exists k, origin u = Some k.
Proof.
  induction t as [c|o args|ts IH|ts IH] using ty_rect2; intros M u H.
  - destruct H as [<-|[]]. exists c. reflexivity.
  - destruct H as [<-|[]]. exists o. reflexivity.
  - inversion M as [| |? M' Q]; subst. cbn in H. apply in_concat in H. destruct H as (l & Hl & Hu). apply in_map_iff in Hl. destruct Hl as (t & <- & Ht).
    rewrite Forall_forall in IH. exact (IH t Ht (M' t Ht) u Hu).
  - inversion M.
Qed.
Lemma unpack_named t k : modern t -> (exists u, In u (unpack t) /\ origin u = Some k) <-> named t k.
Proof.
  induction t as [c|o args|ts IH|ts IH] using ty_rect2; intros M.
  - split; [intros (u & [<-|[]] & [= <-]); constructor|]. intros H. inversion H; subst. exists (TCls k). split; [left; reflexivity|reflexivity].
  - split; [intros (u & [<-|[]] & [= <-]); constructor|]. intros H. inversion H; subst. exists (TGen k args). split; [left; reflexivity|reflexivity].
  - inversion M as [| |? M' Q]; subst. rewrite Forall_forall in IH. split.
    + intros (u & H & Hu). cbn in H. apply in_concat in H. destruct H as (l & Hl & Hul). apply in_map_iff in Hl. destruct Hl as (t & <- & Ht).
      apply nm_union with (t := t); [exact Ht|]. apply (IH t Ht (M' t Ht)). exists u. split; assumption.
    + intros H. inversion H as [| |t ts' k' Ht Hn]; subst. apply (IH t Ht (M' t Ht)) in Hn. destruct Hn as (u & Hu & Hk). exists u. split; [|exact Hk].
      cbn. apply in_concat. exists (unpack t). split; [apply in_map; exact Ht|exact Hu].
  - inversion M.
Qed.
Lemma member_named sub c t : modern t -> member sub c t <-> exists k, named t k /\ sub c k = true.
Proof.
  induction t as [k|o args|ts IH|ts IH] using ty_rect2; intros M.
  - split; [intros H; inversion H; subst; exists k; split; [constructor|assumption]|]. intros (k' & H & S). inversion H; subst. constructor. exact S.
  - split; [intros H; inversion H; subst; exists o; split; [constructor|assumption]|]. intros (k' & H & S). inversion H; subst. constructor. exact S.
  - inversion M as [| |? M' Q]; subst. rewrite Forall_forall in IH. split.
    + intros H. inversion H as [| |t ts' Ht Hm|]; subst. apply (IH t Ht (M' t Ht)) in Hm. destruct Hm as (k & Hk & S). exists k. split; [apply nm_union with (t := t); assumption|exact S].
    + intros (k & H & S). inversion H as [| |t ts' k' Ht Hn]; subst. apply mem_union with (t := t); [exact Ht|]. apply (IH t Ht (M' t Ht)). exists k. split; assumption.
  - inversion M.
Qed.

Lemma isinstance_exact sub c t : modern t -> exists b, isinstance_ex sub c t = Ok b /\ (b = true <-> member sub c t).
Proof.
  intros M. destruct (any_res_ok (fun u => py_issubclass sub (Some c) (origin u)) (fun u => exists k, origin u = Some k /\ sub c k = true) (unpack t)) as (b & E & Hb).
  { intros u Hu. destruct (unpack_modern t M u Hu) as (k & Hk). exists (sub c k). split; [cbn; rewrite Hk; reflexivity|]. split; [intros S; exists k; split; assumption|].
    intros (k' & Hk' & S). rewrite Hk in Hk'. injection Hk' as ->. exact S. }
  exists b. split; [exact E|]. rewrite Hb, (member_named sub c t M). split.
  - intros (u & Hu & k & Hk & S). exists k. split; [apply (unpack_named t k M); exists u; split; assumption|exact S].
  - intros (k & Hn & S). apply (unpack_named t k M) in Hn. destruct Hn as (u & Hu & Hk). exists u. split; [exact Hu|]. exists k. split; assumption.
Qed.
Lemma issubclass_exact sub a t : modern a -> modern t -> exists b, issubclass_ex sub a t = Ok b /\ (b = true <-> exists k, named a k /\ member sub k t).
Proof.
  intros Ma M.
  destruct (any_res_ok (fun x => any_res (fun y => py_issubclass sub x y) (map origin (unpack t))) (fun x => exists k, x = Some k /\ member sub k t) (map origin (unpack a))) as (b & E & Hb).
  { intros x Hx. apply in_map_iff in Hx. destruct Hx as (u & <- & Hu). destruct (unpack_modern a Ma u Hu) as (k & Hk). rewrite Hk.
    destruct (isinstance_exact sub k t M) as (b & E & Hb). exists b. split.
    { rewrite <- E. unfold isinstance_ex. clear. induction (unpack t) as [|u l IH]; [reflexivity|]. cbn [map any_res]. rewrite IH. reflexivity. }
    rewrite Hb. split; [intros H; exists k; split; [reflexivity|exact H]|]. intros (k' & [= <-] & H). exact H. }
  exists b. split; [exact E|]. rewrite Hb. split.
  - intros (x & Hx & k & -> & Hm). apply in_map_iff in Hx. destruct Hx as (u & Hu & Hin). exists k. split; [apply (unpack_named a k Ma); exists u; split; assumption|exact Hm].
  - intros (k & Hn & Hm). apply (unpack_named a k Ma) in Hn. destruct Hn as (u & Hu & Hk). exists (Some k). split; [rewrite <- Hk; apply in_map; exact Hu|]. exists k. split; [reflexivity|exact Hm].
Qed.

Lemma is_any_iff t : is_any t = true <-> t = TCls any_cls.
Proof. destruct t; cbn; try (split; discriminate). rewrite Z.eqb_eq. split; congruence. Qed.
(** when a hint lets a wanted type pass *)
Definition passes (sub : pycls -> pycls -> bool) (want : ty) (h : option ty) : Prop :=
  want = TCls any_cls \/ hint_ok (fun t => exists k, named t k /\ member sub k want) h.
Lemma hint_exact sub h want : hint_ok modern h -> modern want -> exists b, hint_matches sub h want = Ok b /\ (b = true <-> passes sub want h).
Proof.
  unfold passes. destruct h as [t|]; cbn; intros M W; [|exists true; split; [reflexivity|]; split; auto].
  destruct (is_any want) eqn:Ea; [exists true; split; [reflexivity|]; apply is_any_iff in Ea; split; auto|].
  destruct (issubclass_exact sub t want M W) as (b & E & Hb). exists b. split; [exact E|]. rewrite Hb. split; [auto|intros [H|H]; [apply is_any_iff in H; congruence|exact H]].
Qed.
Lemma all_exact sub ps ts : length ps = length ts -> Forall (fun p => hint_ok modern (p_hint p)) ps -> Forall modern ts ->
  exists b, all_match sub (combine ps ts) = Ok b /\ (b = true <-> Forall2 (fun p t => passes sub t (p_hint p)) ps ts).
Proof.
  revert ts. induction ps as [|p ps IH]; intros [|t ts] L Fp Ft; try discriminate L.
  - exists true. split; [reflexivity|]. split; [constructor|reflexivity].
  - inversion Fp as [|? ? Hp Fp']; inversion Ft as [|? ? Ht Ft']; subst. destruct (hint_exact sub (p_hint p) t Hp Ht) as (b & E & Hb). cbn. rewrite E. cbn. destruct b.
    + destruct (IH ts) as (b & E' & Hb'); [cbn in L; lia|exact Fp'|exact Ft'|]. exists b. split; [exact E'|]. rewrite Hb'. split.
      * intros F. constructor; [apply Hb; reflexivity|exact F].
      * intros F. inversion F; assumption.
    + exists false. split; [reflexivity|]. split; [discriminate|]. intros F. inversion F as [|? ? ? ? Hp' _]; subst. apply Hb in Hp'. exact Hp'.
Qed.
Lemma functoid_exact sub f ps r :
  Forall (fun p => hint_ok modern (p_hint p)) (f_params f) -> hint_ok modern (f_ret f) -> Forall modern ps -> modern r ->
  exists b, functoid_isinstance sub (OFun f) (SSig ps r) = Ok b /\ (b = true <-> passes sub r (f_ret f) /\ Forall2 (fun p t => passes sub t (p_hint p)) (f_params f) ps).
Proof.
  intros Fp Hr Fps Mr. cbn. destruct (hint_exact sub (f_ret f) r Hr Mr) as (b & E & Hb). rewrite E. cbn. destruct b; cbn.
  - destruct (Z.eqb_spec (zlen (f_params f)) (zlen ps)) as [L|L]; cbn.
    + destruct (all_exact sub (f_params f) ps) as (b & E' & Hb'); [unfold zlen in L; lia|exact Fp|exact Fps|]. exists b. split; [exact E'|]. rewrite Hb'. split; [intros H; split; [apply Hb; reflexivity|exact H]|intros [_ H]; exact H].
    + exists false. split; [reflexivity|]. split; [discriminate|]. intros [_ F]. exfalso. apply L. clear - F. unfold zlen. f_equal. induction F; cbn; congruence.
  - exists false. split; [reflexivity|]. split; [discriminate|]. intros [H _]. apply Hb in H. exact H.
Qed.

(** invoke_func *)
Section Invoke.
Context {V : Type} (E : penv V).
Definition typed (p : param) : Prop := exists t, p_hint p = Some t /\ modern t.

Lemma pick_exact p l : typed p ->
  (exists a v b, l = a ++ v :: b /\ Forall (fun u => ~ suits E p u) a /\ suits E p v /\ pick E (p_hint p) l = Ok (Some v)) \/
  (Forall (fun u => ~ suits E p u) l /\ pick E (p_hint p) l = Ok None).
Proof.
  intros (t & Ht & M). induction l as [|v l IH]; [right; split; [constructor|reflexivity]|].
  cbn [pick]. rewrite Ht in *. destruct (issubclass_exact (v_sub E) (TCls (v_type E v)) t (md_cls _) M) as (b & Eb & Hb). rewrite Eb. cbn [bind].
  assert (HS : b = true <-> suits E p v).
  { rewrite Hb. split.
    - intros (k & Hn & Hm). inversion Hn; subst. exists t. split; assumption.
    - intros (t' & Ht' & Hm). rewrite Ht in Ht'. injection Ht' as <-. exists (v_type E v). split; [constructor|exact Hm]. }
  destruct b.
  - left. exists [], v, l. split; [reflexivity|]. split; [constructor|]. split; [apply HS; reflexivity|reflexivity].
  - assert (N : ~ suits E p v) by (intros H; apply HS in H; discriminate). destruct IH as [(a & w & b & -> & Fa & Sw & P)|[F P]].
    + left. exists (v :: a), w, b. split; [reflexivity|]. split; [constructor; assumption|]. split; assumption.
    + right. split; [constructor; assumption|exact P].
Qed.
Lemma unequal_cons v l : unequal E (v :: l) -> unequal E l.
Proof. intros [R H]. split; [exact R|]. intros a x b y c ->. apply (H (v :: a) x b y c). reflexivity. Qed.
Lemma unequal_drop a v b : unequal E (a ++ v :: b) -> unequal E (a ++ b).
Proof.
  intros [R H]. split; [exact R|]. revert H. induction a as [|w a IH]; intros H.
  - intros a' x b' y c Q. apply (H (v :: a') x b' y c). cbn in *. rewrite Q. reflexivity.
  - intros [|w' a'] x b' y c Q; cbn in Q; injection Q as -> Q.
    + revert Q. clear IH. intros Q.
      assert (Iy : In y (a ++ b)) by (rewrite Q; apply in_or_app; right; left; reflexivity).
      apply in_app_or in Iy. destruct Iy as [Iy|Iy]; apply in_split in Iy; destruct Iy as (l1 & l2 & ->).
      * apply (H [] x l1 y (l2 ++ v :: b)). cbn. rewrite <- app_assoc. reflexivity.
      * apply (H [] x (a ++ v :: l1) y l2). cbn. rewrite <- app_assoc. reflexivity.
    + apply (IH (fun a0 x0 b0 y0 c0 Q0 => H (w' :: a0) x0 b0 y0 c0 (f_equal (cons w') Q0)) a' x b' y c Q).
Qed.
Lemma remove_exact a v b : unequal E (a ++ v :: b) -> py_remove E v (a ++ v :: b) = a ++ b.
Proof.
  induction a as [|w a IH]; intros U; cbn.
  - destruct U as [R _]. rewrite R. reflexivity.
  - destruct U as [R H]. rewrite (H [] w a v b eq_refl). f_equal. apply IH. exact (unequal_cons w (a ++ v :: b) (conj R H)).
Qed.
Lemma pair_exact ps l : Forall typed ps -> unequal E l -> exists m rest, wired E ps l m rest /\ unequal E rest /\ pair_up E ps l = Ok (m, rest).
Proof.
  revert l. induction ps as [|p ps IH]; intros l F U.
  - exists [], l. split; [constructor|]. split; [exact U|reflexivity].
  - inversion F as [|? ? Hp F']; subst. cbn. destruct (pick_exact p l Hp) as [(a & v & b & -> & Fa & Sv & P)|[Fl P]]; rewrite P; cbn.
    + rewrite (remove_exact a v b U). destruct (IH (a ++ b) F' (unequal_drop a v b U)) as (m & rest & W & Ur & Q). rewrite Q. cbn. exists ((p, v) :: m), rest. split; [constructor; assumption|]. split; [exact Ur|reflexivity].
    + destruct (IH l F' U) as (m & rest & W & Ur & Q). exists m, rest. split; [constructor; assumption|]. split; [exact Ur|exact Q].
Qed.
Lemma wired_in ps l m rest : wired E ps l m rest -> forall p v, In (p, v) m -> In p ps /\ suits E p v /\ In v l.
Proof.
  induction 1 as [l|p ps a v b m rest Fa Sv W IH|p ps l m rest Fl W IH]; intros q w H; [destruct H| |].
  - destruct H as [[= <- <-]|H]; [split; [left; reflexivity|]; split; [exact Sv|apply in_or_app; right; left; reflexivity]|].
    destruct (IH q w H) as (H1 & H2 & H3). split; [right; exact H1|]. split; [exact H2|]. apply in_or_app. apply in_app_or in H3. destruct H3 as [H3|H3]; [left; exact H3|right; right; exact H3].
  - destruct (IH q w H) as (H1 & H2). split; [right; exact H1|exact H2].
Qed.
(** no value is used twice, none is lost *)
Lemma wired_perm ps l m rest : wired E ps l m rest -> Permutation l (map snd m ++ rest).
Proof.
  induction 1 as [l|p ps a v b m rest Fa Sv W IH|p ps l m rest Fl W IH]; [apply Permutation_refl| |exact IH].
  cbn. apply Permutation_sym. apply Permutation_cons_app. apply Permutation_sym. exact IH.
Qed.
Lemma wired_nodup ps l m rest : wired E ps l m rest -> NoDup (map p_name ps) -> NoDup (map (fun pv => p_name (fst pv)) m).
Proof.
  induction 1 as [l|p ps a v b m rest Fa Sv W IH|p ps l m rest Fl W IH]; intros N; [constructor| |].
  - inversion N as [|? ? Ni N']; subst. cbn. constructor; [|exact (IH N')]. intros H. apply in_map_iff in H. destruct H as ([q w] & Q & H). cbn in Q. apply Ni. rewrite <- Q. apply in_map. exact (proj1 (wired_in _ _ _ _ W q w H)).
  - inversion N. apply IH. assumption.
Qed.
Lemma lookup_spec n (m : list (param * V)) :
  match lookup_name n m with Some v => exists p, In (p, v) m /\ p_name p = n | None => forall p v, In (p, v) m -> p_name p <> n end.
Proof.
  induction m as [|[p v] m IH]; cbn; [intros p v []|]. destruct (eqb_str (p_name p) n) eqn:Q.
  - exists p. split; [left; reflexivity|apply eqb_str_eq; exact Q].
  - destruct (lookup_name n m) as [w|]; [destruct IH as (q & H & Hq); exists q; split; [right; exact H|exact Hq]|].
    intros q w [[= <- <-]|H]; [intros Q'; apply eqb_str_eq in Q'; congruence|exact (IH q w H)].
Qed.
Lemma names_inj ps p q : NoDup (map p_name ps) -> In p ps -> In q ps -> p_name p = p_name q -> p = q.
Proof.
  induction ps as [|x ps IH]; intros N Hp Hq Q; [destruct Hp|]. inversion N as [|? ? Ni N']; subst.
  destruct Hp as [->|Hp], Hq as [->|Hq]; [reflexivity| | |exact (IH N' Hp Hq Q)].
  - exfalso. apply Ni. rewrite Q. apply in_map. exact Hq.
  - exfalso. apply Ni. rewrite <- Q. apply in_map. exact Hp.
Qed.
Lemma bind_only_exact qs (m : list (param * V)) : NoDup (map p_name qs) -> (forall p v, In (p, v) m -> In p qs) ->
  forall ps, (forall p, In p ps -> In p qs) ->
  (exists r, bind_only ps m = Ok r /\ Forall2 (handed m) ps r) \/ (bind_only ps m = Err TypeError /\ exists p, In p ps /\ p_dflt p = false /\ forall v, ~ In (p, v) m).
Proof.
  intros N Hm. induction ps as [|p ps IH]; intros Hps.
  - left. exists []. split; [reflexivity|constructor].
  - cbn. pose proof (lookup_spec (p_name p) m) as L. assert (Hp : In p qs) by (apply Hps; left; reflexivity).
    destruct (lookup_name (p_name p) m) as [v|].
    + destruct L as (q & Hq & Qn). assert (q = p) by (apply (names_inj qs q p N); [exact (Hm q v Hq)|exact Hp|exact Qn]). subst q.
      destruct IH as [(r & R & F)|(R & q & Hin & Hd)]; [intros; apply Hps; right; assumption| |].
      * left. rewrite R. cbn. eexists. split; [reflexivity|]. constructor; [split; [reflexivity|exact Hq]|exact F].
      * right. rewrite R. split; [reflexivity|]. exists q. split; [right; exact Hin|exact Hd].
    + assert (No : forall v, ~ In (p, v) m) by (intros v H; exact (L p v H eq_refl)). destruct (p_dflt p) eqn:D.
      * destruct IH as [(r & R & F)|(R & q & Hin & Hd)]; [intros; apply Hps; right; assumption| |].
        -- left. rewrite R. cbn. eexists. split; [reflexivity|]. constructor; [split; [reflexivity|split; [exact D|exact No]]|exact F].
        -- right. rewrite R. split; [reflexivity|]. exists q. split; [right; exact Hin|exact Hd].
      * right. split; [reflexivity|]. exists p. split; [left; reflexivity|]. split; [exact D|exact No].
Qed.
(** positional parameters that took a value come first *)
Lemma bind_pos_exact (m : list (param * V)) tl : NoDup (map p_name (map fst m ++ tl)) ->
  (exists r, bind_pos (map fst m ++ tl) (map snd m) = Ok (r, []) /\ Forall2 (handed m) (map fst m ++ tl) r) \/
  (bind_pos (map fst m ++ tl) (map snd m) = Err TypeError /\ exists p, In p tl /\ p_dflt p = false).
Proof.
  intros N. assert (G : forall (m' : list (param * V)) , (forall p v, In (p, v) m' -> In (p, v) m) ->
    (exists r, bind_pos (map fst m' ++ tl) (map snd m') = Ok (r, []) /\ Forall2 (handed m) (map fst m' ++ tl) r) \/ (bind_pos (map fst m' ++ tl) (map snd m') = Err TypeError /\ exists p, In p tl /\ p_dflt p = false)).
  { induction m' as [|[p v] m' IH]; intros Hs.
    - cbn [map app]. assert (Ntl : forall p, In p tl -> forall v, ~ In (p, v) m).
      { intros p Hp v H. rewrite map_app in N. revert N H. clear - Hp. induction m as [|[q w] m IH]; intros N H; [destruct H|]. cbn in N. inversion N as [|? ? Ni N']; subst.
        destruct H as [[= -> ->]|H]; [apply Ni, in_or_app; right; apply in_map; exact Hp|exact (IH N' H)]. }
      clear N IH || clear N. clear Hs. induction tl as [|q tl IHt].
      + left. exists []. split; [reflexivity|constructor].
      + cbn. destruct (p_dflt q) eqn:D; [|right; split; [reflexivity|exists q; split; [left; reflexivity|exact D]]].
        destruct IHt as [(r & R & F)|(R & q' & Hin & Hd)]; [intros; apply Ntl; right; assumption| |].
        * left. rewrite R. cbn. eexists. split; [reflexivity|]. constructor; [split; [reflexivity|split; [exact D|apply Ntl; left; reflexivity]]|exact F].
        * right. rewrite R. split; [reflexivity|]. exists q'. split; [right; exact Hin|exact Hd].
    - cbn [map app fst snd bind_pos]. destruct IH as [(r & R & F)|(R & H)]; [intros; apply Hs; right; assumption| |].
      + left. rewrite R. cbn. eexists. split; [reflexivity|]. constructor; [split; [reflexivity|apply Hs; left; reflexivity]|exact F].
      + right. rewrite R. split; [reflexivity|exact H]. }
  exact (G m (fun p v H => H)).
Qed.
End Invoke.
