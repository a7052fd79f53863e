(** Properties of pawpaw/_type_magic.py. *)
From Coq Require Import Permutation.
From Verif Require Import SpecTypes PyFacts TypeFacts.

(** The classes of the examples: typing.Any, object, int, bool, str, Ito, a subclass of Ito, NoneType, list, float *)
Definition cAny := 0. Definition cObject := 1. Definition cInt := 2. Definition cBool := 3. Definition cStr := 4.
Definition cIto := 5. Definition cMyIto := 6. Definition cNone := 7. Definition cList := 8. Definition cFloat := 9.
Definition csub (a b : pycls) : bool :=
  (a =? b) || (b =? cObject) || ((a =? cBool) && (b =? cInt)) || ((a =? cMyIto) && (b =? cIto)).
Lemma csub_ok : subclassing csub.
Proof. unfold subclassing, csub, cObject, cBool, cInt, cMyIto, cIto. split; intros; lia. Qed.

(** C98: isinstance_ex tells whether the object is of one of the alternatives of the type *)
Theorem C98_isinstance_partial sub c t : modern t -> exists b, isinstance_ex sub c t = Ok b /\ (b = true <-> member sub c t).
Proof. exact (isinstance_exact sub c t). Qed.
Lemma member_up sub c k t : subclassing sub -> modern t -> sub c k = true -> member sub k t -> member sub c t.
Proof. intros [_ T] M S H. apply (member_named sub k t M) in H. destruct H as (o & Hn & Ho). apply (member_named sub c t M). exists o. split; [exact Hn|exact (T c k o S Ho)]. Qed.
Lemma single_modern a : single a -> modern a. Proof. destruct a; cbn; intros []; constructor. Qed.
Lemma single_named a : single a -> exists k, forall k', named a k' <-> k' = k.
Proof. destruct a as [c|o args|ts|ts]; cbn; intros []; [exists c|exists o]; intros k'; (split; [intros H; inversion H; reflexivity|intros ->; constructor]). Qed.
(** ... and issubclass_ex, for a single class (with or without parameters), whether every object of the first type is of the second *)
Theorem C98_issubclass_partial sub a t : subclassing sub -> single a -> modern t -> exists b, issubclass_ex sub a t = Ok b /\ (b = true <-> narrower sub a t).
Proof.
  intros C Sa M. destruct (issubclass_exact sub a t (single_modern a Sa) M) as (b & E & Hb). exists b. split; [exact E|]. rewrite Hb. destruct (single_named a Sa) as (k & Hk). split.
  - intros (k' & Hn & Hm) c Hc. apply Hk in Hn. subst k'. apply (member_named sub c a (single_modern a Sa)) in Hc. destruct Hc as (k' & Hn & S). apply Hk in Hn. subst k'. exact (member_up sub c k t C M S Hm).
  - intros N. exists k. split; [apply Hk; reflexivity|]. apply N. apply (member_named sub k a (single_modern a Sa)). exists k. split; [apply Hk; reflexivity|apply C].
Qed.
(** what it tells of a union: whether one of the alternatives is a subclass *)
Theorem C98_issubclass_exact sub a t : modern a -> modern t -> exists b, issubclass_ex sub a t = Ok b /\ (b = true <-> exists k, named a k /\ member sub k t).
Proof. exact (issubclass_exact sub a t). Qed.
(** int | None counts as a subclass of int, although None is no int *)
Theorem C98_union_refuted : issubclass_ex csub (TUnion [TCls cInt; TCls cNone]) (TCls cInt) = Ok true /\ ~ narrower csub (TUnion [TCls cInt; TCls cNone]) (TCls cInt).
Proof.
  split; [reflexivity|]. intros N. assert (H : member csub cNone (TCls cInt)).
  { apply N. apply mem_union with (t := TCls cNone); [right; left; reflexivity|]. constructor. reflexivity. }
  inversion H; discriminate.
Qed.
(** typing.Optional[int] is no type to either of them *)
Theorem C98_optional_refuted sub : isinstance_ex sub cInt (TOld [TCls cInt; TCls cNone]) = Err TypeError /\ issubclass_ex sub (TCls cInt) (TOld [TCls cInt; TCls cNone]) = Err TypeError
  /\ (subclassing sub -> member sub cInt (TOld [TCls cInt; TCls cNone])).
Proof. split; [reflexivity|]. split; [reflexivity|]. intros [R _]. apply mem_old with (t := TCls cInt); [left; reflexivity|]. constructor. apply R. Qed.
Example C98_case : modern (TUnion [TCls cStr; TUnion [TGen cList [TCls cInt]; TCls cNone]]) /\ subclassing csub /\ single (TGen cList [TCls cInt])
  /\ isinstance_ex csub cList (TUnion [TCls cStr; TUnion [TGen cList [TCls cInt]; TCls cNone]]) = Ok true
  /\ isinstance_ex csub cInt (TUnion [TCls cStr; TUnion [TGen cList [TCls cInt]; TCls cNone]]) = Ok false.
Proof.
  split; [|split; [exact csub_ok|split; [exact Logic.I|split; reflexivity]]].
  constructor. intros t [<-|[<-|[]]]; [constructor|]. constructor. intros t [<-|[<-|[]]]; constructor.
Qed.

(** C99: a function without hints is accepted wherever a function of its number of parameters is asked for, and nowhere else *)
Theorem C99_unhinted sub f ps r : Forall (fun p => p_hint p = None) (f_params f) -> f_ret f = None ->
  functoid_isinstance sub (OFun f) (SSig ps r) = Ok (zlen (f_params f) =? zlen ps).
Proof.
  intros F R. cbn. rewrite R. cbn. destruct (Z.eqb_spec (zlen (f_params f)) (zlen ps)) as [L|L]; [|reflexivity]. cbn. clear L R. revert ps.
  induction F as [|p l Hp F IH]; intros [|t ps]; try reflexivity. cbn. rewrite Hp. cbn. apply IH.
Qed.
(** a function whose hints are the very types asked for is accepted *)
Lemma passes_same sub t : subclassing sub -> modern t -> (exists k, named t k) -> passes sub t (Some t).
Proof. intros [R _] M (k & Hk). right. exists k. split; [exact Hk|]. apply (member_named sub k t M). exists k. split; [exact Hk|apply R]. Qed.
Theorem C99_exact_hints sub f ps r : subclassing sub -> Forall modern ps -> Forall (fun t => exists k, named t k) ps -> modern r -> (exists k, named r k) ->
  Forall2 (fun p t => p_hint p = None \/ p_hint p = Some t) (f_params f) ps -> f_ret f = None \/ f_ret f = Some r ->
  functoid_isinstance sub (OFun f) (SSig ps r) = Ok true.
Proof.
  intros C M N Mr Nr F R. destruct (functoid_exact sub f ps r) as (b & E & Hb).
  - clear - F M. revert M. induction F as [|p t l ps Hp F IH]; intros M; [constructor|]. inversion M; subst. constructor; [|apply IH; assumption]. destruct Hp as [-> | ->]; [exact Logic.I|assumption].
  - destruct R as [-> | ->]; [exact Logic.I|exact Mr].
  - exact M.
  - exact Mr.
  - rewrite E. f_equal. apply Hb. split; [destruct R as [-> | ->]; [right; exact Logic.I|apply passes_same; assumption]|].
    clear - F M N C. revert M N. induction F as [|p t l ps Hp F IH]; intros M N; [constructor|]. inversion M; inversion N; subst. constructor; [|apply IH; assumption]. destruct Hp as [-> | ->]; [right; exact Logic.I|apply passes_same; assumption].
Qed.
(** a wrong number of parameters is never accepted *)
Theorem C99_arity sub o ps r : functoid_isinstance sub o (SSig ps r) = Ok true -> exists f, o = OFun f /\ zlen (f_params f) = zlen ps.
Proof.
  destruct o as [f| | |]; try discriminate. intros H. exists f. split; [reflexivity|]. cbn in H. destruct (hint_matches sub (f_ret f) r) as [[]|]; try discriminate. cbn in H.
  destruct (Z.eqb_spec (zlen (f_params f)) (zlen ps)) as [L|L]; [exact L|discriminate].
Qed.
(** functools.partial objects and their like are refused with an exception *)
Theorem C99_objects_refuted sub ps r : functoid_isinstance sub OCallable (SSig ps r) = Err TypeError.
Proof. reflexivity. Qed.
Definition ito_par := Par (lit "ito") KPos (Some (TCls cIto)) false.
Definition desc_fun := Fun false false [ito_par] (Some (TCls cStr)).
Example C99_case : functoid_isinstance csub (OFun desc_fun) (SSig [TCls cIto] (TCls cStr)) = Ok true
  /\ functoid_isinstance csub (OFun desc_fun) (SSig [TCls cIto] (TCls cBool)) = Ok false
  /\ functoid_isinstance csub (OFun (Fun true false [Par (lit "x") KPos None false] None)) (SSig [TCls cIto] (TCls cBool)) = Ok true
  /\ functoid_isinstance csub (OFun (Fun true false [] None)) (SSig [TCls cIto] (TCls cBool)) = Ok false.
Proof. repeat split; reflexivity. Qed.

(** C100: a hinted function is accepted iff it serves.  This holds when the result hint is a single
    class and each parameter hint and the type asked for are single classes of which neither is a proper subclass of the other *)
Definition level_with (sub : pycls -> pycls -> bool) (t : ty) (h : option ty) : Prop :=
  single t /\ t <> TCls any_cls /\ hint_ok (fun t' => single t' /\ forall k k', named t k -> named t' k' -> sub k k' = sub k' k) h.
Theorem C100_serves_partial sub f ps r : subclassing sub -> modern r -> hint_ok single (f_ret f) ->
  (length (f_params f) = length ps -> Forall2 (fun p t => level_with sub t (p_hint p)) (f_params f) ps) ->
  (length (f_params f) <> length ps -> Forall (fun p => hint_ok modern (p_hint p)) (f_params f) /\ Forall modern ps) ->
  exists b, functoid_isinstance sub (OFun f) (SSig ps r) = Ok b /\ (b = true <-> serves sub f ps r).
Proof.
  intros C Mr Sr L L'.
  assert (M : Forall (fun p => hint_ok modern (p_hint p)) (f_params f) /\ Forall modern ps).
  { destruct (Nat.eq_dec (length (f_params f)) (length ps)) as [Q|Q]; [|exact (L' Q)]. specialize (L Q). clear - L. induction L as [|p t l ps H F IH]; [split; constructor|]. destruct IH as [IH1 IH2]. destruct H as (St & _ & H).
    split; constructor; try assumption; [|exact (single_modern t St)]. destruct (p_hint p) as [t'|]; [|exact Logic.I]. exact (single_modern t' (proj1 H)). }
  destruct M as [Mp Mps].
  assert (Mret : hint_ok modern (f_ret f)) by (destruct (f_ret f) as [t|]; [exact (single_modern t Sr)|exact Logic.I]).
  destruct (functoid_exact sub f ps r Mp Mret Mps Mr) as (b & E & Hb). exists b. split; [exact E|]. rewrite Hb. unfold serves.
  assert (R : passes sub r (f_ret f) <-> r = TCls any_cls \/ hint_ok (fun t => narrower sub t r) (f_ret f)).
  { unfold passes. destruct (f_ret f) as [t|]; cbn; [|tauto]. destruct (C98_issubclass_partial sub t r C Sr Mr) as (b1 & E1 & H1). destruct (issubclass_exact sub t r Mret Mr) as (b2 & E2 & H2).
    rewrite E1 in E2. injection E2 as <-. rewrite <- H1, <- H2. tauto. }
  rewrite R. assert (P : Forall2 (fun p t => passes sub t (p_hint p)) (f_params f) ps <-> Forall2 (fun p t => hint_ok (narrower sub t) (p_hint p)) (f_params f) ps); [|tauto].
  destruct (Nat.eq_dec (length (f_params f)) (length ps)) as [Q|Q].
  2: { split; intros F; exfalso; apply Q; clear - F; induction F; cbn; congruence. }
  specialize (L Q). clear - L C. induction L as [|p t l ps H F IH]; [split; constructor|].
  assert (HH : passes sub t (p_hint p) <-> hint_ok (narrower sub t) (p_hint p)).
  { destruct H as (St & Ha & H). unfold passes. destruct (p_hint p) as [t'|]; cbn in *; [|tauto]. destruct H as [St' H].
    destruct (single_named t St) as (k & Hk). destruct (single_named t' St') as (k' & Hk').
    assert (Q : sub k k' = sub k' k) by (apply H; [apply Hk|apply Hk']; reflexivity). split.
    - intros [Hx|(x & Hn & Hm)]; [congruence|]. apply Hk' in Hn. subst x. apply (member_named sub k' t (single_modern t St)) in Hm. destruct Hm as (x & Hn & S). apply Hk in Hn. subst x.
      intros c Hc. apply (member_named sub c t (single_modern t St)) in Hc. destruct Hc as (x & Hn & S'). apply Hk in Hn. subst x. apply (member_named sub c t' (single_modern t' St')). exists k'. split; [apply Hk'; reflexivity|]. apply (proj2 C c k k' S'). rewrite Q. exact S.
    - intros N. right. exists k'. split; [apply Hk'; reflexivity|]. apply (member_named sub k' t (single_modern t St)). exists k. split; [apply Hk; reflexivity|]. rewrite <- Q.
      assert (Hm : member sub k t') by (apply N; apply (member_named sub k t (single_modern t St)); exists k; split; [apply Hk; reflexivity|apply C]).
      apply (member_named sub k t' (single_modern t' St')) in Hm. destruct Hm as (x & Hn & S). apply Hk' in Hn. subst x. exact S. }
  split; intros G; inversion G; subst; constructor; (apply HH; assumption) || (apply IH; assumption).
Qed.
(** what it tells exactly: for each parameter, and the result, one alternative of the hint is a subclass of the type asked for *)
Theorem C100_exact sub f ps r : Forall (fun p => hint_ok modern (p_hint p)) (f_params f) -> hint_ok modern (f_ret f) -> Forall modern ps -> modern r ->
  exists b, functoid_isinstance sub (OFun f) (SSig ps r) = Ok b /\
    (b = true <-> Forall2 (fun p t => t = TCls any_cls \/ hint_ok (fun h => exists k, named h k /\ member sub k t) (p_hint p)) (f_params f) ps
                  /\ (r = TCls any_cls \/ hint_ok (fun h => exists k, named h k /\ member sub k r) (f_ret f))).
Proof. intros A B C D. destruct (functoid_exact sub f ps r A B C D) as (b & E & Hb). exists b. split; [exact E|]. rewrite Hb. unfold passes. tauto. Qed.
(** a function of a MyIto is taken for a function of Itos; a function of any object is refused; so is one hinted typing.Any *)
Theorem C100_refuted :
  let pred h := Fun false false [Par (lit "x") KPos (Some (TCls h)) false] (Some (TCls cBool)) in
  functoid_isinstance csub (OFun (pred cMyIto)) (SSig [TCls cIto] (TCls cBool)) = Ok true /\ ~ serves csub (pred cMyIto) [TCls cIto] (TCls cBool)
  /\ functoid_isinstance csub (OFun (pred cObject)) (SSig [TCls cIto] (TCls cBool)) = Ok false /\ serves csub (pred cObject) [TCls cIto] (TCls cBool)
  /\ functoid_isinstance csub (OFun (pred cAny)) (SSig [TCls cIto] (TCls cBool)) = Ok false
  /\ functoid_isinstance csub (OFun (Fun false false [ito_par] (Some (TOld [TCls cStr; TCls cNone])))) (SSig [TCls cIto] (TCls cStr)) = Err TypeError.
Proof.
  cbv zeta. split; [reflexivity|]. split.
  { intros [F _]. inversion F as [|? ? ? ? N _]; subst. cbn in N. assert (H : member csub cIto (TCls cMyIto)) by (apply N; constructor; reflexivity). inversion H; discriminate. }
  split; [reflexivity|]. split; [|split; reflexivity]. split.
  - constructor; [|constructor]. intros c _. constructor. unfold csub. lia.
  - right. intros c H. exact H.
Qed.
Example C100_case : subclassing csub /\ Forall2 (fun p t => level_with csub t (p_hint p)) (f_params desc_fun) [TCls cIto] /\ serves csub desc_fun [TCls cIto] (TUnion [TCls cStr; TCls cNone])
  /\ functoid_isinstance csub (OFun desc_fun) (SSig [TCls cIto] (TUnion [TCls cStr; TCls cNone])) = Ok true.
Proof.
  split; [exact csub_ok|]. split.
  - constructor; [|constructor]. split; [exact Logic.I|]. split; [discriminate|]. split; [exact Logic.I|]. intros k k' H H'. inversion H; inversion H'. reflexivity.
  - split; [|reflexivity]. split; [constructor; [intros c H; exact H|constructor]|]. right. intros c H. apply mem_union with (t := TCls cStr); [left; reflexivity|exact H].
Qed.

(** C101: invoke_func hands each parameter the first value not yet taken that suits it, no value twice, and leaves the
    rest to their defaults.  Missing: equal values; a positional parameter nothing suits before one that gets a value;
    star parameters; bound methods; functions not fully hinted. *)
Theorem C101_wired_partial {V} (E : penv V) f vals :
  f_lambda f = false -> f_self f = false -> f_ret f <> None -> star f = [] ->
  Forall typed (positional f) -> Forall typed (keyword_only f) -> NoDup (map p_name (positional f)) -> NoDup (map p_name (keyword_only f)) -> unequal E vals ->
  exists pa l1 pk l2, wired E (positional f) vals pa l1 /\ wired E (keyword_only f) l1 pk l2 /\ Permutation vals (map snd pa ++ map snd pk ++ l2) /\
    ((exists tl, positional f = map fst pa ++ tl) ->
     (exists a b, invoke_func E f vals = Ok (Call (a ++ b) []) /\ Forall2 (handed pa) (positional f) a /\ Forall2 (handed pk) (keyword_only f) b) \/
     (invoke_func E f vals = Err TypeError /\ exists p, In p (positional f ++ keyword_only f) /\ p_dflt p = false /\ forall v, ~ In (p, v) (pa ++ pk))).
Proof.
  intros Lf Sf Rf St Tp Tk Np Nk U.
  destruct (pair_exact E (positional f) vals Tp U) as (pa & l1 & Wa & U1 & Pa). destruct (pair_exact E (keyword_only f) l1 Tk U1) as (pk & l2 & Wk & U2 & Pk).
  exists pa, l1, pk, l2. split; [exact Wa|]. split; [exact Wk|]. split.
  { apply Permutation_trans with (1 := wired_perm E _ _ _ _ Wa). apply Permutation_app_head. exact (wired_perm E _ _ _ _ Wk). }
  intros (tl & Htl). assert (I : invoke_func E f vals = py_call f (map snd pa) pk).
  { unfold invoke_func. rewrite Lf. destruct (f_ret f) as [r|]; [|contradiction]. unfold spec_args. rewrite Sf. cbn [app]. fold (positional f). rewrite Pa. cbn [bind]. fold (keyword_only f). rewrite Pk. cbn [bind]. unfold star in St. rewrite St. destruct l2; reflexivity. }
  rewrite I. unfold py_call. fold (positional f). fold (keyword_only f). fold (star f).
  assert (DJ : forall p v, In p (keyword_only f) -> ~ In (p, v) pa).
  { intros p v Hp H. apply (wired_in E _ _ _ _ Wa) in H. destruct H as [H _]. unfold positional, keyword_only in *. apply filter_In in H. apply filter_In in Hp. destruct H as [_ H], Hp as [_ Hp]. unfold is_kind in *. destruct (p_kind p); discriminate. }
  assert (DJ' : forall p v, In p (positional f) -> ~ In (p, v) pk).
  { intros p v Hp H. apply (wired_in E _ _ _ _ Wk) in H. destruct H as [H _]. unfold positional, keyword_only in *. apply filter_In in H. apply filter_In in Hp. destruct H as [_ H], Hp as [_ Hp]. unfold is_kind in *. destruct (p_kind p); discriminate. }
  rewrite Htl in Np. destruct (bind_pos_exact pa tl Np) as [(a & Ea & Fa)|(Ea & p & Hp & Hd)]; rewrite <- Htl in *; rewrite Ea; cbn [bind].
  - destruct (bind_only_exact (keyword_only f) pk Nk (fun p v H => proj1 (wired_in E _ _ _ _ Wk p v H)) (keyword_only f) (fun p H => H)) as [(b & Eb & Fb)|(Eb & p & Hp & Hd & Hn)]; rewrite Eb; cbn [bind].
    + left. exists a, b. split; [reflexivity|]. split; assumption.
    + right. split; [reflexivity|]. exists p. split; [apply in_or_app; right; exact Hp|]. split; [exact Hd|]. intros v H. apply in_app_or in H. destruct H as [H|H]; [exact (DJ p v Hp H)|exact (Hn v H)].
  - right. split; [reflexivity|]. exists p. assert (Hpp : In p (positional f)) by (rewrite Htl; apply in_or_app; right; exact Hp). split; [apply in_or_app; left; exact Hpp|]. split; [exact Hd|].
    intros v H. apply in_app_or in H. destruct H as [H|H]; [|exact (DJ' p v Hpp H)].
    rewrite Htl in Np. clear - Np Hp H. rewrite map_app in Np. induction pa as [|[q w] pa IH]; [destruct H|]. cbn in Np. inversion Np as [|? ? Ni N']; subst. destruct H as [[= -> ->]|H]; [apply Ni, in_or_app; right; apply in_map; exact Hp|exact (IH N' H)].
Qed.
(** so every parameter is handed a value of its type *)
Theorem C101_typed_partial {V} (E : penv V) f vals a : 
  f_lambda f = false -> f_self f = false -> f_ret f <> None -> star f = [] ->
  Forall typed (positional f) -> Forall typed (keyword_only f) -> NoDup (map p_name (positional f)) -> NoDup (map p_name (keyword_only f)) -> unequal E vals ->
  (forall pa l1, wired E (positional f) vals pa l1 -> exists tl, positional f = map fst pa ++ tl) ->
  invoke_func E f vals = Ok a ->
  Forall2 (fun p nv => fst nv = p_name p /\ match snd nv with Some v => In v vals /\ suits E p v | None => p_dflt p = true end) (positional f ++ keyword_only f) (c_args a) /\ c_star a = [].
Proof.
  intros Lf Sf Rf St Tp Tk Np Nk U Pre I. destruct (C101_wired_partial E f vals Lf Sf Rf St Tp Tk Np Nk U) as (pa & l1 & pk & l2 & Wa & Wk & P & H).
  destruct (H (Pre pa l1 Wa)) as [(x & y & I' & Fa & Fb)|(I' & _)]; rewrite I in I'; [|discriminate]. injection I' as ->. clear I. cbn [c_args c_star]. split; [|reflexivity].
  apply Forall2_app.
  - clear - Fa Wa. assert (G : forall p v, In (p, v) pa -> In v vals /\ suits E p v) by (intros p v Hin; destruct (wired_in E _ _ _ _ Wa p v Hin) as (_ & A & B); split; assumption).
    revert G Fa. generalize (positional f). intros ps G F. induction F as [|p nv ps r [Hn Hv] F IH]; [constructor|]. constructor; [|exact IH]. split; [exact Hn|]. destruct (snd nv) as [v|]; [exact (G p v Hv)|exact (proj1 Hv)].
  - assert (G : forall p v, In (p, v) pk -> In v vals /\ suits E p v).
    { intros p v Hin. destruct (wired_in E _ _ _ _ Wk p v Hin) as (_ & A & B). split; [|exact A]. apply (Permutation_in v (Permutation_sym (wired_perm E _ _ _ _ Wa))). apply in_or_app. right. exact B. }
    revert G Fb. generalize (keyword_only f). intros ps G F. induction F as [|p nv ps r [Hn Hv] F IH]; [constructor|]. constructor; [|exact IH]. split; [exact Hn|]. destruct (snd nv) as [v|]; [exact (G p v Hv)|exact (proj1 Hv)].
Qed.
(** a lambda just gets the values in order *)
Theorem C101_lambda {V} (E : penv V) f (vals : list V) : f_lambda f = true -> Forall (fun p => p_kind p = KPos) (f_params f) -> length vals = length (f_params f) ->
  invoke_func E f vals = Ok (Call (map (fun pv => (p_name (fst pv), Some (snd pv))) (combine (f_params f) vals)) []).
Proof.
  intros Lf F L. unfold invoke_func, py_call. rewrite Lf.
  assert (Fk : forall k, k <> KPos -> filter (is_kind k) (f_params f) = []).
  { intros k Hk. induction F as [|p l Hp F IH]; [reflexivity|]. cbn. unfold is_kind at 1. rewrite Hp. clear L. assert (IH' : filter (is_kind k) l = []) by (clear - F Hk; induction F as [|p l Hp F IH]; [reflexivity|]; cbn; unfold is_kind at 1; rewrite Hp; destruct k; try contradiction; exact IH). destruct k; try contradiction; exact IH'. }
  assert (Fp : filter (is_kind KPos) (f_params f) = f_params f).
  { clear L Fk. induction F as [|p l Hp F IH]; [reflexivity|]. cbn [filter]. unfold is_kind at 1. rewrite Hp. f_equal. exact IH. }
  rewrite Fp, (Fk KArgs), (Fk KOnly) by discriminate.
  assert (B : bind_pos (f_params f) vals = Ok (map (fun pv => (p_name (fst pv), Some (snd pv))) (combine (f_params f) vals), [])).
  { clear Fk Fp F. revert vals L. induction (f_params f) as [|p ps IH]; intros [|v vs] L; try discriminate L; [reflexivity|]. cbn. rewrite IH by (cbn in L; lia). reflexivity. }
  rewrite B. cbn. rewrite app_nil_r. reflexivity.
Qed.
(** Values of the examples: 1, True, 'a', 2.5 -- with 1 == True *)
Inductive pv := VOne | VTrue | VStr | VFloat.
Definition penv_demo : penv pv := PEnv
  (fun a b => match a, b with VOne, VOne | VTrue, VTrue | VStr, VStr | VFloat, VFloat => true | _, _ => false end)
  (fun a b => match a, b with VOne, VOne | VTrue, VTrue | VStr, VStr | VFloat, VFloat | VOne, VTrue | VTrue, VOne => true | _, _ => false end)
  (fun a => match a with VOne => cInt | VTrue => cBool | VStr => cStr | VFloat => cFloat end) csub.
Definition par n c := Par (lit n) KPos (Some (TCls c)) false.
Definition opt n c := Par (lit n) KPos (Some (TCls c)) true.
(** def f(a: bool, b: int): invoke_func(f, 1, True) calls f(True, True): True twice, 1 lost *)
Theorem C101_equal_refuted : invoke_func penv_demo (Fun false false [par "a" cBool; par "b" cInt] (Some (TCls cNone))) [VOne; VTrue] = Ok (Call [(lit "a", Some VTrue); (lit "b", Some VTrue)] []).
Proof. reflexivity. Qed.
(** def f(a: int = 0, b: str = ''): invoke_func(f, 'a') calls f(a='a') *)
Theorem C101_shift_refuted : invoke_func penv_demo (Fun false false [opt "a" cInt; opt "b" cStr] (Some (TCls cNone))) [VStr] = Ok (Call [(lit "a", Some VStr); (lit "b", None)] []).
Proof. reflexivity. Qed.
(** def f(a: int, *rest: str): surplus values fail instead of going to rest; bound methods and functions without result hint fail, too *)
Theorem C101_star_refuted : invoke_func penv_demo (Fun false false [par "a" cInt; Par (lit "rest") KArgs (Some (TCls cStr)) false] (Some (TCls cNone))) [VOne; VStr] = Err TypeError
  /\ (forall {V} (E : penv V) f v vs, f_lambda f = false -> f_self f = true -> invoke_func E f (v :: vs) = Err KeyError)
  /\ (forall {V} (E : penv V) f vs, f_lambda f = false -> f_ret f = None -> invoke_func E f vs = Err KeyError).
Proof.
  split; [reflexivity|]. split; intros V E f.
  - intros v vs L S. unfold invoke_func. rewrite L. destruct (f_ret f); [|reflexivity]. unfold spec_args. rewrite S. reflexivity.
  - intros vs L R. unfold invoke_func. rewrite L, R. reflexivity.
Qed.
Definition kw_fun := Fun false false [par "a" cInt; opt "b" cStr; Par (lit "c") KOnly (Some (TCls cFloat)) true] (Some (TCls cNone)).
Example C101_case : unequal penv_demo [VStr; VFloat; VOne] /\ Forall typed (positional kw_fun) /\ Forall typed (keyword_only kw_fun) /\ NoDup (map p_name (positional kw_fun)) /\ NoDup (map p_name (keyword_only kw_fun))
  /\ wired penv_demo (positional kw_fun) [VStr; VFloat; VOne] [(par "a" cInt, VOne); (opt "b" cStr, VStr)] [VFloat]
  /\ invoke_func penv_demo kw_fun [VStr; VFloat; VOne] = Ok (Call [(lit "a", Some VOne); (lit "b", Some VStr); (lit "c", Some VFloat)] []).
Proof.
  split.
  { split; [intros []; reflexivity|]. intros a x b y c H.
    destruct a as [|a0 [|a1 [|a2 a]]]; destruct b as [|b0 [|b1 b]]; cbn in H; try discriminate H; injection H; intros; subst; try reflexivity;
    repeat match goal with H : [] = _ ++ _ :: _ |- _ => destruct (app_cons_not_nil _ _ _ H) | H : _ ++ _ :: _ = [] |- _ => symmetry in H; destruct (app_cons_not_nil _ _ _ H) end; try discriminate. }
  split; [repeat constructor; eexists; (split; [reflexivity|constructor])|]. split; [repeat constructor; eexists; (split; [reflexivity|constructor])|].
  split; [constructor; [cbn; intros [H|[]]; discriminate|constructor; [intros []|constructor]]|]. split; [constructor; [intros []|constructor]|]. split; [|reflexivity].
  assert (N : forall n k d c v, csub (v_type penv_demo v) c = false -> ~ suits penv_demo (Par n k (Some (TCls c)) d) v) by (intros n k d c v H (t & [= <-] & M); inversion M as [? Sb| | |]; subst; change (csub (v_type penv_demo v) c = true) in Sb; congruence).
  apply (w_take penv_demo (par "a" cInt) [opt "b" cStr] [VStr; VFloat] VOne []).
  - constructor; [apply N; reflexivity|constructor; [apply N; reflexivity|constructor]].
  - exists (TCls cInt). split; [reflexivity|constructor; reflexivity].
  - apply (w_take penv_demo (opt "b" cStr) [] [] VStr [VFloat]); [constructor|exists (TCls cStr); split; [reflexivity|constructor; reflexivity]|constructor].
Qed.
