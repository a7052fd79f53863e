(** Proofs: decoding any JSON document, continued (C126). *)
From Verif Require Import SpecDoc SpecRun SpecHier HeapFacts HeapFacts2 HeapFacts3 HeapFacts4 HierHeap7 JsonFacts2 QueryFacts17 QueryFacts18 JsonDocFacts Properties_Run.
From Coq Require Import Arith.

Definition val_ok (lo : nat) (g : heap) (o : out jv) : Prop :=
  match o with
  | (h, Ok v) => extends g h /\ hwf h /\ acyclic h /\ Forall (fun i => (lo <= i < length h)%nat) (itos_in v)
  | (h, Err e) => In e doc_errors /\ untouched g h
  end.
Definition dict_ok (lo hi : nat) (d : list (pystr * jv)) : Prop := Forall (fun i => (lo <= i < hi)%nat) (itos_in (VObj d)).
Lemma dict_get_ok lo hi d k v : dict_ok lo hi d -> dict_get d k = Some v -> Forall (fun i => (lo <= i < hi)%nat) (itos_in v).
Proof.
  intros D X. destruct (dict_get_in d k v X) as (k' & Y). unfold dict_ok in D. cbn [itos_in] in D. rewrite Forall_forall in *. intros i Hi. apply D. apply in_flat_map. exists (k', v). auto.
Qed.
Lemma dict_set_ok lo hi k v : forall d, dict_ok lo hi d -> Forall (fun i => (lo <= i < hi)%nat) (itos_in v) -> dict_ok lo hi (dict_set d k v).
Proof.
  unfold dict_ok. cbn [itos_in]. induction d as [|[k' v'] d IH]; intros D V; cbn [dict_set flat_map snd].
  - rewrite app_nil_r. exact V.
  - cbn [flat_map snd] in D. apply Forall_app in D. destruct D as [D1 D2]. destruct (eqb_str k' k); cbn [flat_map snd]; apply Forall_app; auto.
Qed.
Lemma range_mono lo hi hi' l : (hi <= hi')%nat -> Forall (fun i => (lo <= i < hi)%nat) l -> Forall (fun i => (lo <= i < hi')%nat) l.
Proof. intros L. apply Forall_impl. cbv beta. lia. Qed.
Lemma range_low lo lo' hi l : (lo <= lo')%nat -> Forall (fun i => (lo' <= i < hi)%nat) l -> Forall (fun i => (lo <= i < hi)%nat) l.
Proof. intros L. apply Forall_impl. cbv beta. lia. Qed.
Lemma find_errors e : may_raise no_env e -> In e doc_errors.
Proof.
  intros [X|[(n & X)|(d & k & p & ec & X & _)]].
  - unfold run_errors in X. cbn in X. destruct X as [<-|[<-|[<-|[]]]]; cbn; tauto.
  - cbn in X. injection X as <-. exact type_err.
  - discriminate.
Qed.
Lemma hook_ok E str lo h d : hwf h -> acyclic h -> (lo <= length h)%nat -> dict_ok lo (length h) d -> val_ok lo h (decoder_hook E str h d).
Proof.
  intros H Ha Lo D. unfold decoder_hook. destruct (is_ito_dict d).
  2:{ cbn. split; [apply extends_refl|]. split; [exact H|]. split; [exact Ha|exact D]. }
  unfold lift. unfold obind at 1. cbn [fst snd].
  match goal with |- context [match ?x with Ok a => _ | Err e => _ end] => assert (Hs : match x with Ok v => src_ok h v | Err e => e = ValueError end); [|destruct x as [src|e]] end.
  { destruct (dict_get d (lit "string")) as [v|] eqn:Eg.
    - pose proof (dict_get_ok lo (length h) d _ v D Eg) as F. destruct v as [| | | | | | |i]; cbn [src_ok]; try exact Logic.I; [destruct str; cbn; auto|].
      cbn [itos_in] in F. inversion F. lia.
    - destruct str; cbn; auto. }
  2:{ subst e. split; [exact value_err|apply untouched_refl]. }
  unfold obind at 1. cbn [fst snd]. unfold dict_item at 1. destruct (dict_get d (lit "ito")) as [o|] eqn:Eo; [|split; [exact key_err|apply untouched_refl]].
  pose proof (decode_dec (jv_size o) src h o (le_n _) H Ha Hs) as Dd. unfold obind at 1. destruct (decode_ito (jv_size o) src h o) as [h1 [rv|e]]; cbn [dec_ok fst snd] in *; [|exact Dd].
  destruct Dd as (X1 & W1 & A1 & B1 & N1).
  unfold obind at 1. cbn [fst snd]. unfold dict_item. destruct (dict_get d (lit "path")) as [p|]; [|split; [exact key_err|exact (proj2 X1)]].
  unfold obind at 1. cbn [fst snd]. destruct (jv_path h1 p) as [pt|e] eqn:Ep.
  2:{ assert (e = TypeError) by (destruct p; cbn in Ep; congruence). subst e. split; [exact type_err|exact (proj2 X1)]. }
  unfold obind. cbn [fst snd]. pose proof (C125_find E pt h1 no_env rv W1 A1 ltac:(lia)) as Fi. destruct (ito_find E h1 no_env rv pt) as [[j|]|e].
  - cbn. split; [exact X1|]. split; [exact W1|]. split; [exact A1|]. constructor; [|constructor]. destruct Fi as (Bj & r & [Nr Ri] & [_ Rj]).
    assert (Er : r = rv). { destruct Ri as [Ri|Ri]; [congruence|]. exfalso. exact (root_not_anc h1 r rv N1 Ri). } subst r.
    destruct Rj as [->|Rj]; [lia|]. pose proof (new_below h h1 rv j X1 H W1 ltac:(lia) Rj). lia.
  - cbn. split; [exact X1|]. split; [exact W1|]. split; [exact A1|]. constructor.
  - cbn. split; [exact (find_errors e Fi)|exact (proj2 X1)].
Qed.

Section DocInd.
  Variable P : doc -> Prop.
  Hypothesis Hnull : P DNull.
  Hypothesis Hbool : forall b, P (DBool b).
  Hypothesis Hint : forall z, P (DInt z).
  Hypothesis Hfloat : forall x, P (DFloat x).
  Hypothesis Hstr : forall s, P (DStr s).
  Hypothesis Harr : forall l, Forall P l -> P (DArr l).
  Hypothesis Hobj : forall l, Forall (fun kx => P (snd kx)) l -> P (DObj l).
  Fixpoint doc_ind' (d : doc) : P d :=
    match d with
    | DNull => Hnull | DBool b => Hbool b | DInt z => Hint z | DFloat x => Hfloat x | DStr s => Hstr s
    | DArr l => Harr l ((fix go l : Forall P l := match l with [] => Forall_nil _ | x :: r => Forall_cons x (doc_ind' x) (go r) end) l)
    | DObj l => Hobj l ((fix go l : Forall (fun kx => P (snd kx)) l := match l with [] => Forall_nil _ | x :: r => Forall_cons x (doc_ind' (snd x)) (go r) end) l)
    end.
End DocInd.
Definition load_all (hook : heap -> list (pystr * jv) -> out jv) : heap -> list doc -> out (list jv) :=
  fix go (h : heap) (l : list doc) : out (list jv) :=
    match l with
    | [] => (h, Ok [])
    | x :: r => obind (loads hook h x) (fun h1 v => obind (go h1 r) (fun h2 vs => (h2, Ok (v :: vs))))
    end.
Definition load_members (hook : heap -> list (pystr * jv) -> out jv) : heap -> list (pystr * jv) -> list (pystr * doc) -> out (list (pystr * jv)) :=
  fix go (h : heap) (acc : list (pystr * jv)) (l : list (pystr * doc)) : out (list (pystr * jv)) :=
    match l with
    | [] => (h, Ok acc)
    | (k, x) :: r => obind (loads hook h x) (fun h1 v => go h1 (dict_set acc k v) r)
    end.
Lemma loads_arr hook h l : loads hook h (DArr l) = obind (load_all hook h l) (fun h1 vs => (h1, Ok (VArr vs))).
Proof. reflexivity. Qed.
Lemma loads_obj hook h l : loads hook h (DObj l) = obind (load_members hook h [] l) (fun h1 kv => hook h1 kv).
Proof. reflexivity. Qed.

Theorem loads_ok E str : forall d h, hwf h -> acyclic h -> val_ok (length h) h (json_loads E str h d).
Proof.
  unfold json_loads. induction d as [|b|z|x|s|l IH|l IH] using doc_ind'; intros h H Ha;
    try (split; [apply extends_refl|split; [exact H|split; [exact Ha|constructor]]]).
  - rewrite loads_arr.
    assert (G : forall h, hwf h -> acyclic h -> match load_all (decoder_hook E str) h l with
              | (h', Ok vs) => extends h h' /\ hwf h' /\ acyclic h' /\ Forall (fun i => (length h <= i < length h')%nat) (flat_map itos_in vs)
              | (h', Err e) => In e doc_errors /\ untouched h h' end).
    { clear h H Ha. induction IH as [|x r Hx Hr IHr]; intros h H Ha.
      - cbn. split; [apply extends_refl|]. split; [exact H|]. split; [exact Ha|constructor].
      - cbn [load_all]. fold (load_all (decoder_hook E str)). specialize (Hx h H Ha). unfold obind at 1. destruct (loads (decoder_hook E str) h x) as [h1 [v|e]]; cbn [val_ok fst snd] in *; [|exact Hx].
        destruct Hx as (X1 & W1 & A1 & F1). specialize (IHr h1 W1 A1). unfold obind. destruct (load_all (decoder_hook E str) h1 r) as [h2 [vs|e]]; cbn [fst snd] in *.
        + destruct IHr as (X2 & W2 & A2 & F2). split; [exact (extends_trans h h1 h2 X1 X2)|]. split; [exact W2|]. split; [exact A2|]. cbn [flat_map]. apply Forall_app. pose proof X1 as [L1 _]. pose proof X2 as [L2 _].
          split; [exact (range_mono _ _ _ _ L2 F1)|exact (range_low _ _ _ _ L1 F2)].
        + destruct IHr as [R U]. split; [exact R|exact (extends_untouched h h1 h2 X1 U)]. }
    specialize (G h H Ha). unfold obind. destruct (load_all (decoder_hook E str) h l) as [h1 [vs|e]]; cbn [fst snd val_ok] in *; exact G.
  - rewrite loads_obj.
    assert (G : forall h0 h acc, (h0 <= length h)%nat -> hwf h -> acyclic h -> dict_ok h0 (length h) acc -> match load_members (decoder_hook E str) h acc l with
              | (h', Ok d) => extends h h' /\ hwf h' /\ acyclic h' /\ dict_ok h0 (length h') d
              | (h', Err e) => In e doc_errors /\ untouched h h' end).
    { clear h H Ha. induction IH as [|[k x] r Hx Hr IHr]; intros h0 h acc L0 H Ha D.
      - cbn. split; [apply extends_refl|]. split; [exact H|]. split; [exact Ha|exact D].
      - cbn [load_members]. fold (load_members (decoder_hook E str)). cbn [snd] in Hx. specialize (Hx h H Ha). unfold obind at 1. destruct (loads (decoder_hook E str) h x) as [h1 [v|e]]; cbn [val_ok fst snd] in *; [|exact Hx].
        destruct Hx as (X1 & W1 & A1 & F1). pose proof X1 as [L1 _]. specialize (IHr h0 h1 (dict_set acc k v) ltac:(lia) W1 A1).
        specialize (IHr (dict_set_ok h0 (length h1) k v acc (range_mono _ _ _ _ L1 D) (range_low _ _ _ _ L0 F1))).
        destruct (load_members (decoder_hook E str) h1 (dict_set acc k v) r) as [h2 [d|e]].
        + destruct IHr as (X2 & W2 & A2 & D2). split; [exact (extends_trans h h1 h2 X1 X2)|]. auto.
        + destruct IHr as [R U]. split; [exact R|exact (extends_untouched h h1 h2 X1 U)]. }
    specialize (G (length h) h [] (le_n _) H Ha ltac:(constructor)). unfold obind. destruct (load_members (decoder_hook E str) h [] l) as [h1 [d|e]]; cbn [fst snd]; [|exact G].
    destruct G as (X1 & W1 & A1 & D1). pose proof X1 as [L1 _]. pose proof (hook_ok E str (length h) h1 d W1 A1 L1 D1) as K.
    destruct (decoder_hook E str h1 d) as [h2 [v|e]]; cbn [val_ok] in *.
    + destruct K as (X2 & K). split; [exact (extends_trans h h1 h2 X1 X2)|exact K].
    + destruct K as [R U]. split; [exact R|exact (extends_untouched h h1 h2 X1 U)].
Qed.

(** ** documents without Itos *)
Lemma dict_set_get d k v k' : dict_get (dict_set d k v) k' = if eqb_str k k' then Some v else dict_get d k'.
Proof.
  induction d as [|[k0 v0] d IH]; cbn [dict_set dict_get].
  - reflexivity.
  - destruct (eqb_str k0 k) eqn:E1; cbn [dict_get].
    + apply eqb_str_eq in E1. subst k0. destruct (eqb_str k k'); reflexivity.
    + rewrite IH. destruct (eqb_str k0 k') eqn:E2; [|reflexivity]. apply eqb_str_eq in E2. subst k0. destruct (eqb_str k k') eqn:E3; [|reflexivity]. apply eqb_str_eq in E3. subst k. rewrite (proj2 (eqb_str_eq k' k') eq_refl) in E1. discriminate.
Qed.
Lemma fold_set_get : forall (l : list (pystr * jv)) acc k, dict_get (fold_left (fun acc kx => dict_set acc (fst kx) (snd kx)) l acc) k =
  match dict_get (rev l) k with Some v => Some v | None => dict_get acc k end.
Proof.
  induction l as [|[k0 v0] l IH] using rev_ind; intros acc k; [reflexivity|]. rewrite fold_left_app, rev_app_distr. cbn [fold_left rev app fst snd dict_get]. rewrite dict_set_get, IH. destruct (eqb_str k0 k); reflexivity.
Qed.
Lemma last_member l k s : dict_get (rev (map (fun kx => (fst kx, plain_value (snd kx))) l)) k = Some (VStr s) -> member_is k (DStr s) l.
Proof.
  induction l as [|[k0 x] l IH] using rev_ind; [discriminate|]. rewrite map_app, rev_app_distr. cbn [map rev app fst snd dict_get]. destruct (eqb_str k0 k) eqn:E.
  - intros [= X]. apply eqb_str_eq in E. subst k0. destruct x; cbn in X; try discriminate. injection X as ->. exact (member_last k (DStr s) l [] (fun X => X)).
  - intros X. destruct (IH X) as [a b N]. rewrite <- app_assoc. cbn [app]. constructor. rewrite map_app. cbn [map fst]. intros Y. apply in_app_or in Y. destruct Y as [Y|[Y|[]]]; [exact (N Y)|]. subst k0. rewrite (proj2 (eqb_str_eq k k) eq_refl) in E. discriminate.
Qed.
Theorem loads_plain E str : forall d h, no_itos d -> json_loads E str h d = (h, Ok (plain_value d)).
Proof.
  unfold json_loads. induction d as [|b|z|x|s|l IH|l IH] using doc_ind'; intros h N; try reflexivity.
  - rewrite loads_arr. assert (G : forall h, load_all (decoder_hook E str) h l = (h, Ok (map plain_value l))).
    { clear h. assert (Nl : forall x, In x l -> no_itos x) by (intros x Hx m Hm; apply N; exact (in_arr _ l x Hx Hm)). clear N. induction IH as [|x r Hx Hr IHr]; intros h; [reflexivity|].
      cbn [load_all]. fold (load_all (decoder_hook E str)). rewrite (Hx h (Nl x (or_introl eq_refl))). unfold obind. cbn [fst snd]. rewrite IHr by (intros y Hy; apply Nl; right; exact Hy). reflexivity. }
    rewrite G. reflexivity.
  - rewrite loads_obj. assert (G : forall h acc, load_members (decoder_hook E str) h acc l = (h, Ok (fold_left (fun acc kx => dict_set acc (fst kx) (snd kx)) (map (fun kx => (fst kx, plain_value (snd kx))) l) acc))).
    { clear h. assert (Nl : forall kx, In kx l -> no_itos (snd kx)) by (intros [k x] Hx m Hm; apply N; exact (in_obj _ l k x Hx Hm)). clear N. induction IH as [|[k x] r Hx Hr IHr]; intros h acc; [reflexivity|].
      cbn [load_members]. fold (load_members (decoder_hook E str)). cbn [snd] in Hx. rewrite (Hx h (Nl (k, x) (or_introl eq_refl))). unfold obind. cbn [fst snd]. rewrite IHr by (intros y Hy; apply Nl; right; exact Hy). reflexivity. }
    rewrite G. unfold obind. cbn [fst snd]. unfold decoder_hook. cbn [plain_value]. set (d := fold_left _ _ _).
    replace (is_ito_dict d) with false; [reflexivity|]. symmetry. unfold is_ito_dict.
    destruct (dict_get d (lit "__type__")) as [[| | | |t| | |]|] eqn:Et; try reflexivity. destruct (dict_get d (lit "__version__")) as [[| | | |v| | |]|] eqn:Ev; try reflexivity.
    destruct (eqb_str t js_type && eqb_str v js_version) eqn:Eb; [|reflexivity]. exfalso. apply andb_true_iff in Eb. destruct Eb as [B1 B2]. apply eqb_str_eq in B1, B2. subst t v.
    unfold d in Et, Ev. rewrite fold_set_get in Et, Ev. apply (N l (in_here _)). split; apply last_member.
    + destruct (dict_get (rev _) (lit "__type__")); [exact Et|discriminate].
    + destruct (dict_get (rev _) (lit "__version__")); [exact Ev|discriminate].
Qed.
