(** Proofs about ontology discovery (C59). *)
From Verif Require Export OntoFacts.

Section Induction.
Lemma onto_rect_all (P : onto -> Prop) :
  (forall rs l, Forall (fun kv => P (snd kv)) l -> P (Onto rs l)) -> forall o, P o.
Proof.
  intros H. fix IH 1. intros [rs l]. apply H. induction l as [|[k v] l IHl]; constructor; [apply IH|exact IHl].
Qed.
Lemma disc_rect_all (P : disc -> Prop) :
  (forall is l, Forall (fun kv => P (snd kv)) l -> P (Disc is l)) -> forall o, P o.
Proof.
  intros H. fix IH 1. intros [rs l]. apply H. induction l as [|[k v] l IHl]; constructor; [apply IH|exact IHl].
Qed.
End Induction.

Lemma onto_ok_inv rs l : onto_ok (Onto rs l) <-> NoDup (map fst l) /\ Forall (fun kv => onto_ok (snd kv)) l.
Proof.
  cbn [onto_ok]. apply and_iff_compat_l. induction l as [|[k v] l IH]; cbn.
  - split; [constructor|auto].
  - rewrite IH. split; [intros [A B]; constructor; assumption|intros A; inversion A; auto].
Qed.
Lemma disc_ok_inv is l : disc_ok (Disc is l) <-> NoDup (map fst l) /\ Forall (fun kv => disc_ok (snd kv)) l.
Proof.
  cbn [disc_ok]. apply and_iff_compat_l. induction l as [|[k v] l IH]; cbn.
  - split; [constructor|auto].
  - rewrite IH. split; [intros [A B]; constructor; assumption|intros A; inversion A; auto].
Qed.

(** -- dicts -- *)
Lemma dict_set_fresh {K V} (eqb : K -> K -> bool) (l : list (K * V)) k v :
  (forall k', In k' (map fst l) -> eqb k' k = false) -> dict_set eqb l k v = l ++ [(k, v)].
Proof.
  induction l as [|[k0 v0] l IH]; cbn; intros H; [reflexivity|].
  rewrite (H k0 (or_introl eq_refl)). f_equal. apply IH. intros k' I. apply H. right. exact I.
Qed.
Lemma dict_update_fresh {K V} (eqb : K -> K -> bool) (Heq : forall x y, eqb x y = true <-> x = y) (e : list (K * V)) : forall d,
  NoDup (map fst d ++ map fst e) -> dict_update eqb d e = d ++ e.
Proof.
  unfold dict_update. induction e as [|[k v] e IH]; intros d N; cbn [fold_left]; [rewrite app_nil_r; reflexivity|].
  cbn [map fst snd] in *. pose proof (NoDup_remove_2 _ _ _ N) as F.
  rewrite dict_set_fresh.
  - rewrite IH, <- app_assoc; [reflexivity|]. rewrite map_app, <- app_assoc. exact N.
  - intros k' I. destruct (eqb k' k) eqn:E; [|reflexivity]. apply Heq in E. subst k'. destruct F. apply in_or_app. left. exact I.
Qed.
Lemma eqb_path_eq p : forall q, eqb_path p q = true <-> p = q.
Proof.
  induction p as [|x p IH]; intros [|y q]; cbn; try (split; [discriminate|discriminate]); [split; reflexivity|].
  rewrite andb_true_iff, eqb_str_eq, IH. split; [intros [-> ->]; reflexivity|intros [= -> ->]; split; reflexivity].
Qed.

(** -- running rules -- *)
Lemma run_calls_app a : forall b h,
  run_calls (a ++ b) h = obind (run_calls a h) (fun h1 la => obind (run_calls b h1) (fun h2 lb => (h2, Ok (la ++ lb)))).
Proof.
  induction a as [|[r i] a IH]; intros b h; cbn [app run_calls].
  - unfold obind; cbn [fst snd]. destruct (run_calls b h) as [h2 [l|e]]; reflexivity.
  - unfold obind in *. destruct (r i h) as [h1 [l|e]]; cbn [fst snd]; [|reflexivity].
    rewrite IH. destruct (run_calls a h1) as [h2 [l2|e]]; cbn [fst snd]; [|reflexivity].
    destruct (run_calls b h2) as [h3 [l3|e]]; cbn [fst snd]; [|reflexivity]. rewrite app_assoc. reflexivity.
Qed.
Lemma apply_rule_run r itos : forall rv h,
  apply_rule r itos rv h = obind (run_calls (map (fun i => (r, i)) itos) h) (fun h1 l => (h1, Ok (rv ++ l))).
Proof.
  induction itos as [|i t IH]; intros rv h; cbn [map apply_rule run_calls].
  - unfold obind; cbn [fst snd]. rewrite app_nil_r. reflexivity.
  - unfold obind in *. destruct (r i h) as [h1 [l|e]]; cbn [fst snd]; [|reflexivity].
    rewrite IH. destruct (run_calls _ h1) as [h2 [l2|e]]; cbn [fst snd]; [|reflexivity]. rewrite app_assoc. reflexivity.
Qed.
Lemma apply_rules_run rs itos : forall rv h,
  apply_rules rs itos rv h = obind (run_calls (list_prod rs itos) h) (fun h1 l => (h1, Ok (rv ++ l))).
Proof.
  induction rs as [|r t IH]; intros rv h; cbn [apply_rules list_prod].
  - cbn [run_calls]. unfold obind; cbn [fst snd]. rewrite app_nil_r. reflexivity.
  - rewrite run_calls_app, apply_rule_run. unfold obind in *.
    destruct (run_calls (map _ itos) h) as [h1 [l|e]]; cbn [fst snd]; [|reflexivity].
    rewrite IH. destruct (run_calls _ h1) as [h2 [l2|e]]; cbn [fst snd]; [|reflexivity]. rewrite app_assoc. reflexivity.
Qed.
Lemma run_nodes_app itos a : forall b h,
  run_nodes (a ++ b) itos h = obind (run_nodes a itos h) (fun h1 la => obind (run_nodes b itos h1) (fun h2 lb => (h2, Ok (la ++ lb)))).
Proof.
  induction a as [|rs a IH]; intros b h; cbn [app run_nodes].
  - unfold obind; cbn [fst snd]. destruct (run_nodes b itos h) as [h2 [l|e]]; reflexivity.
  - unfold obind in *. destruct (run_calls _ h) as [h1 [l|e]]; cbn [fst snd]; [|reflexivity].
    rewrite IH. destruct (run_nodes a itos h1) as [h2 [l2|e]]; cbn [fst snd]; [|reflexivity].
    destruct (run_nodes b itos h2) as [h3 [l3|e]]; cbn [fst snd]; reflexivity.
Qed.
Lemma run_nodes_len itos ns : forall h h' ls, run_nodes ns itos h = (h', Ok ls) -> length ls = length ns.
Proof.
  induction ns as [|rs ns IH]; cbn; intros h h' ls; [intros [= <- <-]; reflexivity|].
  unfold obind. destruct (run_calls _ h) as [h1 [l|e]]; cbn [fst snd]; [|discriminate].
  destruct (run_nodes ns itos h1) as [h2 [l2|e]] eqn:E; cbn [fst snd]; [|discriminate].
  intros [= <- <-]. cbn. f_equal. exact (IH _ _ _ E).
Qed.
Lemma onto_nodes_snd o : forall p q, map snd (onto_nodes p o) = map snd (onto_nodes q o).
Proof.
  induction o as [rs l IH] using onto_rect_all. intros p q. cbn [onto_nodes map snd]. f_equal.
  induction IH as [|[k v] l Hv _ IHl]; cbn [flat_map map]; [reflexivity|].
  rewrite !map_app. f_equal; [apply Hv|exact IHl].
Qed.
Lemma combine_app {A B} (a : list A) : forall (x : list B) b y, length a = length x -> combine (a ++ b) (x ++ y) = combine a x ++ combine b y.
Proof. induction a as [|u a IH]; intros [|v x] b y E; cbn in *; try discriminate; [reflexivity|]. f_equal. apply IH. lia. Qed.

Definition mirrors (o : onto) (ls : list (list nat)) (d : disc) : Prop :=
  disc_ok d /\ map fst (d_items d) = map fst (o_items o) /\ forall p, disc_nodes p d = combine (map fst (onto_nodes p o)) ls.
Definition discovers (itos : list nat) (o : onto) : Prop := onto_ok o -> forall h,
  match run_nodes (map snd (onto_nodes [] o)) itos h with
  | (h', Ok ls) => exists d, discover o itos h = (h', Ok d) /\ mirrors o ls d
  | (h', Err e) => discover o itos h = (h', Err e)
  end.

Lemma each_item_spec itos l :
  Forall (fun kv => discovers itos (snd kv)) l -> Forall (fun kv => onto_ok (snd kv)) l -> forall rv h,
  NoDup (map fst rv ++ map fst l) ->
  match run_nodes (map snd (flat_map (fun kv => onto_nodes ([] ++ [fst kv]) (snd kv)) l)) itos h with
  | (h', Ok ls) => exists dl, each_item (fun v => discover v itos) l rv h = (h', Ok (rv ++ dl)) /\ map fst dl = map fst l /\
      Forall (fun kv => disc_ok (snd kv)) dl /\
      forall p, flat_map (fun kv => disc_nodes (p ++ [fst kv]) (snd kv)) dl
                = combine (map fst (flat_map (fun kv => onto_nodes (p ++ [fst kv]) (snd kv)) l)) ls
  | (h', Err e) => each_item (fun v => discover v itos) l rv h = (h', Err e)
  end.
Proof.
  induction l as [|[k v] l IH]; intros HP HO rv h N.
  - cbn. exists []. rewrite app_nil_r. repeat split; constructor.
  - inversion_clear HP as [|? ? Pv Pl]. inversion_clear HO as [|? ? Ov Ol]. cbn [snd] in Pv, Ov.
    cbn [flat_map fst snd]. rewrite map_app, run_nodes_app. specialize (Pv Ov h).
    rewrite (onto_nodes_snd v _ []). cbn [each_item].
    destruct (run_nodes (map snd (onto_nodes [] v)) itos h) as [h1 [ls|e]] eqn:E1.
    + destruct Pv as (d & Ed & Dd & Kd & Nd). unfold obind at 1; cbn [fst snd].
      assert (F : dict_set eqb_str rv k d = rv ++ [(k, d)]).
      { apply dict_set_fresh. intros k' I. destruct (eqb_str k' k) eqn:Ek; [|reflexivity]. apply eqb_str_eq in Ek. subst k'.
        cbn [map fst] in N. pose proof (NoDup_remove_2 _ _ _ N) as X. destruct X. apply in_or_app. left. exact I. }
      assert (N' : NoDup (map fst (rv ++ [(k, d)]) ++ map fst l)).
      { rewrite map_app, <- app_assoc. exact N. }
      specialize (IH Pl Ol (rv ++ [(k, d)]) h1 N').
      destruct (run_nodes (map snd (flat_map _ l)) itos h1) as [h2 [ls2|e]] eqn:E2; unfold obind at 1; cbn [fst snd].
      * destruct IH as (dl & Edl & Kl & Dl & Nl). exists ((k, d) :: dl). rewrite Ed.
        unfold obind at 1; cbn [fst snd]. rewrite F. cbn [each_item] in Edl. rewrite Edl, <- app_assoc.
        split; [reflexivity|]. split; [cbn; rewrite Kl; reflexivity|]. split; [constructor; assumption|].
        intros p. cbn [flat_map fst snd]. rewrite Nd, Nl, map_app, combine_app; [reflexivity|].
        apply run_nodes_len in E1. rewrite E1, !map_length.
        rewrite <- (map_length snd), (onto_nodes_snd v _ []), map_length. reflexivity.
      * rewrite Ed. unfold obind; cbn [fst snd]. rewrite F. exact IH.
    + unfold obind at 1; cbn [fst snd]. rewrite Pv. reflexivity.
Qed.

Theorem discover_spec itos o : discovers itos o.
Proof.
  induction o as [rs l IH] using onto_rect_all. intros OK h. apply onto_ok_inv in OK. destruct OK as [N Ol].
  cbn [onto_nodes map snd run_nodes discover]. rewrite apply_rules_run.
  destruct (run_calls (list_prod rs itos) h) as [h1 [found|e]]; unfold obind; cbn [fst snd]; [|reflexivity].
  pose proof (each_item_spec itos l IH Ol [] h1 N) as S.
  destruct (run_nodes _ itos h1) as [h2 [ls|e]]; cbn [fst snd].
  - destruct S as (dl & E & K & D & Nd). cbn [app] in E |- *. rewrite E; cbn [fst snd].
    exists (Disc found dl). split; [reflexivity|]. split; [|split].
    + apply disc_ok_inv. split; [rewrite K; exact N|exact D].
    + exact K.
    + intros p. cbn [disc_nodes map combine fst]. rewrite Nd. reflexivity.
  - rewrite S. reflexivity.
Qed.

(** -- flatten -- *)
Lemma disc_nodes_path d : forall p q, In q (map fst (disc_nodes p d)) -> exists s, q = p ++ s.
Proof.
  induction d as [is l IH] using disc_rect_all. intros p q. cbn [disc_nodes map fst].
  intros [<-|I]; [exists []; rewrite app_nil_r; reflexivity|].
  apply in_map_iff in I. destruct I as ([q' x] & <- & I). cbn [fst]. apply in_flat_map in I. destruct I as ([k v] & Ikv & I).
  rewrite Forall_forall in IH. specialize (IH _ Ikv (p ++ [k]) q'). cbn [snd fst] in *.
  destruct IH as [s ->]; [apply in_map_iff; exists (q', x); auto|]. exists (k :: s). rewrite <- app_assoc. reflexivity.
Qed.
Definition under (p : list pystr) (ks : list pystr) (q : list pystr) : Prop := exists k s, In k ks /\ q = p ++ k :: s.
Lemma items_path p l q : In q (map fst (flat_map (fun kv => disc_nodes (p ++ [fst kv]) (snd kv)) l)) -> under p (map fst l) q.
Proof.
  intros I. apply in_map_iff in I. destruct I as ([q' x] & <- & I). cbn [fst]. apply in_flat_map in I. destruct I as ([k v] & Ikv & I).
  cbn [fst snd] in I. destruct (disc_nodes_path v (p ++ [k]) q') as [s ->]; [apply in_map_iff; exists (q', x); auto|].
  exists k, s. split; [apply in_map_iff; exists (k, v); auto|]. rewrite <- app_assoc. reflexivity.
Qed.
Lemma disc_nodes_nodup d : disc_ok d -> forall p, NoDup (map fst (disc_nodes p d)).
Proof.
  induction d as [is l IH] using disc_rect_all. intros OK p. apply disc_ok_inv in OK. destruct OK as [N D].
  cbn [disc_nodes map fst]. constructor.
  - intros I. apply items_path in I. destruct I as (k & s & _ & E). apply (f_equal (@length _)) in E.
    rewrite app_length in E. cbn in E. lia.
  - clear is. induction l as [|[k v] l IHl]; [constructor|]. cbn [flat_map fst snd]. rewrite map_app.
    inversion_clear IH as [|? ? Hv Hl]. inversion_clear D as [|? ? Dv Dl]. cbn [map fst] in N.
    inversion_clear N as [|? ? Nk Nl]. apply NoDup_app_intro.
    + exact (Hv Dv _).
    + exact (IHl Hl Nl Dl).
    + intros q I1 I2. apply disc_nodes_path in I1. destruct I1 as [s ->]. apply items_path in I2.
      destruct I2 as (k' & s' & Ik & E). rewrite <- app_assoc in E. apply app_inv_head in E. injection E as -> ->. contradiction.
Qed.
Definition keep (fe : bool) (x : list pystr * list nat) : bool := negb fe || negb (Nat.eqb (length (snd x)) 0).
Lemma filter_nodup_map {A B} (f : A -> B) (g : A -> bool) l : NoDup (map f l) -> NoDup (map f (filter g l)).
Proof.
  induction l as [|x l IH]; cbn; intros N; [constructor|]. inversion_clear N as [|? ? Nx Nl].
  destruct (g x); cbn; [constructor|]; auto. intros I. apply Nx. apply in_map_iff in I. destruct I as (y & <- & I).
  apply in_map. apply filter_In in I. apply I.
Qed.
Lemma nodup_app_left {A} (a b : list A) : NoDup (a ++ b) -> NoDup a.
Proof. induction a as [|x a IH]; cbn; intros N; [constructor|]. inversion_clear N as [|? ? Nx Nl]. constructor; [|auto]. intros I. apply Nx. apply in_or_app. auto. Qed.
Lemma flatten_nodes d : disc_ok d -> forall fe p, flatten_at d fe p = filter (keep fe) (disc_nodes p d).
Proof.
  induction d as [is l IH] using disc_rect_all. intros OK fe p. pose proof (disc_nodes_nodup _ OK p) as ND.
  apply disc_ok_inv in OK. destruct OK as [N D]. cbn [flatten_at disc_nodes].
  set (rv := match is with [] => if fe then [] else [(p, is)] | _ => [(p, is)] end).
  assert (R : filter (keep fe) [(p, is)] = rv).
  { unfold rv, keep. cbn. destruct is, fe; reflexivity. }
  change ((p, is) :: ?x) with ([(p, is)] ++ x). rewrite filter_app, R.
  cbn [disc_nodes] in ND. change ((p, is) :: ?x) with ([(p, is)] ++ x) in ND.
  assert (ND' : NoDup (map fst (rv ++ filter (keep fe) (flat_map (fun kv => disc_nodes (p ++ [fst kv]) (snd kv)) l)))).
  { rewrite <- R, <- filter_app. apply filter_nodup_map. exact ND. }
  clearbody rv. clear R ND. revert rv ND'. clear is N.
  induction l as [|[k v] l IHl]; intros rv ND'; cbn [each_key flat_map fst snd].
  - cbn. rewrite app_nil_r. reflexivity.
  - inversion_clear IH as [|? ? Hv Hl]. inversion_clear D as [|? ? Dv Dl]. cbn [fst snd] in *.
    rewrite (Hv Dv). cbn [flat_map fst snd] in ND'. rewrite filter_app, app_assoc in ND' |- *.
    rewrite dict_update_fresh.
    + exact (IHl Hl Dl _ ND').
    + exact eqb_path_eq.
    + rewrite !map_app in ND'. exact (nodup_app_left _ _ ND').
Qed.
Lemma keep_all l : filter (keep false) l = l.
Proof. induction l as [|x l IH]; cbn; [reflexivity|]. rewrite IH. reflexivity. Qed.
Lemma keep_concat fe l : concat (map snd (filter (keep fe) l)) = concat (map snd l).
Proof.
  induction l as [|[p is] l IH]; cbn [filter map concat]; [reflexivity|]. unfold keep at 1. cbn [snd].
  destruct fe; cbn [negb orb].
  - destruct is as [|i is]; cbn [length Nat.eqb negb map concat snd]; rewrite IH; reflexivity.
  - cbn [map concat snd]. rewrite IH. reflexivity.
Qed.
Lemma walk_nodes d : forall p, d_walk d = concat (map snd (disc_nodes p d)).
Proof.
  induction d as [is l IH] using disc_rect_all. intros p. cbn [d_walk disc_nodes map concat snd]. f_equal.
  induction IH as [|[k v] l Hv _ IHl]; cbn [flat_map]; [reflexivity|].
  rewrite map_app, concat_app. cbn [snd fst] in *. rewrite (Hv (p ++ [k])), IHl. reflexivity.
Qed.

(** -- lookup -- *)
Lemma dict_get_in {V} (l : list (pystr * V)) k v : NoDup (map fst l) -> (dict_get eqb_str l k = Some v <-> In (k, v) l).
Proof.
  induction l as [|[k' v'] l IH]; cbn; intros N; [split; [discriminate|intros []]|].
  inversion_clear N as [|? ? Nk Nl]. destruct (eqb_str k' k) eqn:E.
  - apply eqb_str_eq in E. subst k'. split; [intros [= ->]; auto|]. intros [[= ->]|I]; [reflexivity|].
    destruct Nk. apply in_map_iff. exists (k, v). auto.
  - rewrite (IH Nl). split; [auto|]. intros [[= <- <-]|I]; [|exact I].
    rewrite (proj2 (eqb_str_eq k' k') eq_refl) in E. discriminate.
Qed.
Lemma o_path_spec p : forall o w, onto_ok o -> (o_path o p = Ok w <-> below_at o p w).
Proof.
  induction p as [|k p IH]; intros [rs l] w OK.
  - cbn. split; [discriminate|intros B; inversion B].
  - apply onto_ok_inv in OK. destruct OK as [N D]. cbn [o_path]. unfold o_key. cbn [o_items].
    destruct (dict_get eqb_str l k) as [v|] eqn:G; cbn [bind].
    + apply (dict_get_in l k v N) in G. rewrite Forall_forall in D.
      assert (U : forall v', In (k, v') l -> v' = v).
      { intros v' I. apply (dict_get_in l k v' N) in I. apply (dict_get_in l k v N) in G. congruence. }
      destruct p as [|k' p].
      * split; [intros [= <-]; constructor; exact G|]. intros B. inversion B as [? ? ? ? I|? ? ? ? ? ? I B']; subst; [|inversion B'].
        rewrite (U _ I). reflexivity.
      * rewrite (IH v w (D _ G)). split; [intros B; econstructor; eauto|].
        intros B. inversion B as [|? ? ? v' ? ? I B']; subst. rewrite <- (U _ I). exact B'.
    + split; [discriminate|]. intros B.
      assert (exists v', In (k, v') l) as [v' I] by (inversion B; eauto).
      apply (dict_get_in l k v' N) in I. congruence.
Qed.
Lemma o_path_err p : forall o e, o_path o p = Err e -> e = KeyError.
Proof.
  induction p as [|k p IH]; intros o e; cbn [o_path]; [intros [= <-]; reflexivity|].
  unfold o_key. destruct (dict_get _ _ k) as [v|]; cbn [bind]; [|intros [= <-]; reflexivity].
  destruct p; [discriminate|]. apply IH.
Qed.

(** -- the statements of C59 -- *)
Theorem discover_full o itos h : onto_ok o ->
  match run_nodes (map snd (onto_nodes [] o)) itos h with
  | (h', Ok ls) => exists d, discover o itos h = (h', Ok d) /\ disc_ok d /\
      disc_nodes [] d = combine (map fst (onto_nodes [] o)) ls /\ length ls = length (onto_nodes [] o)
  | (h', Err e) => discover o itos h = (h', Err e)
  end.
Proof.
  intros OK. pose proof (discover_spec itos o OK h) as S. destruct (run_nodes _ itos h) as [h' [ls|e]] eqn:E; [|exact S].
  destruct S as (d & Ed & Dd & _ & Nd). exists d. split; [exact Ed|]. split; [exact Dd|]. split; [apply Nd|].
  apply run_nodes_len in E. rewrite E, map_length. reflexivity.
Qed.
Theorem flatten_full d : disc_ok d ->
  flatten d false = disc_nodes [] d /\
  flatten d true = filter (fun x => negb (Nat.eqb (length (snd x)) 0)) (disc_nodes [] d) /\
  NoDup (map fst (flatten d false)).
Proof.
  intros OK. unfold flatten. rewrite !(flatten_nodes d OK), keep_all. split; [reflexivity|]. split; [reflexivity|].
  exact (disc_nodes_nodup d OK []).
Qed.
Theorem walk_flatten d fe : disc_ok d -> d_walk d = concat (map snd (flatten d fe)).
Proof. intros OK. unfold flatten. rewrite (flatten_nodes d OK), keep_concat. apply walk_nodes. Qed.
Lemma run_calls_pure (cs : list (rule * nat)) (f : rule -> nat -> list nat) h :
  (forall r i, In (r, i) cs -> r i h = (h, Ok (f r i))) -> run_calls cs h = (h, Ok (flat_map (fun c => f (fst c) (snd c)) cs)).
Proof.
  induction cs as [|[r i] cs IH]; cbn [run_calls flat_map fst snd]; intros H; [reflexivity|].
  rewrite (H r i (or_introl eq_refl)). unfold obind; cbn [fst snd]. rewrite IH; [reflexivity|]. intros r' i' I. apply H. right. exact I.
Qed.
Lemma run_nodes_pure ns itos (f : rule -> nat -> list nat) h :
  (forall rs r i, In rs ns -> In r rs -> r i h = (h, Ok (f r i))) ->
  run_nodes ns itos h = (h, Ok (map (fun rs => flat_map (fun c => f (fst c) (snd c)) (list_prod rs itos)) ns)).
Proof.
  induction ns as [|rs ns IH]; cbn [run_nodes map]; intros H; [reflexivity|].
  rewrite (run_calls_pure _ f).
  - unfold obind; cbn [fst snd]. rewrite IH; [reflexivity|]. intros rs' r i I. apply H. right. exact I.
  - intros r i I. apply in_prod_iff in I. apply (H rs); [left; reflexivity|apply I].
Qed.
Lemma combine_map_both {A B C} (f : A -> B) (g : A -> C) l : combine (map f l) (map g l) = map (fun x => (f x, g x)) l.
Proof. induction l as [|x l IH]; cbn; [reflexivity|]. rewrite IH. reflexivity. Qed.
Theorem discover_pure o itos h (f : rule -> nat -> list nat) : onto_ok o ->
  (forall p rs r i, In (p, rs) (onto_nodes [] o) -> In r rs -> r i h = (h, Ok (f r i))) ->
  exists d, discover o itos h = (h, Ok d) /\ disc_ok d /\
    flatten d false = map (fun n => (fst n, flat_map (fun r => flat_map (f r) itos) (snd n))) (onto_nodes [] o).
Proof.
  intros OK H. pose proof (discover_full o itos h OK) as S. rewrite (run_nodes_pure _ itos f) in S.
  - destruct S as (d & Ed & Dd & Nd & _). exists d. split; [exact Ed|]. split; [exact Dd|].
    rewrite (proj1 (flatten_full d Dd)), Nd, map_map, combine_map_both. apply map_ext. intros [p rs]. cbn [fst snd]. f_equal.
    clear. induction rs as [|r rs IH]; cbn [list_prod flat_map]; [reflexivity|]. rewrite flat_map_app, IH. f_equal. clear IH.
    induction itos as [|i t IHt]; cbn; [reflexivity|]. rewrite IHt. reflexivity.
  - intros rs r i I. apply in_map_iff in I. destruct I as ([p rs'] & <- & I). apply (H p). exact I.
Qed.
Theorem lookup_full o p : onto_ok o ->
  (forall w, o_path o p = Ok w <-> below_at o p w) /\
  ((forall w, ~ below_at o p w) <-> o_path o p = Err KeyError).
Proof.
  intros OK. split; [intros w; apply o_path_spec; exact OK|]. split.
  - intros H. destruct (o_path o p) as [w|e] eqn:E.
    + apply (o_path_spec p o w OK) in E. destruct (H _ E).
    + rewrite (o_path_err _ _ _ E). reflexivity.
  - intros E w B. apply (o_path_spec p o w OK) in B. congruence.
Qed.
