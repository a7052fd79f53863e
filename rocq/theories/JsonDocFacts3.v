(** Proofs: the decoder of arbitrary documents on what the encoder writes (C126). *)
From Verif Require Import SpecDoc Json HeapFacts4 JsonDocFacts JsonDocFacts2.
From Coq Require Import Arith.

Fixpoint val_of (j : json) : jv :=
  match j with
  | JNull => VNull
  | JInt z => VInt z
  | JStr s => VStr s
  | JArr l => VArr (map val_of l)
  | JObj l => VObj (map (fun kv => (fst kv, val_of (snd kv))) l)
  end.
Lemma obind_ok {A B} h (a : A) (f : heap -> A -> out B) : obind (h, Ok a) f = f h a. Proof. reflexivity. Qed.
Lemma map_res_forall {A B} (f : A -> res B) : forall l ys, map_res f l = Ok ys -> Forall2 (fun x y => f x = Ok y) l ys.
Proof.
  induction l as [|x l IH]; intros ys E; [injection E as <-; constructor|]. cbn [map_res] in E. fold (map_res f) in E. destruct (f x) as [y|e] eqn:Ex; [|discriminate]. cbn [bind] in E.
  destruct (map_res f l) as [ys'|e]; [|discriminate]. injection E as <-. constructor; [exact Ex|apply IH; reflexivity].
Qed.
Lemma map_out_same {A} (f g : heap -> A -> out nat) l : Forall (fun x => forall h, f h x = g h x) l -> forall h, map_out f h l = map_out g h l.
Proof.
  induction 1 as [|x l Hx Hl IH]; intros h; [reflexivity|]. cbn [map_out]. fold (map_out f) (map_out g). rewrite Hx. unfold obind at 1 3. destruct (g h x) as [h1 [c|e]]; cbn [fst snd]; [|reflexivity]. rewrite IH. reflexivity.
Qed.
Lemma map_out_map {A B} (f : heap -> B -> out nat) (e : A -> B) l : forall h, map_out f h (map e l) = map_out (fun h x => f h (e x)) h l.
Proof.
  induction l as [|x l IH]; intros h; [reflexivity|]. cbn [map map_out]. fold (map_out f) (map_out (fun h x => f h (e x))). unfold obind at 1 3. destruct (f h (e x)) as [h1 [c|y]]; cbn [fst snd]; [|reflexivity]. rewrite IH. reflexivity.
Qed.
(** the three members of an encoded Ito *)
Lemma encoder_form n full h i j : ito_encoder n full h i = Ok j ->
  exists a b d cs, j = JObj ([(lit "span", JArr [JInt a; JInt b]); (lit "desc", jdesc d)] ++ (if full then [(lit "children", JArr cs)] else [])) /\
    Forall (fun c => exists m k, n = S m /\ ito_encoder m full h k = Ok c) cs.
Proof.
  destruct n as [|n]; [discriminate|]. cbn [ito_encoder]. destruct full.
  - destruct (map_res (ito_encoder n true h) (n_kids (nd h i))) as [cs|e] eqn:Ec; [|discriminate]. cbn [bind]. intros [= <-]. do 3 eexists. exists cs. split; [reflexivity|].
    apply map_res_forall in Ec. clear - Ec. induction Ec as [|x y l ys E Ec IH]; constructor; [exists n, x; auto|exact IH].
  - intros [= <-]. do 3 eexists. exists []. split; [reflexivity|constructor].
Qed.
Lemma encoder_size : forall j, jv_size (val_of j) = jsize j.
Proof.
  fix IH 1. intros [|z|s|l|l]; cbn [val_of jv_size jsize]; try reflexivity.
  - f_equal. induction l as [|x l IHl]; [reflexivity|]. cbn [map]. change (list_sum (?a :: ?b)) with (a + list_sum b)%nat. rewrite (IH x), IHl. reflexivity.
  - f_equal. induction l as [|[k x] l IHl]; [reflexivity|]. cbn [map snd fst]. change (list_sum (?a :: ?b)) with (a + list_sum b)%nat. rewrite (IH x), IHl. reflexivity.
Qed.
Lemma hook_agrees full h s : forall n i j, ito_encoder n full h i = Ok j -> forall m g, ito_hook m s g j = decode_ito m (VStr s) g (val_of j).
Proof.
  induction n as [|n IH]; intros i j E; [discriminate|]. destruct (encoder_form _ _ _ _ _ E) as (a & b & d & cs & -> & F). clear E. intros [|m] g; [reflexivity|].
  assert (Fc : Forall (fun c => forall g, ito_hook m s g c = decode_ito m (VStr s) g (val_of c)) cs).
  { eapply Forall_impl; [|exact F]. cbv beta. intros c (m' & k & [= <-] & Ek) g'. exact (IH k c Ek m g'). }
  assert (L : forall (rest : list (pystr * json)), ito_hook (S m) s g (JObj ([(lit "span", JArr [JInt a; JInt b]); (lit "desc", jdesc d)] ++ rest)) =
    obind (new_str g s (Some a) (Some b) d) (fun h1 rv => match jassoc rest (lit "children") with
      | JNull => (h1, Ok rv)
      | JArr l => obind (map_out (ito_hook m s) h1 l) (fun h2 cs => obind (add_hier (hier_fuel h2) None h2 rv cs) (fun h3 _ => (h3, Ok rv)))
      | _ => (h1, Err TypeError) end)) by (intros rest; destruct d; reflexivity).
  rewrite L. clear L. destruct full.
  - transitivity (obind (new_str g s (Some a) (Some b) d) (fun h1 rv =>
      obind (map_out (decode_ito m (VStr s)) h1 (map val_of cs)) (fun h2 cs => obind (add_hier (hier_fuel h2) None h2 rv cs) (fun h3 _ => (h3, Ok rv))))).
    + unfold new_str, new_node. rewrite !obind_ok. change (jassoc [(lit "children", JArr cs)] (lit "children")) with (JArr cs). cbv iota. rewrite map_out_map. rewrite (map_out_same _ _ cs Fc). reflexivity.
    + destruct d; reflexivity.
  - destruct d; reflexivity.
Qed.
Lemma load_all_map hook l : Forall (fun j => forall g, loads hook g (doc_of j) = (g, Ok (val_of j))) l -> forall g, load_all hook g (map doc_of l) = (g, Ok (map val_of l)).
Proof.
  induction 1 as [|x l Hx Hl IH]; intros g; [reflexivity|]. cbn [map load_all]. fold (load_all hook). rewrite Hx, obind_ok, IH. reflexivity.
Qed.
Lemma load_encoded E str full h : forall n i j, ito_encoder n full h i = Ok j -> forall g, loads (decoder_hook E str) g (doc_of j) = (g, Ok (val_of j)).
Proof.
  induction n as [|n IH]; intros i j Ej; [discriminate|]. destruct (encoder_form _ _ _ _ _ Ej) as (a & b & d & cs & -> & F). clear Ej. intros g.
  assert (Fc : Forall (fun c => forall g, loads (decoder_hook E str) g (doc_of c) = (g, Ok (val_of c))) cs).
  { eapply Forall_impl; [|exact F]. cbv beta. intros c (m' & k & [= <-] & Ek) g'. exact (IH k c Ek g'). }
  assert (Hd : loads (decoder_hook E str) g (doc_of (jdesc d)) = (g, Ok (val_of (jdesc d)))) by (destruct d; reflexivity).
  cbn [doc_of]. rewrite loads_obj. destruct full; cbn [app map fst snd].
  - cbn [load_members doc_of map]. fold (load_members (decoder_hook E str)).
    change (loads (decoder_hook E str) g (DArr [DInt a; DInt b])) with (g, Ok (VArr [VInt a; VInt b]) : res jv). rewrite obind_ok, Hd, obind_ok. rewrite loads_arr, (load_all_map _ cs Fc), !obind_ok. destruct d; reflexivity.
  - cbn [load_members doc_of map]. fold (load_members (decoder_hook E str)).
    change (loads (decoder_hook E str) g (DArr [DInt a; DInt b])) with (g, Ok (VArr [VInt a; VInt b]) : res jv). rewrite obind_ok, Hd, !obind_ok. destruct d; reflexivity.
Qed.
(** what is written is read in the same way *)
Theorem loads_encoded E stringless full h i j str g : json_encode E stringless full h i = Ok j ->
  json_loads E str g (doc_of j) =
  match json_hook E str g j with
  | (g', Ok (HIto r)) => (g', Ok (found_value r))
  | (g', Ok (HObj _)) => (g', Ok (val_of j))
  | (g', Err e) => (g', Err e)
  end.
Proof.
  unfold json_encode. destruct (if full then _ else _) as [[b p]|e]; cbn [bind fst snd]; [|discriminate]. destruct b as [b|]; [|discriminate].
  destruct (ito_encoder (depth_fuel h) full h b) as [o|e] eqn:Eo; cbn [bind]; [|discriminate]. intros [= <-].
  pose proof (load_encoded E str full h _ _ _ Eo) as Lo. pose proof (fun s m g => hook_agrees full h s _ _ _ Eo m g) as Ho. pose proof (encoder_size o) as So.
  unfold json_loads. cbn [doc_of]. rewrite loads_obj. destruct stringless; cbn [app map fst snd doc_of].
  - cbn [load_members]. fold (load_members (decoder_hook E str)). cbn [loads]. rewrite !obind_ok. cbn [load_members]. rewrite Lo, !obind_ok.
    set (D := dict_set _ _ _). assert (ED : D = [(lit "__type__", VStr js_type); (lit "__version__", VStr js_version); (lit "path", VStr p); (lit "ito", val_of o)]) by reflexivity. rewrite ED. clear D ED.
    unfold decoder_hook. change (is_ito_dict _) with true. cbv iota. unfold json_hook.
    change (jget _ (lit "__type__")) with (JStr js_type). change (jget _ (lit "__version__")) with (JStr js_version). change (eqb_str js_type js_type && eqb_str js_version js_version) with true. cbv iota.
    change (jget _ (lit "string")) with JNull. change (dict_get _ (lit "string")) with (@None jv). cbv iota. destruct str as [s|]; [|reflexivity]. unfold lift. rewrite obind_ok.
    change (dict_item _ (lit "ito")) with (Ok (val_of o)). rewrite obind_ok. change (jget _ (lit "ito")) with o. rewrite So, Ho.
    change (jget _ (lit "path")) with (JStr p). destruct (decode_ito (jsize o) (VStr s) g (val_of o)) as [g1 [rv|e]]; [|reflexivity]. rewrite !obind_ok. change (dict_item _ (lit "path")) with (Ok (VStr p)). rewrite obind_ok. cbn [jv_path]. rewrite obind_ok.
    destruct (ito_find E g1 no_env rv p) as [r|e]; reflexivity.
  - cbn [load_members]. fold (load_members (decoder_hook E str)). cbn [loads]. rewrite !obind_ok. cbn [load_members]. rewrite Lo, !obind_ok.
    set (s := h_string h i).
    set (D := dict_set _ _ _). assert (ED : D = [(lit "__type__", VStr js_type); (lit "__version__", VStr js_version); (lit "string", VStr s); (lit "path", VStr p); (lit "ito", val_of o)]) by reflexivity. rewrite ED. clear D ED.
    unfold decoder_hook. change (is_ito_dict _) with true. cbv iota. unfold json_hook.
    change (jget _ (lit "__type__")) with (JStr js_type). change (jget _ (lit "__version__")) with (JStr js_version). change (eqb_str js_type js_type && eqb_str js_version js_version) with true. cbv iota.
    change (jget _ (lit "string")) with (JStr s). change (dict_get _ (lit "string")) with (Some (VStr s)). cbv iota. unfold lift. rewrite obind_ok.
    change (dict_item _ (lit "ito")) with (Ok (val_of o)). rewrite obind_ok. change (jget _ (lit "ito")) with o. rewrite So, Ho.
    change (jget _ (lit "path")) with (JStr p). destruct (decode_ito (jsize o) (VStr s) g (val_of o)) as [g1 [rv|e]]; [|reflexivity]. rewrite !obind_ok. change (dict_item _ (lit "path")) with (Ok (VStr p)). rewrite obind_ok. cbn [jv_path]. rewrite obind_ok.
    destruct (ito_find E g1 no_env rv p) as [r|e]; reflexivity.
Qed.
