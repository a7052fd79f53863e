(** Results of a phrase; negation; composition of queries. *)
From Verif Require Export AxisFacts3 QueryFacts11.

Fixpoint leaves {A} (e : expr A) : list A :=
  match e with EAtom a => [a] | ENot e => leaves e | EAnd e1 e2 | EXor e1 e2 | EOr e1 e2 => leaves e1 ++ leaves e2 end.
Lemma renders_leaves {A} n k (e : expr A) l : renders n k e l -> leaves e = atoms l.
Proof.
  induction 1; cbn [leaves atoms]; rewrite ?atoms_app; cbn [atoms]; rewrite ?IHrenders, ?IHrenders1, ?IHrenders2, ?app_nil_r; try reflexivity.
Qed.
Lemma atoms_despace {A} (l : list (item A)) : atoms (despace l) = atoms l.
Proof. induction l as [|[c|a] l IH]; [reflexivity| |]; unfold despace in *; cbn; [destruct (c =? 32); cbn|f_equal]; exact IH. Qed.
Lemma writes_leaves {A} (e : expr A) l : writes e l -> leaves e = atoms l.
Proof. intros (k & R). rewrite (renders_leaves _ _ _ _ R). apply atoms_despace. Qed.
Lemma outcome_leaves {A} (v : A -> res bool) (b : A -> bool) e : (forall a, In a (leaves e) -> v a = Ok (b a)) -> outcome v e = Ok (truth b e).
Proof.
  induction e as [a|e IH|e1 IH1 e2 IH2|e1 IH1 e2 IH2|e1 IH1 e2 IH2]; cbn [leaves outcome truth]; intros H.
  - apply H. left. reflexivity.
  - rewrite (IH H). reflexivity.
  - rewrite IH1 by (intros; apply H, in_or_app; auto). cbn [bind]. rewrite IH2 by (intros; apply H, in_or_app; auto). reflexivity.
  - rewrite IH1 by (intros; apply H, in_or_app; auto). cbn [bind]. rewrite IH2 by (intros; apply H, in_or_app; auto). reflexivity.
  - rewrite IH1 by (intros; apply H, in_or_app; auto). cbn [bind]. rewrite IH2 by (intros; apply H, in_or_app; auto). reflexivity.
Qed.
Lemma part_leaves v b e L : part e L -> (forall g, In g (atoms L) -> v g = Ok (b g)) -> part_value v e = Ok (part_truth b e).
Proof. destruct e as [e|]; [|reflexivity]. cbn [part part_value part_truth]. intros W H. apply outcome_leaves. rewrite (writes_leaves e L W). exact H. Qed.

Lemma filter_list_ok {A} (f : A -> res bool) b l : (forall x, In x l -> f x = Ok (b x)) -> filter_list f l None = (filter b l, None).
Proof.
  induction l as [|x l IH]; intros H; [reflexivity|]. cbn [filter_list filter]. rewrite (H x (or_introl eq_refl)). rewrite IH by (intros y Hy; apply H; right; exact Hy). destruct (b x); reflexivity.
Qed.
Lemma phrase_find_ok p h r g ys b : axis_find h (ph_axis p) g = (ys, None) -> (forall ec, In ec ys -> phrase_test p h r ec = Ok (b ec)) ->
  phrase_find p h r g = (map snd (filter b ys), None).
Proof. intros H1 H2. unfold phrase_find, g_filter. rewrite H1. cbn [fst snd]. rewrite (filter_list_ok _ b ys H2). reflexivity. Qed.

Lemma find_filters E h r i a w e1 L1 ys b1 : plain_delims E -> axis_text a w -> axis_ends (text_of L1) -> part e1 L1 -> (forall g, In g (atoms L1) -> filter_group E g) ->
  no_brace (text_of L1) -> single_phrase (w ++ text_of L1) -> fst (after false 0 (text_of L1)) = false -> printable E (w ++ text_of L1) -> axis_find h a ([i], None) = (ys, None) ->
  (forall g ec, In g (atoms L1) -> In ec ys -> filter_value E h r ec g = Ok (b1 ec g)) ->
  ito_find_all E h r i (w ++ text_of L1) = (map snd (filter (fun ec => part_truth (b1 ec) e1) ys), None).
Proof.
  intros HE HA HT P A NB SP NE PR AX V. destruct (phrase_plain E (parse_query E) a w e1 L1 HE HA HT P A NB NE) as (f & F1 & F2).
  unfold ito_find_all. rewrite (parse_single E _ PR SP), F1. cbn [bind query_find_all fold_left]. apply phrase_find_ok; [exact AX|]. intros ec Hec. unfold phrase_test. cbn [ph_filter ph_sub].
  rewrite F2, (part_leaves _ (b1 ec) e1 L1 P) by (intros g Hg; exact (V g ec Hg Hec)). cbn [bind]. unfold tautology. destruct (part_truth (b1 ec) e1); reflexivity.
Qed.
Lemma find_filters_subs E h r i a w e1 L1 e2 L2 ys b1 b2 : plain_delims E -> axis_text a w -> axis_ends (text_of L1 ++ text_of L2) ->
  part e1 L1 -> (forall g, In g (atoms L1) -> filter_group E g) -> no_brace (text_of L1) -> fst (after false 0 (text_of L1)) = false -> ends_with_group L1 ->
  writes e2 L2 -> (forall g, In g (atoms L2) -> sub_group (parse_query E) g) ->
  single_phrase (w ++ text_of L1 ++ text_of L2) -> printable E (w ++ text_of L1 ++ text_of L2) -> axis_find h a ([i], None) = (ys, None) ->
  (forall g ec, In g (atoms L1) -> In ec ys -> filter_value E h r ec g = Ok (b1 ec g)) ->
  (forall g ec, In g (atoms L2) -> In ec ys -> sub_value E h r ec g = Ok (b2 ec g)) ->
  ito_find_all E h r i (w ++ text_of L1 ++ text_of L2) = (map snd (filter (fun ec => part_truth (b1 ec) e1 && truth (b2 ec) e2) ys), None).
Proof.
  intros HE HA HT P A NB NE EG W2 A2 SP PR AX V1 V2. destruct (phrase_sub E (parse_query E) a w e1 L1 e2 L2 HE HA HT P A NB NE EG W2 A2) as (f & s & F1 & F2 & F3).
  unfold ito_find_all. rewrite (parse_single E _ PR SP), F1. cbn [bind query_find_all fold_left]. apply phrase_find_ok; [exact AX|]. intros ec Hec. unfold phrase_test. cbn [ph_filter ph_sub].
  rewrite F2, (part_leaves _ (b1 ec) e1 L1 P) by (intros g Hg; exact (V1 g ec Hg Hec)). cbn [bind]. destruct (part_truth (b1 ec) e1); [|reflexivity]. cbn [andb].
  rewrite F3. apply outcome_leaves. rewrite (writes_leaves e2 L2 W2). intros g Hg. specialize (V2 g ec Hg Hec). unfold sub_value, ito_find in V2. unfold sub_func. destruct (parse_query E (inside g)); exact V2.
Qed.

(** -- negation -- *)
Lemma not_all_any {A} (f : A -> res bool) l e : all_list (fun x => not_if true (f x)) l e = not_if true (any_list f l e).
Proof. induction l as [|x l IH]; cbn [all_list any_list]; [destruct e; reflexivity|]. unfold not_if at 1. destruct (f x) as [b|x']; cbn [bind]; [|reflexivity]. destruct b; [reflexivity|exact IH]. Qed.
Lemma any_or_none_not {A} (f : A -> res bool) g : any_or_none true f g = not_if true (any_or_none false f g).
Proof. unfold any_or_none, g_all, g_any. apply not_all_any. Qed.
Lemma filter_key_pred key : filter_key key = Some KPred -> is_pred key = true.
Proof.
  unfold filter_key, filter_keys, is_pred. cbn [find snd].
  destruct (mem_str key [lit "desc"; lit "d"]); [discriminate|]. destruct (mem_str key [lit "string"; lit "s"]); [discriminate|].
  destruct (mem_str key [lit "str-casefold"; lit "scf"; lit "lcs"]); [discriminate|]. destruct (mem_str key [lit "str-casefold-ew"; lit "scfew"; lit "lcsew"]); [discriminate|].
  destruct (mem_str key [lit "str-casefold-sw"; lit "scfsw"; lit "lcssw"]); [discriminate|]. destruct (mem_str key [lit "str-ew"; lit "sew"]); [discriminate|].
  destruct (mem_str key [lit "str-sw"; lit "ssw"]); [discriminate|]. destruct (mem_str key [lit "index"; lit "i"]); [discriminate|].
  destruct (mem_str key [lit "predicate"; lit "p"]); [reflexivity|]. destruct (mem_str key [lit "value"; lit "v"]); discriminate.
Qed.
Lemma filter_func_not E key v : is_pred key = false ->
  match filter_func E false key v, filter_func E true key v with
  | Ok f, Ok f' => forall h r ec, f' h r ec = do b <- f h r ec; Ok (negb b)
  | Err x, Err y => x = y
  | _, _ => False
  end.
Proof.
  intros NP. unfold filter_func. destruct (filter_key key) as [[]|] eqn:EK; try reflexivity.
  - intros h r ec. destruct (descaped v); reflexivity.
  - intros h r ec. destruct (descaped v); reflexivity.
  - intros h r ec. destruct (g_map _ _); reflexivity.
  - intros h r ec. apply any_or_none_not.
  - intros h r ec. apply any_or_none_not.
  - intros h r ec. apply any_or_none_not.
  - intros h r ec. apply any_or_none_not.
  - destruct (map_list (index_range E) _ None); cbn [bind]; reflexivity.
  - apply filter_key_pred in EK. congruence.
  - destruct (descaped v); cbn [bind]; [|reflexivity]. intros h r ec. destruct (rv_value r (snd ec)); cbn [bind]; [|reflexivity]. destruct (validate (rv_values r)); reflexivity.
Qed.
(** the key of a written filter *)
Lemma parse_filter_not E t : hd 0 t <> 126 -> parse_filter E (91 :: 126 :: t) = match parse_filter E (91 :: t) with Some (_, k, v) => Some (true, k, v) | None => None end /\
  match parse_filter E (91 :: t) with Some (n, _, _) => n = false | None => True end.
Proof.
  intros H. destruct t as [|x t]; [split; reflexivity|]. cbn [hd] in H. unfold parse_filter. cbn [Z.eqb Pos.eqb negb].
  change (last (126 :: x :: t) 0) with (last (x :: t) 0). destruct (negb (last (x :: t) 0 =? 93)); [split; [reflexivity|exact I]|].
  change (removelast (126 :: x :: t)) with (126 :: removelast (x :: t)). cbn [Z.eqb Pos.eqb c_not].
  assert (B : (match removelast (x :: t) with [] => (false, []) | x0 :: b => if x0 =? 126 then (true, b) else (false, removelast (x :: t)) end) = (false, removelast (x :: t))).
  { destruct (removelast (x :: t)) as [|y b] eqn:EB; [reflexivity|]. destruct t as [|t0 t]; [discriminate|]. change (x :: removelast (t0 :: t) = y :: b) in EB. injection EB as <- _. replace (x =? 126) with false by (symmetry; apply Z.eqb_neq; exact H). reflexivity. }
  change c_not with 126. rewrite B. cbn [Z.eqb Pos.eqb]. destruct (take_while key_char (removelast (x :: t))); [split; [reflexivity|exact I]|].
  destruct (drop_while key_char (removelast (x :: t))) as [|z1 rest]; [split; [reflexivity|exact I]|]. destruct (negb (z1 =? 58)); [split; [reflexivity|exact I]|].
  destruct (drop_while (re_space E) rest); [|split; reflexivity]. destruct rest; split; reflexivity.
Qed.
Lemma one_filter_not E t : hd 0 t <> 126 -> (forall k, written_key E t = Some k -> is_pred k = false) ->
  match one_filter E (91 :: t), one_filter E (91 :: 126 :: t) with
  | Ok f, Ok f' => forall h r ec, f' h r ec = do b <- f h r ec; Ok (negb b)
  | Err x, Err y => x = y
  | _, _ => False
  end.
Proof.
  intros H K. unfold one_filter. destruct (parse_filter_not E t H) as [E1 E2]. rewrite E1. unfold written_key in K. destruct (parse_filter E (91 :: t)) as [[[n k] v]|]; [|reflexivity]. subst n. apply filter_func_not. apply K. reflexivity.
Qed.
(** predicates: exactly one of the keys is in the dictionary *)
Lemma pred_not E key v keys f f' : is_pred key = true -> filter_key key = Some KPred -> descaped v = Ok keys -> filter_func E false key v = Ok f -> filter_func E true key v = Ok f' ->
  forall h r ec d p, rv_preds r = Some d -> selected d keys = [p] -> f' h r ec = do b <- f h r ec; Ok (negb b).
Proof.
  intros _ EK ED. unfold filter_func. rewrite EK, ED. cbn [bind]. intros [= <-] [= <-] h r ec d p ER ES. rewrite ER. cbn [validate bind]. rewrite ES. unfold g_all. cbn [fst snd all_list].
  unfold not_if. destruct (p ec) as [b|]; cbn [bind]; [|reflexivity]. destruct b; reflexivity.
Qed.

Lemma run_app a b h r g : run_from (a ++ b) h r g = run_from b h r (run_from a h r g).
Proof. apply fold_left_app. Qed.
Lemma gflat_app {A B} (l m : list A) (f : A -> gen B) e : gflat (l ++ m) f e = match gflat l f None with (ys, None) => let (zs, e') := gflat m f e in (ys ++ zs, e') | (ys, Some x) => (ys, Some x) end.
Proof.
  induction l as [|x l IH]; cbn [app gflat]; [destruct (gflat m f e); reflexivity|]. destruct (f x) as [ys [ex|]]; [reflexivity|]. rewrite IH.
  destruct (gflat l f None) as [zs [ex|]]; [reflexivity|]. destruct (gflat m f e) as [us e']. rewrite app_assoc. reflexivity.
Qed.
Lemma gflat_err {A B} (f : A -> gen B) l e : gflat l f e = match gflat l f None with (ys, None) => (ys, e) | g => g end.
Proof. induction l as [|x l IH]; cbn [gflat]; [reflexivity|]. destruct (f x) as [ys [ex|]]; [reflexivity|]. rewrite IH. destruct (gflat l f None) as [zs [ex|]]; reflexivity. Qed.
Lemma gbind_assoc {A B C} (g : gen A) (f : A -> gen B) (k : B -> gen C) : gbind (gbind g f) k = gbind g (fun x => gbind (f x) k).
Proof.
  destruct g as [l e]. unfold gbind. cbn [fst snd]. induction l as [|x l IH]; cbn [gflat]; [reflexivity|]. destruct (f x) as [ys [ex|]]; cbn [fst snd].
  - rewrite (gflat_err k ys (Some ex)). destruct (gflat ys k None) as [zs [ez|]]; reflexivity.
  - destruct (gflat l f e) as [us e'] eqn:El. cbn [fst snd]. rewrite gflat_app. cbn [fst snd] in IH. rewrite IH. destruct (gflat ys k None) as [zs [ez|]]; reflexivity.
Qed.
Lemma filter_list_app {A} (f : A -> res bool) l m e : filter_list f (l ++ m) e = match filter_list f l None with (ys, None) => let (zs, e') := filter_list f m e in (ys ++ zs, e') | (ys, Some x) => (ys, Some x) end.
Proof.
  induction l as [|x l IH]; cbn [app filter_list]; [destruct (filter_list f m e); reflexivity|]. destruct (f x) as [b|ex]; [|reflexivity]. rewrite IH. destruct b.
  - destruct (filter_list f l None) as [ys [ex|]]; cbn [gyield]; [reflexivity|]. destruct (filter_list f m e); reflexivity.
  - reflexivity.
Qed.
Lemma filter_list_err {A} (f : A -> res bool) l e : filter_list f l e = match filter_list f l None with (ys, None) => (ys, e) | g => g end.
Proof. rewrite <- (app_nil_r l) at 1. rewrite filter_list_app. cbn [filter_list]. destruct (filter_list f l None) as [ys [ex|]]; [reflexivity|]. rewrite app_nil_r. reflexivity. Qed.
Lemma filter_gbind {A B} (f : B -> res bool) (k : A -> gen B) l e : g_filter f (gbind (l, e) k) = gbind (l, e) (fun x => g_filter f (k x)).
Proof.
  unfold g_filter, gbind. cbn [fst snd]. induction l as [|x l IH]; cbn [gflat]; [reflexivity|]. destruct (k x) as [ys [ex|]]; cbn [fst snd].
  - rewrite (filter_list_err f ys (Some ex)). destruct (filter_list f ys None) as [zs [ez|]]; reflexivity.
  - destruct (gflat l k e) as [us e']. cbn [fst snd] in *. rewrite filter_list_app, IH. destruct (filter_list f ys None) as [zs [ez|]]; reflexivity.
Qed.
Lemma map_gbind {A B C} (f : B -> C) (k : A -> gen B) l e : (fun y => (map f (fst y), snd y)) (gbind (l, e) k) = gbind (l, e) (fun x => (fun y : gen B => (map f (fst y), snd y)) (k x)).
Proof.
  unfold gbind. cbn [fst snd]. induction l as [|x l IH]; cbn [gflat]; [reflexivity|]. destruct (k x) as [ys [ex|]]; cbn [fst snd]; [reflexivity|].
  destruct (gflat l k e) as [us e']. cbn [fst snd] in *. rewrite map_app, <- IH. reflexivity.
Qed.
Lemma gflat_ext {A B} (f g : A -> gen B) l e : (forall x, f x = g x) -> gflat l f e = gflat l g e.
Proof. intros H. induction l as [|x l IH]; [reflexivity|]. cbn [gflat]. rewrite H, IH. reflexivity. Qed.
Lemma phrase_find_local p h r l e : ax_local (ax_key (ph_axis p)) = true -> phrase_find p h r (l, e) = gbind (l, e) (fun i => phrase_find p h r ([i], None)).
Proof.
  intros H. unfold phrase_find. rewrite (axis_local_concat h (ph_axis p) l e H), filter_gbind. exact (map_gbind snd (fun x => g_filter (phrase_test p h r) (axis_find h (ph_axis p) ([x], None))) l e).
Qed.
Lemma gbind_one {A B} (f : A -> gen B) x : gbind ([x], None) f = f x.
Proof. unfold gbind. cbn. destruct (f x) as [ys [ex|]]; [reflexivity|]. rewrite app_nil_r. reflexivity. Qed.
Lemma gbind_ret {A} (g : gen A) : gbind g (fun x => ([x], None)) = g.
Proof. destruct g as [l e]. unfold gbind. cbn [fst snd]. induction l as [|x l IH]; [reflexivity|]. cbn [gflat]. rewrite IH. reflexivity. Qed.
Lemma run_local q h r : local_query q -> forall g, run_from q h r g = gbind g (fun i => run_from q h r ([i], None)).
Proof.
  induction 1 as [|p q Hp Hq IH]; intros g; cbn [run_from fold_left].
  - symmetry. apply gbind_ret.
  - change (run_from q h r (phrase_find p h r g) = gbind g (fun i => run_from q h r (phrase_find p h r ([i], None)))). rewrite IH. destruct g as [l e]. rewrite (phrase_find_local p h r l e Hp), gbind_assoc.
    unfold gbind at 1 3. apply gflat_ext. intros x. symmetry. apply IH.
Qed.
