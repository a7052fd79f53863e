(** Facts for C129: filters that use the dictionaries of the call, and negated filters. *)
From Verif Require Import SpecQuery UtilFacts AxisFacts3 QueryFacts7 QueryFacts10 QueryFacts11 QueryFacts12 QueryFacts13 QueryFacts14 QueryFacts15 QueryFacts16 QueryFacts20.
From Verif Require Import SpecLogic SpecNames.

Lemma filter_list_ext {A} (f g : A -> res bool) l e : (forall y, f y = g y) -> filter_list f l e = filter_list g l e.
Proof. intros H. induction l as [|y l IH]; [reflexivity|]. cbn [filter_list]. rewrite H, IH. reflexivity. Qed.
Lemma filter_list_ok {A} (f : A -> res bool) l e b : (forall y, In y l -> f y = Ok (b y)) -> filter_list f l e = (filter b l, e).
Proof.
  intros H. induction l as [|y l IH]; [reflexivity|]. cbn [filter_list filter]. rewrite (H y (or_introl eq_refl)), IH by (intros z I; apply H; right; exact I). destruct (b y); reflexivity.
Qed.
Lemma filter_list_raise {A} (f : A -> res bool) l1 x l2 e b er : (forall y, In y l1 -> f y = Ok (b y)) -> f x = Err er -> filter_list f (l1 ++ x :: l2) e = (filter b l1, Some er).
Proof.
  intros H X. induction l1 as [|y l IH]; [cbn [app filter_list]; rewrite X; reflexivity|]. cbn [app filter_list filter].
  rewrite (H y (or_introl eq_refl)), IH by (intros z I; apply H; right; exact I). destruct (b y); reflexivity.
Qed.
Lemma find_exact E h r i a w g f ys : plain_delims E -> axis_text a w -> printable E w -> filter_group E g -> safe (lit "/{}") false g -> one_filter E g = Ok f ->
  axis_find h a ([i], None) = (ys, None) -> ito_find_all E h r i (w ++ g) = (map snd (fst (filter_list (f h r) ys None)), snd (filter_list (f h r) ys None)).
Proof.
  intros HE HA PR G SG OF AX. destruct (safe_single g SG) as (_ & NB & CO). destruct (safe_single (w ++ g)) as (S1 & _ & _); [apply safe_app; [exact (axis_safe a w HA)|exact SG]|].
  pose proof (phrase_plain E (parse_query E) a w (Some (EAtom g)) [IF g] HE HA) as P. cbn [text_of] in P. rewrite app_nil_r in P. destruct P as (f' & F1 & F2).
  - destruct G as (((g' & ->) & _) & _). cbn. lia.
  - exists false. do 3 apply r_up. apply r_atom.
  - intros g' [<-|[]]. exact G.
  - exact NB.
  - unfold complete in CO. rewrite CO. reflexivity.
  - assert (PR' : printable E (w ++ g)) by (destruct PR as (c & C1 & C2); exists c; split; [apply in_or_app; left; exact C1|exact C2]).
    unfold ito_find_all. rewrite (parse_single E _ PR' S1), F1. cbn [bind query_find_all fold_left]. unfold phrase_find, g_filter. cbn [ph_axis]. rewrite AX. cbn [fst snd].
    assert (T : forall ec, phrase_test (PH a f' tautology) h r ec = f h r ec).
    { intros ec. unfold phrase_test. cbn [ph_filter ph_sub]. rewrite F2. cbn [part_value outcome]. fold (filter_value E h r ec g). unfold filter_value. rewrite OF. cbn [res_ecf]. unfold tautology. destruct (f h r ec) as [[|]|]; reflexivity. }
    assert (L : filter_list (phrase_test (PH a f' tautology) h r) ys None = filter_list (f h r) ys None) by (apply filter_list_ext; exact T).
    rewrite L. destruct (filter_list (f h r) ys None). reflexivity.
Qed.

Lemma bracket_ok E n name t : name <> [] -> forallb key_char name = true -> safe (lit "[]/{}") false t -> writable E t ->
  one_group 91 93 (bracket n name t) /\ escapes_ok 91 93 (bracket n name t) /\ parse_filter E (bracket n name t) = Some (n, name, t) /\ safe (lit "/{}") false (bracket n name t).
Proof.
  intros K1 K2 HS W. assert (EB : bracket n name t = 91 :: ((if n then lit "~" else []) ++ name ++ 58 :: t) ++ [93]).
  { unfold bracket. change (lit "[") with [91]. change (lit ":") with [58]. change (lit "]") with [93]. rewrite <- !app_assoc. reflexivity. }
  assert (B : safe (lit "[]/{}") false ((if n then lit "~" else []) ++ name ++ 58 :: t)).
  { apply safe_app; [destruct n; [apply safe_plain; intros c [<-|[]]; cbn; lia|reflexivity]|]. change (58 :: t) with ([58] ++ t). rewrite app_assoc. apply safe_app; [|exact HS]. destruct (key_safe (lit "[]/{}") name K2) as [|C]; [intros c Hc; cbn in Hc; repeat (destruct Hc as [<-|Hc]; [reflexivity|]); destruct Hc|assumption|cbn in C; lia]. }
  assert (L : last ((if n then lit "~" else []) ++ name ++ 58 :: t) 0 <> 92).
  { destruct W as ((x & t' & Et & _) & L). rewrite app_assoc. rewrite last_app_ne by discriminate. change (58 :: t) with ([58] ++ t). rewrite last_app_ne by (rewrite Et; discriminate). exact L. }
  rewrite EB. destruct (group_safe 91 93 ((if n then lit "~" else []) ++ name ++ 58 :: t)) as [G1 G2]; [lia|lia|lia|apply (safe_sub (lit "[]/{}")); [cbn; tauto|exact B]|exact L|].
  split; [exact G1|]. split; [exact G2|]. split.
  - destruct n; [|exact (parse_written E name t K1 K2 W)]. destruct W as ((x & t' & -> & X) & _). unfold parse_filter. cbn [Z.eqb Pos.eqb negb]. rewrite last_last, removelast_last. cbn [Z.eqb Pos.eqb negb].
    change (lit "~") with [126]. cbn [app]. change (126 =? c_not) with true. cbv iota.
    destruct (take_keys name (58 :: x :: t') K2 eq_refl) as [T1 T2]. rewrite T1, T2. destruct name as [|y k]; [congruence|]. cbn [Z.eqb Pos.eqb negb drop_while]. rewrite X. reflexivity.
  - change (safe (lit "/{}") false ([91] ++ ((if n then lit "~" else []) ++ name ++ 58 :: t) ++ [93])). apply safe_app; [apply safe_plain; intros c [<-|[]]; cbn; lia|]. apply safe_app; [apply (safe_sub (lit "[]/{}")); [cbn; tauto|exact B]|apply safe_plain; intros c [<-|[]]; cbn; lia].
Qed.
Lemma find_bracket E h r i a w n name t f ys : plain_delims E -> axis_text a w -> printable E w -> name <> [] -> forallb key_char name = true -> safe (lit "[]/{}") false t -> writable E t ->
  filter_func E n name t = Ok f -> axis_find h a ([i], None) = (ys, None) ->
  ito_find_all E h r i (w ++ bracket n name t) = (map snd (fst (filter_list (f h r) ys None)), snd (filter_list (f h r) ys None)).
Proof.
  intros HE HA PR K1 K2 HS W F AX. destruct (bracket_ok E n name t K1 K2 HS W) as (G1 & G2 & G3 & G4).
  assert (OF : one_filter E (bracket n name t) = Ok f) by (unfold one_filter; rewrite G3; exact F).
  apply (find_exact E h r i a w _ f ys); try assumption. split; [exact G1|]. split; [exact G2|]. exists f. exact OF.
Qed.
Lemma all_list_ok {A} (f : A -> res bool) l b : (forall y, In y l -> f y = Ok (b y)) -> all_list f l None = Ok (forallb b l).
Proof. induction l as [|y l IH]; intros H; [reflexivity|]. cbn [all_list forallb]. rewrite (H y (or_introl eq_refl)). cbn [bind]. rewrite IH by (intros z I; apply H; right; exact I). destruct (b y); reflexivity. Qed.
Lemma all_list_raise {A} (f : A -> res bool) l1 x l2 er : (forall y, In y l1 -> f y = Ok true) -> f x = Err er -> all_list f (l1 ++ x :: l2) None = Err er.
Proof. intros H X. induction l1 as [|y l IH]; [cbn [app all_list]; rewrite X; reflexivity|]. cbn [app all_list]. rewrite (H y (or_introl eq_refl)). cbn [bind]. apply IH. intros z I. apply H. right. exact I. Qed.
Lemma selected_In {A} (d : list (pystr * A)) vs x : In x (selected d vs) <-> listed d vs x.
Proof.
  unfold selected, listed. rewrite in_map_iff. split.
  - intros ((nm & y) & E & I). apply filter_In in I. destruct I as (I & M). cbn [fst snd] in *. subst y. exists nm. split; [apply mem_str_In; exact M|exact I].
  - intros (nm & M & I). exists (nm, x). split; [reflexivity|]. apply filter_In. split; [exact I|apply mem_str_In; exact M].
Qed.
Lemma selected_app {A} (d d' : list (pystr * A)) vs : selected (d ++ d') vs = selected d vs ++ selected d' vs.
Proof. unfold selected. rewrite filter_app, map_app. reflexivity. Qed.
(** what a predicate filter computes at one node *)
Lemma pred_func E n name vs : key_name KPred name -> vs <> [] -> exists f, filter_func E n name (value_list vs) = Ok f /\
  forall h r ec, f h r ec = match rv_preds r with None => Err ValueError | Some d => all_list (fun p => not_if n (p ec)) (selected d vs) None end.
Proof.
  intros KN NE. destruct (key_names _ name KN) as (FK & _). unfold filter_func. rewrite FK, (descaped_values vs NE). cbn [bind]. eexists. split; [reflexivity|].
  intros h r ec. unfold validate. destruct (rv_preds r); reflexivity.
Qed.
Lemma value_func E n name vs : key_name KValue name -> vs <> [] -> exists f, filter_func E n name (value_list vs) = Ok f /\
  forall h r ec, f h r ec = do v <- rv_value r (snd ec); match rv_values r with None => Err ValueError | Some d => Ok (let b := existsb (rv_eq r v) (selected d vs) in if n then negb b else b) end.
Proof.
  intros KN NE. destruct (key_names _ name KN) as (FK & _). unfold filter_func. rewrite FK, (descaped_values vs NE). cbn [bind]. eexists. split; [reflexivity|].
  intros h r ec. cbn beta. unfold validate. destruct (rv_value r (snd ec)); [|reflexivity]. cbn [bind]. destruct (rv_values r); reflexivity.
Qed.
Lemma text_func E k n name vs : key_name k name -> text_key k -> (match k with KCf | KCfSw | KCfEw => casefold_ok E | _ => True end) -> vs <> [] ->
  exists f, filter_func E n name (value_list vs) = Ok f /\
    forall h r ec, hwf h -> exists b, f h r ec = Ok b /\ (b = negb n <-> exists v, In v vs /\ meaning E h k (snd ec) v).
Proof.
  intros KN TK CF NE. destruct (text_filter E k name vs KN TK CF NE) as (f & F1 & F2). destruct n; [|exists f; split; [exact F1|exact F2]].
  pose proof (filter_func_not E name (value_list vs)) as N. assert (P : is_pred name = false).
  { unfold is_pred. destruct (mem_str name [lit "predicate"; lit "p"]) eqn:M; [|reflexivity]. apply mem_str_In in M. destruct (key_names k name KN) as (FK & _). destruct M as [<-|[<-|[]]]; cbn in FK; injection FK as <-; destruct TK. }
  specialize (N P). rewrite F1 in N. destruct (filter_func E true name (value_list vs)) as [f'|]; [|destruct N]. exists f'. split; [reflexivity|].
  intros h r ec H. destruct (F2 h r ec H) as (b & B1 & B2). rewrite N, B1. cbn [bind]. exists (negb b). split; [reflexivity|]. rewrite <- B2. destruct b; cbn; split; congruence.
Qed.
Lemma index_func E n name cs : ints_ok E -> key_name KIndex name -> cs <> [] ->
  exists f, filter_func E n name (index_list cs) = Ok f /\
    forall h r ec, exists b, f h r ec = Ok b /\ (b = negb n <-> exists c, In c cs /\ covers c (fst ec)).
Proof.
  intros HI KN NE. destruct (index_filter E name cs HI KN NE) as (f & F1 & F2). destruct n; [|exists f; split; [exact F1|exact F2]].
  pose proof (filter_func_not E name (index_list cs)) as N. assert (P : is_pred name = false).
  { unfold is_pred. destruct (mem_str name [lit "predicate"; lit "p"]) eqn:M; [|reflexivity]. apply mem_str_In in M. destruct (key_names _ name KN) as (FK & _). destruct M as [<-|[<-|[]]]; cbn in FK; discriminate. }
  specialize (N P). rewrite F1 in N. destruct (filter_func E true name (index_list cs)) as [f'|]; [|destruct N]. exists f'. split; [reflexivity|].
  intros h r ec. destruct (F2 h r ec) as (b & B1 & B2). rewrite N, B1. cbn [bind]. exists (negb b). split; [reflexivity|]. rewrite <- B2. destruct b; cbn; split; congruence.
Qed.
Definition keeps {A} (x : res A) (d : A) : A := match x with Ok b => b | Err _ => d end.
Section Finds.
Context (E : pyenv) (h : heap) (r : renv) (i : nat) (a : axis) (w : pystr) (ys : list (nat * nat)).
Context (HE : plain_delims E) (HA : axis_text a w) (PR : printable E w) (AX : axis_find h a ([i], None) = (ys, None)).
Lemma finds n k name t f : key_name k name -> safe (lit "[]/{}") false t -> writable E t -> filter_func E n name t = Ok f ->
  ito_find_all E h r i (w ++ bracket n name t) = (map snd (fst (filter_list (f h r) ys None)), snd (filter_list (f h r) ys None)).
Proof. intros KN S W F. destruct (key_names k name KN) as (_ & K1 & K2). exact (find_bracket E h r i a w n name t f ys HE HA PR K1 K2 S W F AX). Qed.
Lemma finds_text n k name vs : hwf h -> key_name k name -> text_key k -> (match k with KCf | KCfSw | KCfEw => casefold_ok E | _ => True end) -> vs <> [] -> writable E (value_list vs) ->
  exists b, ito_find_all E h r i (w ++ bracket n name (value_list vs)) = (map snd (filter b ys), None) /\ forall ec, b ec = negb n <-> exists v, In v vs /\ meaning E h k (snd ec) v.
Proof.
  intros H KN TK CF NE W. destruct (text_func E k n name vs KN TK CF NE) as (f & F1 & F2). exists (fun ec => keeps (f h r ec) false).
  rewrite (finds n k name _ f KN (value_safe vs) W F1), (filter_list_ok _ ys None (fun ec => keeps (f h r ec) false)) by (intros ec _; destruct (F2 h r ec H) as (b & -> & _); reflexivity).
  split; [reflexivity|]. intros ec. destruct (F2 h r ec H) as (b & -> & B). exact B.
Qed.
Lemma finds_index n name cs : ints_ok E -> key_name KIndex name -> cs <> [] ->
  exists b, ito_find_all E h r i (w ++ bracket n name (index_list cs)) = (map snd (filter b ys), None) /\ forall ec, b ec = negb n <-> exists c, In c cs /\ covers c (fst ec).
Proof.
  intros HI KN NE. destruct (index_func E n name cs HI KN NE) as (f & F1 & F2). exists (fun ec => keeps (f h r ec) false).
  rewrite (finds n _ name _ f KN (index_safe cs) (index_writable E cs HI NE) F1), (filter_list_ok _ ys None (fun ec => keeps (f h r ec) false)) by (intros ec _; destruct (F2 h r ec) as (b & -> & _); reflexivity).
  split; [reflexivity|]. intros ec. destruct (F2 h r ec) as (b & -> & B). exact B.
Qed.
Lemma finds_pred n name vs d : key_name KPred name -> vs <> [] -> writable E (value_list vs) -> rv_preds r = Some d ->
  (forall p ec, listed d vs p -> In ec ys -> exists b, p ec = Ok b) ->
  exists b, ito_find_all E h r i (w ++ bracket n name (value_list vs)) = (map snd (filter b ys), None) /\ forall ec, In ec ys -> b ec = true <-> forall p, listed d vs p -> p ec = Ok (negb n).
Proof.
  intros KN NE W RP G. destruct (pred_func E n name vs KN NE) as (f & F1 & F2). exists (fun ec => keeps (f h r ec) false).
  assert (Q : forall ec, In ec ys -> f h r ec = Ok (forallb (fun p => keeps (not_if n (p ec)) false) (selected d vs))).
  { intros ec I. rewrite F2, RP. apply all_list_ok. intros p Ip. apply selected_In in Ip. destruct (G p ec Ip I) as (b & ->). reflexivity. }
  rewrite (finds n _ name _ f KN (value_safe vs) W F1), (filter_list_ok _ ys None (fun ec => keeps (f h r ec) false)) by (intros ec I; rewrite (Q ec I); reflexivity).
  split; [reflexivity|]. intros ec I. rewrite (Q ec I). cbn [keeps]. rewrite forallb_forall. split.
  - intros A p Ip. specialize (A p (proj2 (selected_In d vs p) Ip)). destruct (G p ec Ip I) as (b & B). rewrite B in *. cbn in A. destruct n, b; cbn in *; congruence.
  - intros A p Ip. apply selected_In in Ip. rewrite (A p Ip). destruct n; reflexivity.
Qed.
(** the first node at which a predicate raises ends the search *)
Lemma finds_pred_raises n name vs d ys1 ec ys2 d1 nm p d2 er : key_name KPred name -> vs <> [] -> writable E (value_list vs) -> rv_preds r = Some d ->
  ys = ys1 ++ ec :: ys2 -> (forall q ec', listed d vs q -> In ec' ys1 -> exists b, q ec' = Ok b) ->
  d = d1 ++ (nm, p) :: d2 -> In nm vs -> (forall q, listed d1 vs q -> q ec = Ok (negb n)) -> p ec = Err er ->
  exists b, ito_find_all E h r i (w ++ bracket n name (value_list vs)) = (map snd (filter b ys1), Some er) /\ forall ec', In ec' ys1 -> b ec' = true <-> forall q, listed d vs q -> q ec' = Ok (negb n).
Proof.
  intros KN NE W RP EY G ED IN G1 X. destruct (pred_func E n name vs KN NE) as (f & F1 & F2). exists (fun ec => keeps (f h r ec) false).
  assert (Q : forall ec, In ec ys1 -> f h r ec = Ok (forallb (fun p => keeps (not_if n (p ec)) false) (selected d vs))).
  { intros ec' I. rewrite F2, RP. apply all_list_ok. intros q Ip. apply selected_In in Ip. destruct (G q ec' Ip I) as (b & ->). reflexivity. }
  assert (R : f h r ec = Err er).
  { rewrite F2, RP, ED, selected_app. unfold selected at 2. cbn [filter fst map]. rewrite (proj2 (mem_str_In nm vs) IN). cbn [map snd]. apply all_list_raise.
    - intros q Iq. apply selected_In in Iq. rewrite (G1 q Iq). destruct n; reflexivity.
    - rewrite X. reflexivity. }
  rewrite (finds n _ name _ f KN (value_safe vs) W F1), EY, (filter_list_raise _ ys1 ec ys2 None (fun ec => keeps (f h r ec) false) er) by (try exact R; intros ec' I; rewrite (Q ec' I); reflexivity).
  split; [reflexivity|]. intros ec' I. rewrite (Q ec' I). cbn [keeps]. rewrite forallb_forall. split.
  - intros A q Ip. specialize (A q (proj2 (selected_In d vs q) Ip)). destruct (G q ec' Ip I) as (b & B). rewrite B in *. cbn in A. destruct n, b; cbn in *; congruence.
  - intros A q Ip. apply selected_In in Ip. rewrite (A q Ip). destruct n; reflexivity.
Qed.
Lemma finds_value n name vs d v : key_name KValue name -> vs <> [] -> writable E (value_list vs) -> rv_values r = Some d -> (forall ec, In ec ys -> rv_value r (snd ec) = Ok (v (snd ec))) ->
  exists b, ito_find_all E h r i (w ++ bracket n name (value_list vs)) = (map snd (filter b ys), None) /\ forall ec, In ec ys -> b ec = negb n <-> exists u, listed d vs u /\ rv_eq r (v (snd ec)) u = true.
Proof.
  intros KN NE W RV G. destruct (value_func E n name vs KN NE) as (f & F1 & F2). exists (fun ec => keeps (f h r ec) false).
  assert (Q : forall ec, In ec ys -> f h r ec = Ok (let b := existsb (rv_eq r (v (snd ec))) (selected d vs) in if n then negb b else b)) by (intros ec I; rewrite F2, RV, (G ec I); reflexivity).
  rewrite (finds n _ name _ f KN (value_safe vs) W F1), (filter_list_ok _ ys None (fun ec => keeps (f h r ec) false)) by (intros ec I; rewrite (Q ec I); reflexivity).
  split; [reflexivity|]. intros ec I. rewrite (Q ec I). cbn [keeps]. cbv zeta.
  assert (X : existsb (rv_eq r (v (snd ec))) (selected d vs) = true <-> exists u, listed d vs u /\ rv_eq r (v (snd ec)) u = true).
  { rewrite existsb_exists. split; intros (u & U1 & U2); exists u; (split; [apply selected_In; exact U1|exact U2]). }
  rewrite <- X. destruct (existsb _ _), n; cbn; split; congruence.
Qed.
(** without the dictionary the first node tested raises ValueError *)
Lemma finds_no_preds n name vs : key_name KPred name -> vs <> [] -> writable E (value_list vs) -> rv_preds r = None ->
  ito_find_all E h r i (w ++ bracket n name (value_list vs)) = ([], match ys with [] => None | _ => Some ValueError end).
Proof.
  intros KN NE W RP. destruct (pred_func E n name vs KN NE) as (f & F1 & F2). rewrite (finds n _ name _ f KN (value_safe vs) W F1). destruct ys as [|y l]; [reflexivity|]. cbn [filter_list]. rewrite F2, RP. reflexivity.
Qed.
Lemma finds_no_values n name vs v : key_name KValue name -> vs <> [] -> writable E (value_list vs) -> rv_values r = None -> (forall ec, In ec ys -> rv_value r (snd ec) = Ok (v (snd ec))) ->
  ito_find_all E h r i (w ++ bracket n name (value_list vs)) = ([], match ys with [] => None | _ => Some ValueError end).
Proof.
  intros KN NE W RP G. destruct (value_func E n name vs KN NE) as (f & F1 & F2). rewrite (finds n _ name _ f KN (value_safe vs) W F1). destruct ys as [|y l] eqn:EY; [reflexivity|]. cbn [filter_list]. rewrite F2, (G y (or_introl eq_refl)), RP. reflexivity.
Qed.
End Finds.
