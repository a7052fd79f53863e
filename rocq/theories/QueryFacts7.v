(** Filter and sub-query expressions given as texts. *)
From Verif Require Export QueryFacts6.

(** ** changing the atoms *)
Fixpoint map_expr {A B} (f : A -> B) (e : expr A) : expr B :=
  match e with
  | EAtom a => EAtom (f a)
  | ENot e => ENot (map_expr f e)
  | EAnd e1 e2 => EAnd (map_expr f e1) (map_expr f e2)
  | EXor e1 e2 => EXor (map_expr f e1) (map_expr f e2)
  | EOr e1 e2 => EOr (map_expr f e1) (map_expr f e2)
  end.
Definition map_item {A B} (f : A -> B) (x : item A) : item B := match x with IC c => IC c | IF a => IF (f a) end.
Lemma map_outcome {A B} (f : A -> B) v e : outcome v (map_expr f e) = outcome (fun a => v (f a)) e.
Proof. induction e as [a|e IH|e1 IH1 e2 IH2|e1 IH1 e2 IH2|e1 IH1 e2 IH2]; cbn; rewrite ?IH, ?IH1, ?IH2; reflexivity. Qed.
Lemma map_renders {A B} (f : A -> B) n k e l : renders n k e l -> renders n k (map_expr f e) (map (map_item f) l).
Proof.
  induction 1; cbn [map map_item map_expr]; rewrite ?map_app; cbn [map map_item]; try (econstructor; eassumption).
Qed.
Lemma map_despace {A B} (f : A -> B) l : despace (map (map_item f) l) = map (map_item f) (despace l).
Proof. unfold despace. induction l as [|[c|a] l IH]; cbn [map map_item filter is_space_item]; [reflexivity| |cbn; f_equal; exact IH]. destruct (c =? 32); cbn; [exact IH|f_equal; exact IH]. Qed.
Lemma map_operands {A B} (f : A -> B) l : operands (map (map_item f) l) = operands l.
Proof. induction l as [|[c|a] l IH]; cbn [map map_item operands]; [reflexivity|rewrite IH; reflexivity|f_equal; exact IH]. Qed.
Lemma map_atoms {A B} (f : A -> B) l : atoms (map (map_item f) l) = map f (atoms l).
Proof. induction l as [|[c|a] l IH]; cbn [map map_item atoms]; [reflexivity|exact IH|f_equal; exact IH]. Qed.
Lemma map_writes {A B} (f : A -> B) e l : writes e l -> writes (map_expr f e) (map (map_item f) l).
Proof. intros (k & R). exists k. rewrite map_despace. apply map_renders. exact R. Qed.

(** ** from operands and atoms back to items *)
Fixpoint weave {A} (ops : list pystr) (fs : list A) : list (item A) :=
  match ops with
  | [] => []
  | o :: os => map IC o ++ match fs with [] => [] | f :: fs' => IF f :: weave os fs' end
  end.
Lemma atoms_chars_only {A} (o : pystr) : atoms (map (@IC A) o) = [].
Proof. induction o as [|c o IH]; [reflexivity|exact IH]. Qed.
Lemma weave_atoms {A} ops : forall (fs : list A), length ops = S (length fs) -> atoms (weave ops fs) = fs.
Proof.
  induction ops as [|o os IH]; intros fs L; [discriminate|]. cbn [weave]. rewrite atoms_app.
  rewrite atoms_chars_only. destruct fs as [|f fs]; [reflexivity|]. cbn. f_equal. apply IH. cbn in L. lia.
Qed.
Lemma operands_chars_only {A} (o : pystr) : operands (map (@IC A) o) = [o].
Proof. induction o as [|c o IH]; [reflexivity|]. cbn [map operands]. rewrite IH. reflexivity. Qed.
Lemma weave_operands {A} ops : forall (fs : list A), length ops = S (length fs) -> operands (weave ops fs) = ops.
Proof.
  induction ops as [|o os IH]; intros fs L; [discriminate|]. cbn [weave]. destruct fs as [|f fs].
  - destruct os; [|discriminate]. rewrite app_nil_r. apply operands_chars_only.
  - rewrite (operands_app (map IC o) (IF f :: weave os fs) [] o [] os); [cbn; rewrite app_nil_r; reflexivity|apply operands_chars_only|].
    cbn [operands]. rewrite IH by (cbn in L; lia). reflexivity.
Qed.
Lemma weave_self {A} (l : list (item A)) : weave (operands l) (atoms l) = l.
Proof.
  induction l as [|[c|a] l IH]; [reflexivity| |].
  - cbn [operands atoms]. destruct (operands_ne l) as (o & os & E). rewrite E in *. cbn [weave map app] in *. f_equal. exact IH.
  - cbn [operands atoms weave map app]. f_equal. exact IH.
Qed.

(** ** strip *)
Lemma drop_while_pre p s : exists w, s = w ++ drop_while p s /\ forall c, In c w -> p c = true.
Proof.
  induction s as [|x s (w & E & H)]; [exists []; split; [reflexivity|intros c []]|]. cbn [drop_while]. destruct (p x) eqn:Px.
  - exists (x :: w). split; [cbn; f_equal; exact E|]. intros c [<-|Hc]; [exact Px|apply H; exact Hc].
  - exists []. split; [reflexivity|intros c []].
Qed.
Lemma strip_shape sp s : exists w1 w2, s = w1 ++ py_strip sp s None ++ w2 /\ forall c, In c w1 \/ In c w2 -> sp c = true.
Proof.
  unfold py_strip, py_rstrip, py_lstrip, strip_set. destruct (drop_while_pre sp s) as (w1 & E1 & H1). destruct (drop_while_pre sp (rev (drop_while sp s))) as (w2 & E2 & H2).
  exists w1, (rev w2). split.
  - rewrite E1 at 1. f_equal. rewrite <- (rev_involutive (drop_while sp s)) at 1. rewrite E2 at 1. apply rev_app_distr.
  - intros c [Hc|Hc]; [apply H1; exact Hc|apply H2; apply in_rev; exact Hc].
Qed.
Definition despaces (s : pystr) : pystr := filter (fun c => negb (c =? 32)) s.
Lemma despaces_strip sp s : (forall c, In c s -> sp c = true -> c = 32) -> despaces (py_strip sp s None) = despaces s.
Proof.
  intros H. destruct (strip_shape sp s) as (w1 & w2 & E & W). rewrite E at 2. unfold despaces. rewrite !filter_app.
  assert (Z0 : forall w, (forall c, In c w -> sp c = true) -> incl w s -> filter (fun c => negb (c =? 32)) w = []).
  { induction w as [|x w IH]; intros Hw Hi; [reflexivity|]. cbn [filter]. rewrite (H x (Hi x (or_introl eq_refl)) (Hw x (or_introl eq_refl))). cbn. apply IH; [intros c Hc; apply Hw; right; exact Hc|intros c Hc; apply Hi; right; exact Hc]. }
  rewrite (Z0 w1), (Z0 w2); [rewrite app_nil_r; reflexivity| | | |].
  - intros c Hc. apply W. auto.
  - rewrite E. intros c Hc. apply in_or_app. right. apply in_or_app. right. exact Hc.
  - intros c Hc. apply W. auto.
  - rewrite E. intros c Hc. apply in_or_app. left. exact Hc.
Qed.
Lemma despace_chars {A} (o : pystr) : despace (map (@IC A) o) = map IC (despaces o).
Proof. unfold despace, despaces. induction o as [|c o IH]; [reflexivity|]. cbn. destruct (c =? 32); cbn; [exact IH|f_equal; exact IH]. Qed.
Lemma despace_app {A} (l m : list (item A)) : despace (l ++ m) = despace l ++ despace m.
Proof. apply filter_app. Qed.
Lemma despace_weave {A} ops : forall ops' (fs : list A), Forall2 (fun o o' => despaces o = despaces o') ops ops' -> despace (weave ops fs) = despace (weave ops' fs).
Proof.
  induction ops as [|o os IH]; intros ops' fs F; inversion F as [|? o' ? os' E F']; subst; [reflexivity|]. cbn [weave]. rewrite !despace_app, !despace_chars, E. f_equal.
  destruct fs as [|f fs]; [reflexivity|]. unfold despace. cbn [filter is_space_item negb]. f_equal. apply IH. exact F'.
Qed.

(** ** the operands of the groups *)
Fixpoint strip_init (sp : Z -> bool) (ops : list pystr) : list pystr :=
  match ops with [] => [] | [o] => [o] | o :: os => py_strip sp o None :: strip_init sp os end.
Lemma group_ops_spec E : forall os (gs : list pystr) first o, length os = length gs -> (first = true \/ py_strip (py_isspace E) o None <> [] \/ gs = []) ->
  Forall (fun o => py_strip (py_isspace E) o None <> []) (removelast os) ->
  group_ops E first (combine (o :: os) gs) (last (o :: os) []) = Ok (strip_init (py_isspace E) (o :: os)).
Proof.
  induction os as [|o1 os IH]; intros gs first o L Hf F.
  - destruct gs; [|discriminate]. reflexivity.
  - destruct gs as [|g gs]; [discriminate|]. change (combine (o :: o1 :: os) (g :: gs)) with ((o, g) :: combine (o1 :: os) gs). cbn [group_ops]. set (op' := py_strip (py_isspace E) o None) in *.
    assert (C : negb first && (zlen op' =? 0) = false).
    { destruct Hf as [->|[N|X]]; [reflexivity| |discriminate]. apply andb_false_iff. right. apply Z.eqb_neq. unfold zlen. destruct op'; [congruence|cbn; lia]. }
    rewrite C. change (last (o :: o1 :: os) []) with (last (o1 :: os) []). rewrite IH.
    + reflexivity.
    + cbn in L. lia.
    + right. destruct os as [|o2 os]; [right; destruct gs; [reflexivity|discriminate]|left; cbn [removelast] in F; inversion F; assumption].
    + destruct os as [|o2 os]; [constructor|]. cbn [removelast] in F. inversion F; assumption.
Qed.
Lemma strip_init_rel sp ops : (forall o c, In o ops -> In c o -> sp c = true -> c = 32) -> Forall2 (fun o o' => despaces o = despaces o') ops (strip_init sp ops).
Proof.
  induction ops as [|o [|o1 os] IH]; intros H; [constructor|constructor; [reflexivity|constructor]|]. cbn [strip_init]. constructor.
  - symmetry. apply despaces_strip. intros c Hc. apply (H o c); [left; reflexivity|exact Hc].
  - apply IH. intros o' c Ho. apply H. right. exact Ho.
Qed.
Lemma strip_init_len sp ops : length (strip_init sp ops) = length ops.
Proof. induction ops as [|o [|o1 os] IH]; [reflexivity|reflexivity|]. cbn [strip_init length]. f_equal. exact IH. Qed.

Lemma renders_chars {A} n k (e : expr A) l : renders n k e l -> forall x, In x (chars_of l) -> In x op_chars.
Proof.
  induction 1; cbn [chars_of]; intros x Hx; rewrite ?chars_app in Hx; cbn [chars_of] in Hx.
  - destruct Hx.
  - destruct Hx as [<-|Hx]; [cbn; tauto|auto].
  - destruct Hx as [<-|Hx]; [cbn; tauto|]. rewrite ?chars_app in Hx. apply in_app_or in Hx. destruct Hx as [Hx|[<-|[]]]; [auto|cbn; tauto].
  - apply in_app_or in Hx. destruct Hx as [Hx|[<-|Hx]]; [auto|cbn; tauto|auto].
  - apply in_app_or in Hx. destruct Hx as [Hx|[<-|Hx]]; [auto|cbn; tauto|auto].
  - apply in_app_or in Hx. destruct Hx as [Hx|[<-|Hx]]; [auto|cbn; tauto|auto].
  - auto.
Qed.
Lemma chars_despace {A} (l : list (item A)) x : In x (chars_of l) -> x = 32 \/ In x (chars_of (despace l)).
Proof.
  unfold despace. induction l as [|[c|a] l IH]; cbn [chars_of filter is_space_item]; [intros []| |exact IH]. intros [->|Hx].
  - destruct (Z.eqb_spec x 32) as [->|N]; [left; reflexivity|]. right. cbn. left. reflexivity.
  - destruct (IH Hx) as [E|I]; [left; exact E|right]. destruct (c =? 32); cbn; [exact I|right; exact I].
Qed.
Lemma writes_chars {A} (e : expr A) l x : writes e l -> In x (chars_of l) -> In x op_chars.
Proof. intros (k & R) Hx. apply chars_despace in Hx. destruct Hx as [->|Hx]; [cbn; tauto|exact (renders_chars _ _ _ _ R x Hx)]. Qed.

(** between two atoms there is an operator *)
Lemma bin_between n k (e : expr ecf) l : rendS n k e l -> Forall (fun o => exists c, In c o /\ In c op_chars /\ c <> 32) (removelast (tl (operands l))).
Proof.
  revert n k e l.
  assert (Bin : forall b l1 l2, b <> 32 -> In b op_chars -> Forall (fun o : pystr => exists c, In c o /\ In c op_chars /\ c <> 32) (removelast (tl (operands l1))) ->
    Forall (fun o : pystr => exists c, In c o /\ In c op_chars /\ c <> 32) (removelast (tl (operands l2))) ->
    Forall (fun o : pystr => exists c, In c o /\ In c op_chars /\ c <> 32) (removelast (tl (operands (l1 ++ @IC ecf b :: l2))))).
  { intros b l1 l2 N32 Hb F1 F2. destruct (operands_last l1) as (i & la & E1). destruct (operands_ne l2) as (o2 & os2 & E2).
    rewrite (operands_app l1 (IC b :: l2) i la (b :: o2) os2 E1) by (cbn [operands]; rewrite E2; reflexivity). rewrite E1 in F1. rewrite E2 in F2. cbn [tl] in F2.
    destruct i as [|i0 i]; cbn [app tl] in *.
    - exact F2.
    - rewrite removelast_last in F1. destruct os2 as [|o3 os2].
      + rewrite removelast_last. exact F1.
      + rewrite removelast_app by discriminate. apply Forall_app. split; [exact F1|]. cbn [removelast]. constructor; [exists b; split; [apply in_or_app; right; left; reflexivity|auto]|exact F2]. }
  assert (Pre : forall x (l : list (item ecf)), tl (operands (IC x :: l)) = tl (operands l)).
  { intros x l. cbn [operands]. destruct (operands_ne l) as (o & os & E). rewrite E. reflexivity. }
  assert (Post : forall x (l : list (item ecf)), removelast (tl (operands (l ++ [IC x]))) = removelast (tl (operands l))).
  { intros x l. destruct (operands_last l) as (i & la & E). rewrite (operands_app l [IC x] i la [x] [] E eq_refl), E. destruct i as [|i0 i]; [reflexivity|]. cbn [app tl]. rewrite !removelast_last. reflexivity. }
  intros n k e l. induction 1 as [a|k e l R IH|n e l R IH|k1 k2 e1 e2 l1 l2 R1 IH1 R2 IH2|k1 k2 e1 e2 l1 l2 R1 IH1 R2 IH2|k1 k2 e1 e2 l1 l2 R1 IH1 R2 IH2|n k e l R IH|n k e l R IH|n k e l R IH].
  - constructor.
  - rewrite Pre. exact IH.
  - rewrite Pre. rewrite Post. exact IH.
  - apply Bin; [discriminate|cbn; tauto|exact IH1|exact IH2].
  - apply Bin; [discriminate|cbn; tauto|exact IH1|exact IH2].
  - apply Bin; [discriminate|cbn; tauto|exact IH1|exact IH2].
  - exact IH.
  - rewrite Pre. exact IH.
  - rewrite Post. exact IH.
Qed.
Lemma strip_keeps sp s c : In c s -> sp c = false -> py_strip sp s None <> [].
Proof.
  intros Hc Hs X. destruct (strip_shape sp s) as (w1 & w2 & E & W). rewrite X in E. cbn in E. rewrite E in Hc. apply in_app_or in Hc. rewrite (W c Hc) in Hs. discriminate.
Qed.

(** ** the common tail of EcfFilter and EcfSubquery *)
Lemma groups_combined E {A} (e : expr A) (L : list (item A)) (den : A -> ecf) : ops_not_space E -> writes e L ->
  exists o os, operands L = o :: os /\ (forall gs : list pystr, length gs = length (atoms L) -> group_ops E true (combine (o :: os) gs) (last (o :: os) []) = Ok (strip_init (py_isspace E) (o :: os))) /\
  exists c, combined (map den (atoms L)) (strip_init (py_isspace E) (operands L)) = Ok c /\ forall h r ec, c h r ec = outcome (fun a => den a h r ec) e.
Proof.
  intros Hs W. destruct (operands_ne L) as (o & os & EO). exists o, os. split; [exact EO|].
  pose proof (map_writes den e L W) as W'. destruct W' as (k & R'). pose proof (rendS_of _ _ _ _ R' (map (map_item den) L) eq_refl) as RS.
  assert (Hc : forall o' c, In o' (operands L) -> In c o' -> py_isspace E c = true -> c = 32).
  { intros o' c Ho Hi Hsp. destruct (Z.eq_dec c 32) as [->|N]; [reflexivity|]. assert (In c op_chars) as X by (apply (writes_chars e L c W); rewrite <- operands_chars; apply in_concat; exists o'; auto). rewrite (Hs c X N) in Hsp. discriminate. }
  split.
  - intros gs Lg. apply group_ops_spec.
    + pose proof (operands_len L) as Ln. rewrite EO in Ln. cbn in Ln. lia.
    + left. reflexivity.
    + pose proof (bin_between _ _ _ _ RS) as B. rewrite map_operands, EO in B. cbn [tl] in B. eapply Forall_impl; [|exact B]. intros o' (c & C1 & C2 & C3). apply (strip_keeps _ _ c C1). exact (Hs c C2 C3).
  - set (ops' := strip_init (py_isspace E) (operands L)).
    assert (Ln : length ops' = S (length (map den (atoms L)))) by (unfold ops'; rewrite strip_init_len, operands_len, map_length; reflexivity).
    assert (RS' : renders 0 k (map_expr den e) (despace (weave ops' (map den (atoms L))))).
    { rewrite <- (despace_weave (operands L) ops') by (apply strip_init_rel; exact Hc). rewrite <- (map_operands den L), <- (map_atoms den L), weave_self. exact R'. }
    destruct (combined_spec (map_expr den e) (weave ops' (map den (atoms L)))) as (c & E1 & V1); [exists k; exact RS'|].
    rewrite weave_atoms, weave_operands in E1 by exact Ln. exists c. split; [exact E1|]. intros h r ec. rewrite V1. apply map_outcome.
Qed.
