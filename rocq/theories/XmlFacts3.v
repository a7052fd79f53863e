(** Facts about Xml.v: what the three regular expressions find. *)
From Verif Require Import SpecXml PyFacts ItoStrFacts FormatFacts XmlFacts XmlFacts2.

(** ** the engine *)
Lemma fm_map {A B C} (f : A -> B) (g : B -> list C) l : flat_map g (map f l) = flat_map (fun x => g (f x)) l.
Proof. induction l as [|x l IH]; [reflexivity|]. cbn [map flat_map]. rewrite IH. reflexivity. Qed.
Lemma fm_fm {A B C} (f : A -> list B) (g : B -> list C) l : flat_map g (flat_map f l) = flat_map (fun x => flat_map g (f x)) l.
Proof. induction l as [|x l IH]; [reflexivity|]. cbn [flat_map]. rewrite flat_map_app, IH. reflexivity. Qed.
Lemma fm_ext {A B} (f g : A -> list B) l : (forall x, f x = g x) -> flat_map f l = flat_map g l.
Proof. intros H. induction l as [|x l IH]; [reflexivity|]. cbn [flat_map]. rewrite H, IH. reflexivity. Qed.
Lemma fm_single {A B} (f : A -> B) l : flat_map (fun x => [f x]) l = map f l.
Proof. induction l as [|x l IH]; [reflexivity|]. cbn [map flat_map app]. rewrite IH. reflexivity. Qed.
Lemma take_app p u r : forallb p u = true -> match r with [] => True | x :: _ => p x = false end -> take_while p (u ++ r) = u /\ drop_while p (u ++ r) = r.
Proof.
  intros Hu Hr. induction u as [|x u IH]; cbn [app].
  - destruct r as [|y r]; [split; reflexivity|]. cbn [take_while drop_while]. rewrite Hr. split; reflexivity.
  - cbn [forallb] in Hu. apply andb_prop in Hu. destruct Hu as [E Hu]. destruct (IH Hu) as [E1 E2]. cbn [take_while drop_while]. rewrite E, E1, E2. split; reflexivity.
Qed.
(** a greedy run followed by something that cannot begin with a character of the class *)
Lemma plus_then {B} p (K : way -> list B) : (forall x r j, p x = true -> K (x :: r, j, []) = []) -> forall l i,
  flat_map K (plus_ways p l i) = match take_while p l with [] => [] | u => K (drop_while p l, i + zlen u, []) end.
Proof.
  intros HK. induction l as [|x l IH]; intros i; [reflexivity|]. cbn [plus_ways take_while drop_while]. destruct (p x) eqn:E; [|reflexivity].
  rewrite flat_map_app, IH. cbn [flat_map]. rewrite app_nil_r. destruct l as [|y l].
  - cbn [take_while drop_while app]. f_equal; f_equal; f_equal.
  - cbn [take_while drop_while]. destruct (p y) eqn:Ey.
    + rewrite HK by exact Ey. rewrite app_nil_r. f_equal. f_equal. f_equal. rewrite !zlen_cons. lia.
    + cbn [app]. f_equal; f_equal; f_equal.
Qed.
Lemma plus_head p u r i : u <> [] -> forallb p u = true -> match r with [] => True | x :: _ => p x = false end ->
  exists ws, plus_ways p (u ++ r) i = (r, i + zlen u, []) :: ws.
Proof.
  revert i. induction u as [|x u IH]; intros i Hn Hu Hr; [congruence|]. cbn [forallb] in Hu. apply andb_prop in Hu. destruct Hu as [E Hu].
  cbn [app plus_ways]. rewrite E. destruct u as [|y u].
  - cbn [app]. destruct r as [|z r]; [|cbn [plus_ways]; rewrite Hr]; eexists; (cbn [app plus_ways]; f_equal).
  - destruct (IH (i + 1)) as (ws & Ew); [discriminate|exact Hu|exact Hr|]. rewrite Ew. cbn [app]. eexists. rewrite !zlen_cons. replace (i + 1 + (1 + zlen u)) with (i + (1 + (1 + zlen u))) by lia. reflexivity.
Qed.
(** what finditer finds *)
Inductive finds (r : rx) : pystr -> Z -> list (span * list (pystr * span)) -> Prop :=
| F_nil i : ways r [] i = [] -> finds r [] i []
| F_skip x l i ms : ways r (x :: l) i = [] -> finds r l (i + 1) ms -> finds r (x :: l) i ms
| F_hit l i l' i' caps ws ms : ways r l i = (l', i', caps) :: ws -> (length l' < length l)%nat -> finds r l' i' ms -> finds r l i (((i, i'), caps) :: ms).
Lemma finds_finditer r l i ms : finds r l i ms -> forall fuel, (length l < fuel)%nat -> finditer_from fuel r l i = ms.
Proof.
  induction 1 as [i E|x l i ms E F IH|l i l' i' caps ws ms E L F IH]; intros fuel Hf; (destruct fuel as [|n]; [cbn in Hf; lia|]); cbn [finditer_from]; rewrite E.
  - reflexivity.
  - apply IH. cbn in Hf. lia.
  - cbn [fst snd]. rewrite IH by lia. reflexivity.
Qed.

(** ** names *)
Definition ns_char := none_of (lit " :").
Definition nm_char := none_of (lit " />=").
Lemma ns_stop c : ns_char c = false <-> c = 32 \/ c = 58.
Proof. unfold ns_char, none_of. cbn [mem_char lit existsb]. vm_compute (Z.of_nat _). rewrite negb_false_iff, !orb_true_iff, !Z.eqb_eq. split; [intros [H|[H|H]]; [auto|auto|discriminate]|tauto]. Qed.
Lemma nm_stop c : nm_char c = false <-> c = 32 \/ c = 47 \/ c = 62 \/ c = 61.
Proof. unfold nm_char, none_of. cbn. rewrite negb_false_iff, !orb_true_iff, !Z.eqb_eq. split; [intros [H|[H|[H|[H|H]]]]; [auto|auto|auto|auto|discriminate]|tauto]. Qed.
Definition ns_cap i (u : pystr) : pystr * span := (d_namespace, (i, i + zlen u)).
Definition nm_cap i j : pystr * span := (d_name, (i, j)).
Definition tag_cap i j : pystr * span := (d_tag, (i, j)).
(** the ways to match _TAG that a continuation can use, if it cannot begin with a name character *)
Lemma tag_then {B} (K : way -> list B) : (forall x r j cs, nm_char x = true -> K (x :: r, j, cs) = []) -> forall l i,
  flat_map K (ways rx_tag l i) =
  (match take_while ns_char l with
   | [] => []
   | u => match drop_while ns_char l with
          | 58 :: l2 => match take_while nm_char l2 with
                        | [] => []
                        | v => let q := i + zlen u + 1 in let j := q + zlen v in K (drop_while nm_char l2, j, [ns_cap i u; nm_cap q j; tag_cap i j])
                        end
          | _ => []
          end
   end) ++
  match take_while nm_char l with [] => [] | v => let j := i + zlen v in K (drop_while nm_char l, j, [nm_cap i j; tag_cap i j]) end.
Proof.
  intros HK l i. unfold rx_tag. cbn [ways]. rewrite fm_map, fm_fm, flat_map_app. cbn [flat_map]. rewrite app_nil_r. f_equal.
  - rewrite fm_fm, fm_map. cbn [fst snd].
    rewrite (plus_then ns_char).
    + destruct (take_while ns_char l) as [|u0 u] eqn:Eu; [reflexivity|]. destruct (drop_while ns_char l) as [|y l2] eqn:Ed; [reflexivity|].
      cbn [fst snd app]. assert (Py : prefixb (lit ":") (y :: l2) = (58 =? y)) by (cbn; rewrite andb_true_r; reflexivity). rewrite Py.
      destruct (58 =? y) eqn:Ey.
      * apply Z.eqb_eq in Ey. subst y. cbn [map flat_map fst snd app]. rewrite app_nil_r. rewrite !fm_map. cbn [fst snd].
        change (skipn (length (lit ":")) (58 :: l2)) with l2. change (zlen (lit ":")) with 1. fold nm_char. rewrite (plus_then nm_char).
        -- destruct (take_while nm_char l2) as [|v0 v]; [reflexivity|]. cbn [fst snd app]. reflexivity.
        -- intros x r j Hx. cbn [fst snd]. apply HK. exact Hx.
      * cbn [map flat_map]. apply Z.eqb_neq in Ey. destruct y as [|y|y]; try reflexivity. destruct (Pos.eq_dec y 58) as [->|N]; [congruence|].
        do 6 (destruct y as [y|y|]; try reflexivity). congruence.
    + intros x r j Hx. cbn [fst snd]. assert (Py : prefixb (lit ":") (x :: r) = (58 =? x)) by (cbn; rewrite andb_true_r; reflexivity). rewrite Py.
      destruct (58 =? x) eqn:E; [|reflexivity]. apply Z.eqb_eq in E. subst x. vm_compute in Hx. discriminate.
  - rewrite !fm_map. cbn [fst snd app]. fold nm_char. rewrite (plus_then nm_char).
    + destruct (take_while nm_char l) as [|v0 v]; [reflexivity|]. reflexivity.
    + intros x r j Hx. apply HK. exact Hx.
Qed.

(** ** attributes *)
Definition rx_val : rx := RSeq (RStr [61; 34]) (RSeq (RGrp d_value (RPlus (none_of [34]))) (RStr [34])).
Lemma attribute_ways l i : ways rx_attribute l i =
  flat_map (fun w => map (fun v => (fst v, snd w ++ snd v ++ [(d_attribute, (i, snd (fst v)))])) (ways rx_val (fst (fst w)) (snd (fst w)))) (ways rx_tag l i).
Proof.
  change (ways rx_attribute l i) with (map (fun w : way => (fst w, snd w ++ [(d_attribute, (i, snd (fst w)))])) (flat_map (fun w => map (fun v => (fst v, snd w ++ snd v)) (ways rx_val (fst (fst w)) (snd (fst w)))) (ways rx_tag l i))).
  generalize (ways rx_tag l i) as tg. induction tg as [|w tg IH]; [reflexivity|]. cbn [flat_map]. rewrite map_app. f_equal; [|exact IH].
  rewrite map_map. apply map_ext. intros v. cbn [fst snd]. rewrite app_assoc. reflexivity.
Qed.
Lemma val_none l i : (forall t, l <> 61 :: 34 :: t) -> ways rx_val l i = [].
Proof.
  intros H. unfold rx_val. cbn [ways]. destruct (prefixb [61; 34] l) eqn:E; [|reflexivity]. apply prefixb_spec in E. destruct E as (t & ->). exfalso. apply (H t). reflexivity.
Qed.
Lemma nq_char c : none_of [34] c = true <-> c <> 34.
Proof. unfold none_of. cbn. rewrite negb_true_iff, orb_false_r, Z.eqb_neq. tauto. Qed.
Lemma val_some v r i : v <> [] -> ~ In 34 v -> ways rx_val (61 :: 34 :: v ++ 34 :: r) i = [(r, i + 2 + zlen v + 1, [(d_value, (i + 2, i + 2 + zlen v))])].
Proof.
  intros Hv Hq. unfold rx_val. cbn [ways]. assert (P : prefixb [61; 34] (61 :: 34 :: v ++ 34 :: r) = true) by (apply prefixb_spec; eexists; reflexivity). rewrite P.
  change (skipn (length [61; 34]) (61 :: 34 :: v ++ 34 :: r)) with (v ++ 34 :: r). change (zlen [61; 34]) with 2. cbn [flat_map fst snd app]. rewrite app_nil_r.
  rewrite fm_map. cbn [fst snd]. rewrite (plus_then (none_of [34])).
  - assert (F : forallb (none_of [34]) v = true) by (apply forallb_forall; intros x Hx; apply nq_char; intros ->; contradiction).
    destruct (take_app (none_of [34]) v (34 :: r) F eq_refl) as [-> ->]. destruct v as [|v0 v']; [congruence|]. set (v := v0 :: v') in *. cbn [fst snd app].
    assert (P2 : prefixb [34] (34 :: r) = true) by (apply prefixb_spec; eexists; reflexivity). rewrite P2. cbn [map fst snd app]. reflexivity.
  - intros x t j Hx. cbn [fst snd]. apply nq_char in Hx. assert (P2 : prefixb [34] (x :: t) = false).
    { destruct (prefixb [34] (x :: t)) eqn:E; [|reflexivity]. apply prefixb_spec in E. destruct E as (z & E). injection E as E _. congruence. }
    rewrite P2. reflexivity.
Qed.
Lemma not_eq61 c t r : c <> 61 -> c :: t <> 61 :: 34 :: r.
Proof. intros H E. injection E as E _. contradiction. Qed.
(** the attributes a continuation of _TAG gives *)
Definition att_K (i : Z) (w : way) : list way :=
  map (fun v => (fst v, snd w ++ snd v ++ [(d_attribute, (i, snd (fst v)))])) (ways rx_val (fst (fst w)) (snd (fst w))).
Lemma att_K_none i l j cs : (forall t, l <> 61 :: 34 :: t) -> att_K i (l, j, cs) = [].
Proof. intros H. unfold att_K. cbn [fst snd]. rewrite val_none by exact H. reflexivity. Qed.
Lemma att_K_name i x r j cs : nm_char x = true -> att_K i (x :: r, j, cs) = [].
Proof. intros H. apply att_K_none. intros t. apply not_eq61. intros ->. vm_compute in H. discriminate. Qed.
Lemma att_K_stop i c t j cs : c <> 61 -> att_K i (c :: t, j, cs) = [].
Proof. intros H. apply att_K_none. intros z. apply not_eq61. exact H. Qed.
(** the part with a prefix *)
Definition att_A (i : Z) (l : pystr) : list way :=
  match take_while ns_char l with
  | [] => []
  | u => match drop_while ns_char l with
         | 58 :: l2 => match take_while nm_char l2 with
                       | [] => []
                       | v => let q := i + zlen u + 1 in let j := q + zlen v in att_K i (drop_while nm_char l2, j, [ns_cap i u; nm_cap q j; tag_cap i j])
                       end
         | _ => []
         end
  end.
Definition att_B (i : Z) (l : pystr) : list way :=
  match take_while nm_char l with [] => [] | v => let j := i + zlen v in att_K i (drop_while nm_char l, j, [nm_cap i j; tag_cap i j]) end.
Lemma att_ways l i : ways rx_attribute l i = att_A i l ++ att_B i l.
Proof. rewrite attribute_ways. exact (tag_then (att_K i) (fun x r j cs => att_K_name i x r j cs) l i). Qed.
(** no way with a prefix, unless the name after the ':' is followed by an equals sign and a quote *)
Lemma att_A_none i l : (forall l2, drop_while ns_char l = 58 :: l2 -> forall t, drop_while nm_char l2 <> 61 :: 34 :: t) -> att_A i l = [].
Proof.
  intros H. unfold att_A. destruct (take_while ns_char l) as [|u0 u]; [reflexivity|]. destruct (drop_while ns_char l) as [|y l2]; [reflexivity|].
  destruct (Z.eq_dec y 58) as [->|N].
  - destruct (take_while nm_char l2) as [|v0 v]; [reflexivity|]. cbv zeta. apply att_K_none. apply H. reflexivity.
  - destruct y as [|y|y]; try reflexivity. do 6 (destruct y as [y|y|]; try reflexivity). congruence.
Qed.
Lemma att_B_none i l : (forall t, drop_while nm_char l <> 61 :: 34 :: t) -> att_B i l = [].
Proof. intros H. unfold att_B. destruct (take_while nm_char l); [reflexivity|]. cbv zeta. apply att_K_none. exact H. Qed.
Lemma drop_cases p (u : pystr) : forallb p u = true \/ exists w z t, u = w ++ z :: t /\ forallb p w = true /\ p z = false.
Proof.
  induction u as [|x u IH]; [left; reflexivity|]. destruct (p x) eqn:E.
  - destruct IH as [IH|(w & z & t & -> & Hw & Hz)]; [left; cbn; rewrite E; exact IH|]. right. exists (x :: w), z, t. split; [reflexivity|]. split; [cbn; rewrite E; exact Hw|exact Hz].
  - right. exists [], x, u. split; [reflexivity|]. split; [reflexivity|exact E].
Qed.
Lemma drop_at p w z t : forallb p w = true -> p z = false -> drop_while p (w ++ z :: t) = z :: t.
Proof. intros Hw Hz. apply (take_app p w (z :: t) Hw Hz). Qed.
(** a run without ':' and ' ' that meets no ':' *)
Definition stops (c : Z) (t : pystr) : Prop := c = 32 \/ ((c = 47 \/ c = 62) /\ ~ In 58 t).
Lemma stops_ns c t l2 : stops c t -> drop_while ns_char (c :: t) <> 58 :: l2.
Proof.
  intros H E. destruct H as [->|(Hc & Ht)]; [discriminate E|].
  assert (I : In 58 (drop_while ns_char (c :: t))) by (rewrite E; left; reflexivity).
  assert (J : In 58 (c :: t)) by (rewrite (drop_while_split ns_char (c :: t)); apply in_or_app; right; exact I).
  destruct J as [J|J]; [destruct Hc; congruence|contradiction].
Qed.
Lemma stops_nm c t : stops c t -> nm_char c = false /\ c <> 61.
Proof. intros [->|([-> | ->] & _)]; (split; [reflexivity|discriminate]). Qed.
(** no attribute begins in a run of name characters that ends at ' ', '/' or '>' *)
Lemma no_attr u c t i : forallb nm_char u = true -> stops c t -> ways rx_attribute (u ++ c :: t) i = [].
Proof.
  intros Hu Hc. destruct (stops_nm c t Hc) as [Hn Hne]. rewrite att_ways, att_A_none, att_B_none; [reflexivity| |].
  - intros z. rewrite drop_at by assumption. apply not_eq61. exact Hne.
  - intros l2 E z. destruct (drop_cases ns_char u) as [Ha|(w & y & v & -> & Hw & Hy)].
    + rewrite drop_while_app_all in E by exact Ha. exfalso. exact (stops_ns c t l2 Hc E).
    + rewrite <- app_assoc in E. cbn [app] in E. rewrite drop_at in E by assumption. injection E as -> <-.
      rewrite drop_at; [apply not_eq61; exact Hne| |exact Hn]. rewrite forallb_app in Hu. apply andb_prop in Hu. destruct Hu as [_ Hu]. cbn [forallb] in Hu. apply andb_prop in Hu. tauto.
Qed.
