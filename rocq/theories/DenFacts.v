(** What a pattern of Table.v's engine (without references and look-around) stands for, with its groups. *)
From Verif Require Import SpecNlp Table PyFacts NlpFacts NlpFacts2 NlpFacts7 NlpFacts9 TableFacts TableFacts4 TableFacts5.

Definition caps := list (pystr * span).
(** rounds of a repetition, the first at i *)
Fixpoint rounds (D : Z -> pystr -> caps -> Prop) (i : Z) (its : list (pystr * caps)) : Prop :=
  match its with [] => True | p :: r => fst p <> [] /\ D i (fst p) (snd p) /\ rounds D (i + zlen (fst p)) r end.
(** r stands for the text u, at i, capturing c *)
Fixpoint den (r : trx) (i : Z) (u : pystr) (c : caps) : Prop :=
  match r with
  | ZCls p => exists x, u = [x] /\ p x = true /\ c = []
  | ZStr l => u = l /\ c = []
  | ZSeq a b => exists u1 u2 c1 c2, u = u1 ++ u2 /\ c = c1 ++ c2 /\ den a i u1 c1 /\ den b (i + zlen u1) u2 c2
  | ZAlt a b => den a i u c \/ den b i u c
  | ZRep _ least most a => exists its, u = concat (map fst its) /\ c = concat (map snd its) /\ rounds (den a) i its /\ (least <= length its)%nat /\ match most with Some m => (length its <= m)%nat | None => True end
  | ZGrp k a => exists d, den a i u d /\ c = d ++ [(k, (i, i + zlen u))]
  | _ => False
  end.
Fixpoint bare (r : trx) : bool :=
  match r with ZCls _ | ZStr _ => true | ZSeq a b | ZAlt a b => bare a && bare b | ZRep _ _ _ a | ZGrp _ a => bare a | _ => false end.
Section Den.
  Variables (s : pystr) (e : Z).
  Hypothesis He : e <= zlen s.
  Definition denotes_ (f : state -> list state) (D : Z -> pystr -> caps -> Prop) : Prop :=
    forall x, 0 <= fst x <= e -> forall w, In w (f x) <-> exists u c, D (fst x) u c /\ written s e (fst x) u /\ w = (fst x + zlen u, snd x ++ c).
  Lemma pos_len (u : pystr) : u <> [] -> 0 < zlen u. Proof. destruct u as [|a u]; [congruence|]. intros _. rewrite zlen_cons. pose proof (zlen_nonneg u). lia. Qed.
  Lemma rep_sound g f D : denotes_ f D -> forall fuel least most x w, 0 <= fst x <= e -> In w (zrep g f fuel least most x) ->
    exists its, rounds D (fst x) its /\ (least <= length its)%nat /\ match most with Some m => (length its <= m)%nat | None => True end /\ written s e (fst x) (concat (map fst its)) /\ w = (fst x + zlen (concat (map fst its)), snd x ++ concat (map snd its)).
  Proof.
    intros P. induction fuel as [|fuel IH]; intros least most x w Hx Hw; [destruct Hw|]. cbn [zrep] in Hw.
    assert (S0 : In w (match least with O => [x] | S _ => [] end) \/ In w (match most with Some O => [] | _ => flat_map (zrep g f fuel (pred least) (option_map pred most)) (filter (fun y => fst x <? fst y) (f x)) end)) by (destruct g; apply in_app_or in Hw; tauto). clear Hw.
    destruct S0 as [H|H].
    - destruct least; [|destruct H]. destruct H as [<-|[]]. exists []. split; [exact I|]. split; [cbn; lia|]. split; [destruct most; cbn; [lia|exact I]|]. cbn. change (zlen (@nil Z)) with 0. rewrite Z.add_0_r, app_nil_r. split; [apply written_nil; exact Hx|destruct x; reflexivity].
    - assert (H' : In w (flat_map (zrep g f fuel (pred least) (option_map pred most)) (filter (fun y => fst x <? fst y) (f x))) /\ match most with Some O => False | _ => True end) by (destruct most as [[|m]|]; [destruct H| |]; auto). clear H. destruct H' as [H M].
      apply in_flat_map in H. destruct H as (y & Hy & H). apply filter_In in Hy. destruct Hy as [Hy Ly]. apply (P x Hx) in Hy. destruct Hy as (u & c & Du & Wu & ->). cbn [fst snd] in *. pose proof (written_end _ _ _ _ Wu) as B. pose proof (zlen_nonneg u) as L.
      destruct (IH _ _ (fst x + zlen u, snd x ++ c) w ltac:(cbn [fst]; lia) H) as (its & R & L1 & L2 & W & ->). cbn [fst snd] in *. exists ((u, c) :: its). cbn [rounds fst snd map concat length].
      split; [split; [intros ->; change (zlen (@nil Z)) with 0 in Ly; lia|split; [exact Du|exact R]]|]. split; [lia|]. split; [destruct most as [[|m]|]; [destruct M|cbn [option_map pred] in L2; lia|exact I]|]. split; [apply (written_app s e He); [lia|auto]|]. rewrite zlen_app, !app_assoc, Z.add_assoc. reflexivity.
  Qed.
  Lemma rep_complete g f D : denotes_ f D -> forall its fuel least most x, 0 <= fst x <= e -> e - fst x < Z.of_nat fuel -> rounds D (fst x) its -> (least <= length its)%nat -> match most with Some m => (length its <= m)%nat | None => True end ->
    written s e (fst x) (concat (map fst its)) -> In (fst x + zlen (concat (map fst its)), snd x ++ concat (map snd its)) (zrep g f fuel least most x).
  Proof.
    intros P. induction its as [|[u c] its IH]; intros fuel least most x Hx Lf R Ll Lm W; destruct fuel as [|fuel]; try lia; cbn [zrep].
    - cbn [length] in Ll. destruct least; [|lia]. cbn [map concat]. change (zlen (@nil Z)) with 0. rewrite Z.add_0_r, app_nil_r. assert (Ex : (fst x, snd x) = x) by (destruct x; reflexivity). rewrite Ex. destruct g; apply in_or_app; [right|left]; left; reflexivity.
    - cbn [rounds fst snd map concat length] in *. destruct R as (Nu & Du & R). apply (written_app s e He) in W; [|lia]. destruct W as [Wu W]. pose proof (pos_len u Nu) as L. pose proof (written_end _ _ _ _ Wu) as B.
      assert (H : In (fst x + zlen (u ++ concat (map fst its)), snd x ++ c ++ concat (map snd its)) (flat_map (zrep g f fuel (pred least) (option_map pred most)) (filter (fun y => fst x <? fst y) (f x)))).
      { apply in_flat_map. exists (fst x + zlen u, snd x ++ c). split; [apply filter_In; split; [apply (P x Hx); exists u, c; auto|cbn [fst]; lia]|].
        pose proof (IH fuel (pred least) (option_map pred most) (fst x + zlen u, snd x ++ c) ltac:(cbn [fst]; lia) ltac:(cbn [fst]; lia) R ltac:(lia) ltac:(destruct most; cbn [option_map]; [lia|exact I]) W) as H. cbn [fst snd] in H. rewrite zlen_app, app_assoc, Z.add_assoc. exact H. }
      destruct most as [[|m]|]; [lia| |]; destruct g; apply in_or_app; auto.
  Qed.
  Lemma ways_den : forall r, bare r = true -> denotes_ (zways r s e) (den r).
  Proof.
    induction r as [p|l|a IHa b IHb|a IHa b IHb|g least most a IHa|k a IHa|k|a IHa| |]; intros Hb x Hx w; cbn [bare] in Hb; try discriminate Hb; cbn [zways den].
    - split.
      + intros H. destruct (char_is p s e (fst x)) eqn:E; [|destruct H]. destruct H as [<-|[]]. apply char_is_spec in E. destruct E as [L E]. destruct (E ltac:(lia)) as (c & G & Pc). exists [c], []. split; [exists c; auto|]. change (zlen [c]) with 1. rewrite app_nil_r. split; [|reflexivity]. split; [lia|]. change (zlen [c]) with 1. split; [lia|]. apply zsub_single. exact G.
      + intros (u & c & (y & -> & Py & ->) & W & ->). change (zlen [y]) with 1. rewrite app_nil_r. destruct W as (W0 & W1 & W2). change (zlen [y]) with 1 in *. rewrite (char_is_at p s e (fst x) y); [left; reflexivity|lia| |exact Py]. assert (G : zget (zsub s (fst x) (fst x + 1)) 0 = Some y) by (rewrite W2; reflexivity). rewrite zget_zsub in G by lia. rewrite Z.add_0_r in G. exact G.
    - split.
      + intros H. destruct (str_at l s e (fst x)) eqn:E; [|destruct H]. destruct H as [<-|[]]. exists l, []. split; [auto|]. rewrite app_nil_r. split; [|reflexivity]. unfold str_at in E. apply andb_true_iff in E. destruct E as [E1 E2]. apply eqb_str_eq in E2. split; [lia|]. split; [lia|exact E2].
      + intros (u & c & [-> ->] & W & ->). rewrite (str_written s e l (fst x) ltac:(lia) W). rewrite app_nil_r. left. reflexivity.
    - apply andb_true_iff in Hb. destruct Hb as [H1 H2]. split.
      + intros H. apply in_flat_map in H. destruct H as (y & Hy & H). apply (IHa H1 x Hx) in Hy. destruct Hy as (u1 & c1 & D1 & W1 & ->). pose proof (written_end _ _ _ _ W1) as B. pose proof (zlen_nonneg u1) as L. apply (IHb H2) in H; [|cbn [fst]; lia]. destruct H as (u2 & c2 & D2 & W2 & ->). cbn [fst snd] in *.
        exists (u1 ++ u2), (c1 ++ c2). split; [exists u1, u2, c1, c2; auto|]. split; [apply (written_app s e He); [lia|auto]|]. rewrite zlen_app, app_assoc, Z.add_assoc. reflexivity.
      + intros (u & c & (u1 & u2 & c1 & c2 & -> & -> & D1 & D2) & W & ->). apply (written_app s e He) in W; [|lia]. destruct W as [W1 W2]. pose proof (written_end _ _ _ _ W1) as B. pose proof (zlen_nonneg u1) as L. apply in_flat_map. exists (fst x + zlen u1, snd x ++ c1). split; [apply (IHa H1 x Hx); exists u1, c1; auto|]. apply (IHb H2); [cbn [fst]; lia|]. cbn [fst snd]. exists u2, c2. split; [exact D2|]. split; [exact W2|]. rewrite zlen_app, app_assoc, Z.add_assoc. reflexivity.
    - apply andb_true_iff in Hb. destruct Hb as [H1 H2]. split.
      + intros H. apply in_app_or in H. destruct H as [H|H]; [apply (IHa H1 x Hx) in H|apply (IHb H2 x Hx) in H]; destruct H as (u & c & D & R); exists u, c; auto.
      + intros (u & c & [D|D] & R); apply in_or_app; [left; apply (IHa H1 x Hx)|right; apply (IHb H2 x Hx)]; exists u, c; auto.
    - split.
      + intros H. destruct (rep_sound g _ _ (IHa Hb) _ least most x w Hx H) as (its & R & L1 & L2 & W & ->). eexists. eexists. split; [exists its; split; [reflexivity|]; split; [reflexivity|]; auto|]. auto.
      + intros (u & c & (its & -> & -> & R & L1 & L2) & W & ->). apply (rep_complete g _ _ (IHa Hb)); try assumption. lia.
    - split.
      + intros H. apply in_map_iff in H. destruct H as (y & <- & H). apply (IHa Hb x Hx) in H. destruct H as (u & c & D & W & ->). cbn [fst snd]. eexists u, _. split; [exists c; split; [exact D|reflexivity]|]. split; [exact W|]. rewrite app_assoc. reflexivity.
      + intros (u & c & (d & D & ->) & W & ->). apply in_map_iff. exists (fst x + zlen u, snd x ++ d). cbn [fst snd]. rewrite app_assoc. split; [reflexivity|]. apply (IHa Hb x Hx). exists u, d. auto.
  Qed.
End Den.
