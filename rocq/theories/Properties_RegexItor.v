(** Property theorem C112: the pattern and the group filter of an Extract, over its whole life. *)
From Verif Require Import RegexItor SpecCombin CombinFacts CombinFacts2 Properties_Combin.

(** the keys of the filter name groups of the pattern, no group twice *)
Definition fit (re : pattern) (gf : gfilter) : Prop :=
  match gf with GFKeys l => exists gs, Forall2 (denotes re) l gs /\ NoDup gs | GFPred _ => True end.
Definition op_ok (o : rop) : Prop := match o with AssignRe re => re_ok re | AssignFilter _ => True end.
Definition keeps_pattern (o : rop) : Prop := match o with AssignRe _ => False | AssignFilter _ => True end.

Lemma set_filter_exact st gf : re_ok (rs_re st) ->
  (fit (rs_re st) gf /\ set_filter st gf = (RS (rs_re st) gf, None)) \/ (~ fit (rs_re st) gf /\ set_filter st gf = (st, Some ValueError)).
Proof.
  intros O. destruct gf as [l|p]; cbn; [|left; auto]. destruct (C29_validate (rs_re st) l O) as [[F E]|[F E]]; rewrite E; [left|right]; auto.
Qed.
Lemma run_ok ops : Forall op_ok ops -> forall st, re_ok (rs_re st) -> re_ok (rs_re (rrun st ops)).
Proof.
  induction 1 as [|o ops H F IH]; intros st O; [exact O|]. cbn. apply IH. destruct o as [re|gf]; cbn in *; [exact H|].
  destruct (set_filter_exact st gf O) as [[_ ->]|[_ ->]]; exact O.
Qed.
Lemma run_fit ops : Forall keeps_pattern ops -> forall st, re_ok (rs_re st) -> fit (rs_re st) (rs_gf st) ->
  rs_re (rrun st ops) = rs_re st /\ fit (rs_re st) (rs_gf (rrun st ops)).
Proof.
  induction 1 as [|o ops H F IH]; intros st O G; [auto|]. destruct o as [re|gf]; [destruct H|]. cbn.
  destruct (set_filter_exact st gf O) as [[Q ->]|[Q ->]]; cbn; [|apply IH; assumption]. apply (IH (RS (rs_re st) gf)); assumption.
Qed.

(** ** C112 making one, and assigning a filter at any time, succeeds exactly for a filter that fits the pattern in
    force; a refused filter raises ValueError and leaves the itorator as it was *)
Theorem C112_made : forall re gf, re_ok re ->
  (fit re gf -> new_ritor re gf = Ok (RS re gf)) /\ (~ fit re gf -> new_ritor re gf = Err ValueError).
Proof.
  intros re gf O. unfold new_ritor. destruct (set_filter_exact (RS re (GFPred (fun _ _ => true))) gf O) as [[F E]|[F E]]; cbn [rs_re] in *; rewrite E; split; intros; try contradiction; reflexivity.
Qed.
Theorem C112_assigned : forall re gf ops st gf', re_ok re -> new_ritor re gf = Ok st -> Forall op_ok ops ->
  let x := rrun st ops in
  (fit (rs_re x) gf' -> set_filter x gf' = (RS (rs_re x) gf', None)) /\ (~ fit (rs_re x) gf' -> set_filter x gf' = (x, Some ValueError)).
Proof.
  intros re gf ops st gf' O E F x. assert (O' : re_ok (rs_re x)).
  { apply run_ok; [exact F|]. unfold new_ritor in E. destruct (set_filter_exact (RS re (GFPred (fun _ _ => true))) gf O) as [[_ Q]|[_ Q]]; rewrite Q in E; [|discriminate]. injection E as <-. exact O. }
  destruct (set_filter_exact x gf' O') as [[Q ->]|[Q ->]]; split; intros; try contradiction; reflexivity.
Qed.
(** ** C112 the filter in force always fits the pattern in force.
    Proved as long as the pattern is not assigned after the filter in force was. *)
Theorem C112_fit_partial : forall re gf before gf' after st, re_ok re -> new_ritor re gf = Ok st -> Forall op_ok before ->
  let x := rrun st before in fit (rs_re x) gf' -> Forall keeps_pattern after ->
  let y := rrun st (before ++ [AssignFilter gf'] ++ after) in rs_re y = rs_re x /\ fit (rs_re y) (rs_gf y).
Proof.
  intros re gf bef gf' aft st O E F x G A y. destruct (C112_assigned re gf bef st gf' O E F) as [H _]. specialize (H G). fold x in H.
  assert (Y : y = rrun (RS (rs_re x) gf') aft). { unfold y, rrun. rewrite fold_left_app. cbn [app fold_left]. fold (rrun st bef). fold x. cbn [rstep]. rewrite H. reflexivity. }
  assert (O' : re_ok (rs_re x)).
  { apply run_ok; [exact F|]. unfold new_ritor in E. destruct (set_filter_exact (RS re (GFPred (fun _ _ => true))) gf O) as [[_ Q]|[_ Q]]; rewrite Q in E; [|discriminate]. injection E as <-. exact O. }
  destruct (run_fit aft A (RS (rs_re x) gf') O' G) as [P Q]. rewrite Y, P. auto.
Qed.
Theorem C112_kept_partial : forall re gf ops st, re_ok re -> new_ritor re gf = Ok st -> Forall keeps_pattern ops ->
  rs_re (rrun st ops) = re /\ fit re (rs_gf (rrun st ops)).
Proof.
  intros re gf ops st O E A. unfold new_ritor in E. destruct (set_filter_exact (RS re (GFPred (fun _ _ => true))) gf O) as [[F Q]|[_ Q]]; rewrite Q in E; [|discriminate]. injection E as <-. exact (run_fit ops A (RS re gf) O F).
Qed.
Print Assumptions C112_kept_partial.
(** itor = Extract((?P<x>.)(?P<y>.), group_filter=['y']); itor.re = (?P<x>.): the filter is kept although the new
    pattern has no such group, and every use raises ValueError *)
Theorem C112_fit_refuted : let re := RE 2 [(lit "x", 1%nat); (lit "y", 2%nat)] in let re' := RE 1 [(lit "x", 1%nat)] in let gf := GFKeys [KStr (lit "y")] in
  re_ok re /\ re_ok re' /\ new_ritor re gf = Ok (RS re gf) /\ rrun (RS re gf) [AssignRe re'] = RS re' gf /\ ~ fit re' gf /\
  forall h df limit ms, snd (from_re h re' gf df limit ms) = Err ValueError.
Proof.
  cbv zeta. split; [|split; [|split; [reflexivity|split; [reflexivity|split]]]].
  - split; [repeat constructor; cbn; intuition discriminate|]. split; [repeat constructor; cbn; intuition discriminate|]. repeat constructor; cbn; lia.
  - split; [repeat constructor; cbn; intuition discriminate|]. split; [repeat constructor; cbn; intuition discriminate|]. repeat constructor; cbn; lia.
  - intros (gs & F & _). inversion F as [|k g ? ? D]; subst. cbn in D. destruct D as [D|[]]. discriminate.
  - intros. reflexivity.
Qed.
Print Assumptions C112_fit_refuted.
Example C112_case : let re := RE 2 [(lit "x", 1%nat); (lit "y", 2%nat)] in let gf := GFKeys [KStr (lit "y"); KInt 0] in
  fit re gf /\ set_filter (RS re (GFKeys [KInt 1])) gf = (RS re gf, None) /\ set_filter (RS re (GFKeys [KInt 1])) (GFKeys [KInt 1; KStr (lit "x")]) = (RS re (GFKeys [KInt 1]), Some ValueError).
Proof. cbv zeta. split; [|split; reflexivity]. exists [2%nat; 0%nat]. split; [repeat constructor; cbn; auto; lia|]. repeat constructor; cbn; intuition discriminate. Qed.
