(** Facts for Nlp.v: the sentences of a paragraph. *)
From Verif Require Import NlpDoc PyFacts ArborFacts3 ArborFacts4 NlpFacts NlpFacts2 NlpFacts7 NlpFacts9 NlpFacts10 NlpFacts11.

(** no terminator or closing mark is white space *)
Definition end_marks : pystr := lit ".!?" ++ [8230] ++ suffix_chars.
Definition blanks : pystr := ws_chars ++ eol_chars.
Lemma end_not_blank c : In c end_marks -> ~ In c blanks.
Proof.
  intros H B. assert (E : forallb (fun x => negb (existsb (Z.eqb x) blanks)) end_marks = true) by (vm_compute; reflexivity). rewrite forallb_forall in E. specialize (E c H). apply negb_true_iff in E. assert (Q : existsb (Z.eqb c) blanks = true) by (apply existsb_exists; exists c; split; [exact B|apply Z.eqb_refl]). congruence.
Qed.
Lemma ends_in_last s i u c : 0 <= i <= zlen s -> ends_in s i (u ++ [c]) -> ends_in s i [c].
Proof.
  intros Hi H. unfold ends_in in *. assert (Hw := H). destruct Hw as (H0 & _). rewrite zlen_app in *. change (zlen [c]) with 1 in *. apply (written_app s i ltac:(lia)) in H; [|exact H0]. destruct H as [_ H]. replace (i - (zlen u + 1) + zlen u) with (i - 1) in H by lia. exact H.
Qed.
Lemma ends_in_one s i c d : ends_in s i [c] -> ends_in s i [d] -> c = d.
Proof. intros (_ & _ & A) (_ & _ & B). change (zlen [c]) with 1 in A. change (zlen [d]) with 1 in B. congruence. Qed.
Lemma sentence_ends_last C s i : 0 <= i <= zlen s -> sentence_ends C s i -> exists c, In c end_marks /\ ends_in s i [c].
Proof.
  intros Hi (w & u & v & _ & Hu & Hv & W). fold (ends_in s i (w :: u ++ v)) in W.
  assert (L : exists x c, w :: u ++ v = x ++ [c] /\ In c end_marks).
  { destruct (exists_last (l := w :: u ++ v) ltac:(discriminate)) as (x & c & E). exists x, c. split; [exact E|].
    assert (Hc : In c (u ++ v)). { assert (N : u ++ v <> []). { intros Q. apply app_eq_nil in Q. destruct Q as [-> _]. destruct Hu as [Q|[(n & Ln & Q)|[Q|[Q _]]]]; [discriminate Q|destruct n; [lia|discriminate Q]|discriminate Q|congruence]. }
      destruct (exists_last N) as (y & c' & E'). rewrite E' in E. rewrite E'. change (w :: y ++ [c']) with ((w :: y) ++ [c']) in E. apply app_inj_tail in E. destruct E as [_ ->]. apply in_or_app. right. left. reflexivity. }
    unfold end_marks. apply in_app_or in Hc. destruct Hc as [Hc|Hc].
    - destruct Hu as [->|[(n & _ & ->)|[->|[_ F]]]].
      + destruct Hc as [<-|[]]. left. reflexivity.
      + apply repeat_spec in Hc. subst c. left. reflexivity.
      + destruct Hc as [<-|[]]. vm_compute. tauto.
      + rewrite Forall_forall in F. specialize (F c Hc). destruct F as [<-|[<-|[]]]; vm_compute; tauto.
    - rewrite Forall_forall in Hv. specialize (Hv c Hc). apply in_or_app. right. apply in_or_app. right. exact Hv. }
  destruct L as (x & c & E & Hc). exists c. split; [exact Hc|]. apply (ends_in_last s i x c Hi). rewrite <- E. exact W.
Qed.
Lemma space_last u : space u -> exists x c, u = x ++ [c] /\ In c blanks.
Proof.
  unfold space. change space_texts with sen_ws. unfold sen_ws. intros H. apply in_app_or in H. destruct H as [[<-|[<-|[]]]|H].
  - exists [13], 10. split; [reflexivity|]. vm_compute. tauto.
  - exists [], 10. split; [reflexivity|]. vm_compute. tauto.
  - apply in_map_iff in H. destruct H as (c & <- & Hc). exists [], c. split; [reflexivity|]. apply in_or_app. left. exact Hc.
Qed.
Lemma spaces_last us : Forall space us -> us <> [] -> exists x c, concat us = x ++ [c] /\ In c blanks.
Proof.
  intros F N. destruct (exists_last N) as (l & u & ->). apply Forall_app in F. destruct F as [_ F]. inversion F; subst. destruct (space_last u ltac:(assumption)) as (x & c & -> & Hc). exists (concat l ++ x), c. rewrite concat_app. cbn [concat]. rewrite app_nil_r, app_assoc. auto.
Qed.

Section Sent.
  Variables (C : classes) (s : pystr) (e : Z).
  Hypothesis He : e <= zlen s.
  Notation plain := (plain s e).
  Notation hits := (hits s e).
  Lemma blank_no_end i u x c : 0 <= i -> written s e i u -> u = x ++ [c] -> In c blanks -> ~ sentence_ends C s (i + zlen u).
  Proof.
    intros Hi W E Hc Se. pose proof (written_end s e i u W). pose proof (zlen_nonneg u). destruct (sentence_ends_last C s (i + zlen u) ltac:(lia) Se) as (d & Hd & Wd).
    assert (Q : ends_in s (i + zlen u) [c]). { apply (ends_in_last s _ x c); [lia|]. rewrite <- E. destruct W as (W0 & W1 & W2). split; [lia|]. replace (i + zlen u - zlen u) with i by lia. split; [lia|exact W2]. }
    rewrite (ends_in_one _ _ _ _ Wd Q) in Hd. exact (end_not_blank c Hd Hc).
  Qed.
  Lemma sentence_hits i j : 0 <= i <= e -> hits (sentence_rx C) i j <-> sentence_ends C s i /\ exists r, In r (rules C) /\ hits r i j.
  Proof.
    intros Hi. unfold sentence_rx. rewrite hits_seq. split.
    - intros (k & H1 & H2). apply (hits_behind s e) in H1; [|exact Hi]. destruct H1 as [-> H1]. split; [apply (ends_p C s e He i Hi); apply H1; reflexivity|]. apply hits_alts. exact H2.
    - intros (H1 & H2). exists i. split; [|apply hits_alts; exact H2]. apply (hits_behind s e); [exact Hi|]. split; [reflexivity|]. split; [reflexivity|]. intros _. apply (ends_p C s e He i Hi). exact H1.
  Qed.
  Lemma break_p i : 0 <= i <= e -> break_at C s e i <-> nways (sentence_rx C) s e i <> [].
  Proof.
    intros Hi. rewrite <- hits_some. unfold break_at. split.
    - intros [Se H]. assert (G : exists j r, In r (rules C) /\ hits r i j); [|destruct G as (j & G); exists j; apply sentence_hits; [exact Hi|]; split; [exact Se|exact G]].
      destruct H as [(us & F & W & E)|[(u & v & Hu & Hv & W)|[(u & p & w & v & Hu & Hp & Hw & Hv & W)|(u & p & c & Hu & Hp & Hc & W & N)]]].
      + exists e. eexists. split; [left; reflexivity|]. exact (rule1_q s e He i us Hi F W E).
      + exists (i + zlen (u ++ v)). eexists. split; [right; left; reflexivity|]. apply (rule2_p s e He i _ Hi). exists [u; v]. cbn [concat]. rewrite app_nil_r. split; [cbn; lia|]. split; [constructor; [exact Hu|constructor; [exact Hv|constructor]]|]. auto.
      + exists (i + zlen u). eexists. split; [right; right; left; reflexivity|]. apply (rule3_p s e He i _ Hi). exists u, p, w, v. auto 8.
      + exists (i + zlen u). eexists. split; [right; right; right; left; reflexivity|]. apply (rule4_p C s e He i _ Hi). split; [exact N|]. exists u, p, c. auto.
    - intros (j & H). apply (sentence_hits i j Hi) in H. destruct H as (Se & r & Hr & H). split; [exact Se|]. destruct Hr as [<-|[<-|[<-|[<-|[]]]]].
      + apply (rule1_p s e He i j Hi) in H. destruct H as (us & F & W & -> & [E|[E W']]); [left; exists us; auto|]. left. exists (us ++ [[10]]). rewrite concat_app. cbn [concat]. rewrite app_nil_r. split; [apply Forall_app; split; [exact F|constructor; [|constructor]]|split].
        * right. left. reflexivity.
        * apply (written_app s e He); [lia|auto].
        * rewrite zlen_app. change (zlen [10]) with 1. lia.
      + apply (rule2_p s e He i j Hi) in H. destruct H as (us & L & F & W & _). right. left. destruct us as [|u [|v us]]; [cbn in L; lia|cbn in L; lia|]. inversion F as [|? ? Hu F']; inversion F' as [|? ? Hv F'']; subst. exists u, v. split; [exact Hu|]. split; [exact Hv|]. cbn [concat] in W. rewrite app_assoc in W. apply (written_app s e He) in W; [apply W|lia].
      + apply (rule3_p s e He i j Hi) in H. destruct H as (u & p & w & v & H1 & H2 & H3 & H4 & H5 & _). right. right. left. exists u, p, w, v. auto.
      + apply (rule4_p C s e He i j Hi) in H. destruct H as (N & u & p & c & H1 & H2 & H3 & H4 & _). right. right. right. exists u, p, c. auto.
  Qed.
  (** what is skipped *)
  Lemma rules_spaces r i j : 0 <= i <= e -> In r (rules C) -> hits r i j -> exists us, Forall space us /\ written s e i (concat us) /\ j = i + zlen (concat us) /\ (us = [] -> r = NSeq (NStar (NSet sen_ws)) NEnd /\ (i = e \/ i + 1 = e /\ written s e i [10])).
  Proof.
    intros Hi Hr H. destruct Hr as [<-|[<-|[<-|[<-|[]]]]].
    - apply (rule1_p s e He i j Hi) in H. destruct H as (us & F & W & E & Q). exists us. split; [exact F|]. split; [exact W|]. split; [exact E|]. intros ->. split; [reflexivity|]. cbn [concat] in E. change (zlen (@nil Z)) with 0 in E. rewrite Z.add_0_r in E. subst j. exact Q.
    - apply (rule2_p s e He i j Hi) in H. destruct H as (us & L & F & W & E). exists us. split; [exact F|]. split; [exact W|]. split; [exact E|]. intros ->. cbn in L. lia.
    - apply (rule3_p s e He i j Hi) in H. destruct H as (u & p & w & v & Hu & _ & _ & _ & W & E). exists [u]. cbn [concat]. rewrite app_nil_r. split; [constructor; [exact Hu|constructor]|]. apply (written_app s e He) in W; [|lia]. split; [apply W|]. split; [exact E|discriminate].
    - apply (rule4_p C s e He i j Hi) in H. destruct H as (_ & u & p & c & Hu & _ & _ & W & E). exists [u]. cbn [concat]. rewrite app_nil_r. split; [constructor; [exact Hu|constructor]|]. apply (written_app s e He) in W; [|lia]. split; [apply W|]. split; [exact E|discriminate].
  Qed.
  (** the white space at the end is skipped as a whole *)
  Lemma rule1_head i w ws : 0 <= i -> i < e -> nways (NSeq (NStar (NSet sen_ws)) NEnd) s e i = w :: ws -> i < fst w.
  Proof.
    intros H0 Hi E. assert (Hw : hits (NSeq (NStar (NSet sen_ws)) NEnd) i (fst w)) by (exists (snd w); rewrite E; left; destruct w; reflexivity).
    apply (rule1_p s e He i _ ltac:(lia)) in Hw. destruct Hw as (us & F & W & Ew & Q). destruct (Z.eq_dec (fst w) i) as [Ei|N]; [exfalso|pose proof (zlen_nonneg (concat us)); lia].
    rewrite Ei in Q. destruct Q as [Q|[Q W']]; [lia|].
    assert (A : accepts s e (NSet sen_ws) i [10]) by (apply accepts_set; [exact W'|right; left; reflexivity]). destruct A as (c & A). change (i + zlen [10]) with (i + 1) in A.
    cbn [nways] in E. unfold NStar in E. cbn [nways] in E. set (A' := nways (NSet sen_ws) s e) in *. change (flat_map (fun l => if str_at l s e i then [(i + zlen l, [])] else []) sen_ws) with (A' i) in *. 
    cbn [rep_ways] in E. unfold then_ at 1 in E. rewrite flat_map_app in E. cbn [Nat.pred option_map] in E.
    match type of E with ?x ++ _ = _ => set (first := x) in * end.
    assert (Fg : Forall (fun v => i < fst v) first).
    { apply Forall_forall. intros v Hv. unfold first in Hv. apply in_flat_map in Hv. destruct Hv as (x & Hx & Hv). apply in_map_iff in Hv. destruct Hv as (y & <- & Hy). cbn [fst]. apply in_then in Hx. destruct Hx as (p & q & Hp & Hq & ->). apply filter_In in Hp. destruct Hp as [_ Hp]. cbn [fst] in Hy.
      apply rep_rounds in Hq. destruct Hq as (n & _ & _ & R). apply rounds_le in R. assert (fst y = fst q) by (destruct (_ || _); [destruct Hy as [<-|[]]; reflexivity|destruct Hy]). lia. }
    destruct first as [|v vs] eqn:Ef.
    - assert (Nf : In (i + 1, c ++ []) (then_ (filter (fun w => i <? fst w) (A' i)) (rep_ways A' (Z.to_nat (e - i)) 0 None))).
      { apply in_then. exists (i + 1, c), (i + 1, []). split; [apply filter_In; split; [exact A|cbn; lia]|]. split; [|reflexivity]. cbn [fst]. destruct (Z.to_nat (e - i)) as [|n] eqn:En; [lia|]. cbn [rep_ways]. apply in_or_app. right. left. reflexivity. }
      assert (Nf' : In (i + 1, (c ++ []) ++ []) []); [|destruct Nf']. rewrite <- Ef. unfold first. apply in_flat_map. exists (i + 1, c ++ []). split; [exact Nf|]. cbn [fst snd]. replace (i + 1 =? e) with true by lia. cbn [orb]. left. reflexivity.
    - cbn [app] in E. injection E as -> _. inversion Fg; subst. lia.
  Qed.
  Lemma alts_head l i w ws : nways (NAlts l) s e i = w :: ws -> exists r ws', In r l /\ nways r s e i = w :: ws'.
  Proof.
    induction l as [|r l IH]; cbn [NAlts fold_right]; [discriminate|]. fold (NAlts l). cbn [nways]. destruct (nways r s e i) as [|x xs] eqn:E.
    - cbn [app]. intros H. destruct (IH H) as (r' & ws' & H1 & H2). exists r', ws'. split; [right; exact H1|exact H2].
    - intros H. cbn [app] in H. injection H as <- _. exists r, xs. split; [left; reflexivity|exact E].
  Qed.
  Lemma sentence_skip i w ws : 0 <= i <= e -> nways (sentence_rx C) s e i = w :: ws ->
    spaces_over s e i (fst w) /\ (i < fst w \/ i = e /\ fst w = e) /\ (i < fst w -> ~ break_at C s e (fst w)).
  Proof.
    intros Hi E. assert (A : exists c ws', nways (NAlts (rules C)) s e i = (fst w, c) :: ws').
    { unfold sentence_rx in E. set (b := NBehind true _) in E. set (al := NAlts (rules C)) in *. assert (Q : nways (NSeq b al) s e i = then_ (nways b s e i) (nways al s e)) by reflexivity. rewrite Q in E. clear Q.
      assert (Qb : nways b s e i = [] \/ nways b s e i = [(i, [])]) by (unfold b; cbn [nways]; destruct (eqb _ _); auto). destruct Qb as [Qb|Qb]; rewrite Qb in E; unfold then_ in E; cbn [flat_map fst snd app] in E; [discriminate E|]. rewrite app_nil_r in E. destruct (nways al s e i) as [|[j c] vs]; [discriminate E|]. cbn [map fst snd app] in E. injection E as <- _. exists c, vs. reflexivity. }
    destruct A as (c & ws' & A). apply alts_head in A. destruct A as (r & ws'' & Hr & Ar).
    assert (Hh : hits r i (fst w)) by (exists c; rewrite Ar; left; reflexivity).
    destruct (rules_spaces r i (fst w) Hi Hr Hh) as (us & F & W & Ej & N).
    assert (P : us = [] -> i = e).
    { intros ->. destruct (N eq_refl) as [-> [Q|[Q Q']]]; [exact Q|]. exfalso. pose proof (rule1_head i _ _ ltac:(lia) ltac:(lia) Ar) as L. cbn [fst concat] in *. change (zlen (@nil Z)) with 0 in Ej. lia. }
    split; [exists us; auto|]. split.
    - destruct us as [|u us]; [right; specialize (P eq_refl); cbn [concat] in Ej; change (zlen (@nil Z)) with 0 in Ej; lia|]. left. inversion F as [|? ? Hu _]; subst. pose proof (nonempty_len u (space_full u Hu)). cbn [concat] in Ej. rewrite zlen_app in Ej. pose proof (zlen_nonneg (concat us)). lia.
    - intros L [Se _]. assert (us <> []) by (intros ->; cbn [concat] in Ej; change (zlen (@nil Z)) with 0 in Ej; lia). destruct (spaces_last us F ltac:(assumption)) as (x & d & Ex & Hd). rewrite Ej in Se. exact (blank_no_end i (concat us) x d ltac:(lia) W Ex Hd Se).
  Qed.
  Theorem sentences_found a ss : 0 <= a < e -> ~ sentence_ends C s a -> Forall2 (fun x t => t_start t = fst x /\ t_stop t = snd x) (leftover a e (found_spans (sentence_rx C) s a e)) ss ->
    laid (break_at C s e) (spaces_over s e) e a ss.
  Proof.
    intros Ha Ns F. rewrite leftover_wide in F by lia. apply (laid_finds (sentence_rx C) s e _ _ break_p sentence_skip a _ (found_finds (sentence_rx C) s e a)); [lia|lia|intros k Hk; lia|left; intros [Q _]; contradiction|exact F].
  Qed.
End Sent.
