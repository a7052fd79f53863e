(** Proofs about the table styles TYPE_1 and TYPE_2. *)
From Verif Require Import PyFacts HeapFacts4 TableFacts SpecStyle.

Lemma repeat_concat n : concat (repeat (lit "-") n) = repeat 45 n.
Proof. induction n as [|n IH]; [reflexivity|]. cbn [repeat concat]. rewrite IH. reflexivity. Qed.
Lemma all_dash us : Forall (fun v => v <> [] /\ lang dash_rx v) us -> us = repeat (lit "-") (length us).
Proof. intros F. induction F as [|v us [_ E] F IH]; [reflexivity|]. cbn [length repeat]. rewrite <- IH. cbn in E. rewrite E. reflexivity. Qed.
Lemma dashes_lang g least u : lang (ZRep g least None dash_rx) u <-> exists n, (least <= n)%nat /\ u = repeat 45 n.
Proof.
  split.
  - intros (us & -> & F & L & _). exists (length us). split; [exact L|]. rewrite (all_dash us F) at 1. apply repeat_concat.
  - intros (n & L & ->). exists (repeat (lit "-") n). split; [symmetry; apply repeat_concat|]. split; [|split; [rewrite repeat_length; exact L|exact Logic.I]].
    apply Forall_forall. intros v Hv. apply repeat_spec in Hv. subst v. split; [discriminate|reflexivity].
Qed.
(** a repeated pattern: counts *)
Lemma counted (f : nat -> pystr) r us : (forall v, lang r v <-> exists k, (1 <= k)%nat /\ v = f k) -> Forall (fun v => v <> [] /\ lang r v) us ->
  exists ns, Forall (fun k => (1 <= k)%nat) ns /\ concat us = flat_map f ns /\ length ns = length us.
Proof.
  intros H F. induction F as [|v us [_ L] F (ns & N & E & K)]; [exists []; repeat split; constructor|]. apply H in L. destruct L as (k & Lk & ->). exists (k :: ns). split; [constructor; assumption|]. cbn [concat flat_map length]. rewrite E, K. auto.
Qed.
Lemma counting (f : nat -> pystr) r ns : (forall v, lang r v <-> exists k, (1 <= k)%nat /\ v = f k) -> (forall k, f k <> []) -> Forall (fun k => (1 <= k)%nat) ns ->
  Forall (fun v => v <> [] /\ lang r v) (map f ns).
Proof. intros H N F. induction F as [|k ns L F IH]; [constructor|]. cbn [map]. constructor; [|exact IH]. split; [apply N|]. apply H. eauto. Qed.
Lemma plus_lang v : lang (ZSeq (ZStr (lit "+")) (ZPlus dash_rx)) v <-> exists k, (1 <= k)%nat /\ v = [43] ++ repeat 45 k.
Proof.
  split.
  - intros (a & b & -> & Ea & Lb). cbn in Ea. apply dashes_lang in Lb. destruct Lb as (n & Ln & ->). exists n. rewrite Ea. auto.
  - intros (k & Lk & ->). exists [43], (repeat 45 k). split; [reflexivity|]. split; [reflexivity|]. apply dashes_lang. eauto.
Qed.
Lemma bar_lang v : lang (ZSeq (ZPlus dash_rx) (ZStr (lit "|"))) v <-> exists k, (1 <= k)%nat /\ v = repeat 45 k ++ [124].
Proof.
  split.
  - intros (a & b & -> & La & Eb). cbn in Eb. apply dashes_lang in La. destruct La as (n & Ln & ->). exists n. rewrite Eb. auto.
  - intros (k & Lk & ->). exists (repeat 45 k), [124]. split; [reflexivity|]. split; [apply dashes_lang; eauto|reflexivity].
Qed.
Lemma many r f g u : (forall v, lang r v <-> exists k, (1 <= k)%nat /\ v = f k) -> (forall k, f k <> []) ->
  lang (ZRep g 1 None r) u <-> exists ns, ns <> [] /\ Forall (fun k => (1 <= k)%nat) ns /\ u = flat_map f ns.
Proof.
  intros H N. split.
  - intros (us & -> & F & L & _). destruct (counted f r us H F) as (ns & Ns & E & K). exists ns. split; [destruct ns; [rewrite <- K in L; cbn in L; lia|discriminate]|]. auto.
  - intros (ns & Ne & Fn & ->). exists (map f ns). split; [apply flat_map_concat_map|]. split; [exact (counting f r ns H N Fn)|]. split; [|exact Logic.I]. rewrite map_length. destruct ns; [congruence|cbn; lia].
Qed.
Lemma rule_lang u : lang rule_rx u <-> plus_rule u.
Proof.
  unfold rule_rx, plus_rule. split.
  - intros (a & b & -> & La & Lb). apply dashes_lang in La. destruct La as (n & Ln & ->). apply (many _ (fun k => [43] ++ repeat 45 k) _ _ plus_lang ltac:(discriminate)) in Lb. destruct Lb as (ns & N & F & ->). exists n, ns. auto.
  - intros (n & ns & Ln & N & F & ->). exists (repeat 45 n), (flat_map (fun k => [43] ++ repeat 45 k) ns). split; [reflexivity|]. split; [apply dashes_lang; eauto|]. apply (many _ (fun k => [43] ++ repeat 45 k) _ _ plus_lang ltac:(discriminate)). eauto.
Qed.
Lemma edge_lang u : lang edge_rx u <-> edge u.
Proof. exact (dashes_lang true 2 u). Qed.
Lemma dash_bar k : repeat 45 k ++ [124] <> [].
Proof. destruct k; discriminate. Qed.
Lemma bars_lang u : lang bar_rx u <-> bar_rule u.
Proof.
  unfold bar_rx, bar_rule. split.
  - intros (a & b & -> & Ea & Lb). cbn in Ea. subst a. apply (many _ (fun k => repeat 45 k ++ [124]) _ _ bar_lang dash_bar) in Lb. destruct Lb as (ns & N & F & ->). exists ns. auto.
  - intros (ns & N & F & ->). exists [124], (flat_map (fun k => repeat 45 k ++ [124]) ns). split; [reflexivity|]. split; [reflexivity|]. apply (many _ (fun k => repeat 45 k ++ [124]) _ _ bar_lang dash_bar). eauto.
Qed.

(** layouts of these styles *)
Definition plain_lay (top : pystr) (rows : list (pystr * pystr)) (last : option (pystr * pystr)) : layout := Lay None top None rows last None.
Lemma no_opt u : fits_opt None u -> u = None.
Proof. destruct u as [v|]; [intros (r & E & _); discriminate E|reflexivity]. Qed.
Lemma no_head (h : option (pystr * pystr)) : match h with Some (h, x) => h <> [] /\ fits_opt None (Some x) | None => True end -> h = None.
Proof. destruct h as [[u x]|]; [intros (_ & H); apply no_opt in H; discriminate H|reflexivity]. Qed.
Lemma lay_1 l : layout_ok type_1 l <-> exists top rows, grid_1 top rows /\ l = plain_lay top rows None.
Proof.
  split.
  - destruct l as [pre top head rows last post]. intros (L1 & L2 & L3 & L4 & (L5 & L5') & L6). cbn in L1, L2, L3, L4, L5, L5', L6. apply no_opt in L1. apply no_head in L3. subst pre head last post. exists top, rows. split; [|reflexivity]. split; [apply rule_lang; exact L2|]. split; [exact L5|]. eapply Forall_impl; [|exact L4]. cbn beta. intros p [N R]. split; [exact N|]. apply rule_lang. exact R.
  - intros (top & rows & (G1 & G2 & G3) & ->). repeat split; try exact Logic.I; [apply rule_lang; exact G1| |exact G2]. cbn [ly_rows plain_lay]. eapply Forall_impl; [|exact G3]. cbn beta. intros p [N R]. split; [exact N|]. apply rule_lang. exact R.
Qed.
Lemma lay_2 l : layout_ok type_2 l <-> exists top r u x, edge top /\ Forall (fun p => fst p <> [] /\ bar_rule (snd p)) r /\ u <> [] /\ edge x /\ l = plain_lay top r (Some (u, x)).
Proof.
  split.
  - destruct l as [pre top head rows last post]. intros (L1 & L2 & L3 & L4 & (u & x & L5 & Nu & L5') & L6). cbn in L1, L2, L3, L4, L5, L6. apply no_opt in L1. apply no_head in L3. subst pre head last post. exists top, rows, u, x. split; [apply edge_lang; exact L2|]. split; [|split; [exact Nu|]; split; [apply edge_lang; exact L5'|reflexivity]]. eapply Forall_impl; [|exact L4]. cbn beta. intros p [N R]. split; [exact N|]. apply bars_lang. exact R.
  - intros (top & r & u & x & G1 & G2 & Nu & Ge & ->). split; [exact Logic.I|]. split; [apply edge_lang; exact G1|]. split; [exact Logic.I|]. split; [|split; [|reflexivity]].
    + cbn [ly_rows plain_lay]. eapply Forall_impl; [|exact G2]. cbn beta. intros p [N R]. split; [exact N|]. apply bars_lang. exact R.
    + exists u, x. split; [reflexivity|]. split; [exact Nu|]. apply edge_lang. exact Ge.
Qed.
Definition with_last (rows : list (pystr * pystr)) (last : option (pystr * pystr)) := rows ++ opt_list last (fun p => [p]).
Lemma plain_chips ind top rows last : chips ind (plain_lay top rows last) = (None, top) :: flat_map (lines_of ind row_desc) (with_last rows last).
Proof. unfold chips, plain_lay, with_last. cbn [ly_pre ly_start ly_header ly_rows ly_last ly_post opt_list app]. rewrite flat_map_app, app_nil_r. destruct last as [p|]; cbn [opt_list flat_map]; rewrite ?app_nil_r; reflexivity. Qed.
Lemma lines_text ind p : text_of (lines_of ind row_desc p) = next_line ind (fst p) ++ next_line ind (snd p).
Proof. unfold text_of, lines_of, break, next_line. cbn [flat_map snd]. rewrite <- !app_assoc. rewrite app_nil_r. reflexivity. Qed.
Lemma rows_chips ind rows : text_of (flat_map (lines_of ind row_desc) rows) = rows_text ind rows.
Proof. induction rows as [|p r IH]; [reflexivity|]. cbn [flat_map]. rewrite text_app, IH, lines_text. reflexivity. Qed.
Lemma plain_text ind top rows last : text_of (chips ind (plain_lay top rows last)) = grid_text ind top (with_last rows last).
Proof. rewrite plain_chips. unfold grid_text. rewrite <- rows_chips. reflexivity. Qed.
Lemma rows_itos_at s ind rows i : itos_at s i (flat_map (lines_of ind row_desc) rows) = rows_itos s ind i rows.
Proof.
  revert i. induction rows as [|p r IH]; intros i; [reflexivity|]. cbn [flat_map]. unfold lines_of at 1, break. cbn [app itos_at rows_itos]. cbn [app]. rewrite IH. unfold next_line. rewrite !zlen_app, !zlen_cons. change (zlen (@nil Z)) with 0. f_equal; [f_equal; f_equal; lia|]. f_equal. lia.
Qed.
Lemma plain_itos s ind top rows last i : itos_at s i (chips ind (plain_lay top rows last)) = rows_itos s ind (i + zlen top) (with_last rows last).
Proof. rewrite plain_chips. cbn [itos_at app]. apply rows_itos_at. Qed.
