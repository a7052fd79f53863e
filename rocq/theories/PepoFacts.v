(** Proofs: Compact and Tree. *)
From Verif Require Export SpecPepo HeapFacts4 JsonFacts2 ArborFacts4 HighlightFacts.
From Coq Require Import Lia.

Lemma preorder_of h i l : hwf h -> acyclic h -> (i < length h)%nat -> walk_levels (depth_fuel h) h i 1 false = Ok l ->
  preorder h i (map (fun '(z, j) => (Z.to_nat z, j)) l) /\ Forall (fun '(z, _) => 0 <= z) l.
Proof.
  intros H Ha Hi W. destruct (rep_ex h i H Ha Hi) as (t & Ht & Hh).
  destruct (walk_spec h H t (depth_fuel h) i 1 Ht) as (l' & W1 & _ & W3 & W4); [unfold depth_fuel; lia|]. rewrite W in W1. injection W1 as <-.
  assert (P : Forall (fun '(z, _) => 0 <= z) l).
  { apply Forall_forall. intros [z j] I. apply W3 in I. destruct I as (n & _ & ->). lia. }
  split; [split|exact P].
  - intros d j. rewrite in_map_iff. split.
    + intros ([z j'] & [= <- <-] & I). apply W3 in I. destruct I as (n & B & ->). exists n. split; [exact B|lia].
    + intros (n & B & ->). exists (1 + Z.of_nat n, j). split; [f_equal; lia|]. apply W3. exists n. auto.
  - rewrite map_map. replace (map (fun x : Z * nat => snd (let '(z, j) := x in (Z.to_nat z, j))) l) with (map snd l); [exact W4|].
    apply map_ext. intros [z j]. reflexivity.
Qed.

Section Compact.
Variables (E : fmt_env) (fstr ls ind : pystr) (h : heap) (num fm : nat -> pystr).
Hypothesis Hw : hwf h.
Hypothesis Hnum : forall k, fe_int E (Z.of_nat k) (lit ",") = Ok (num k).
Local Notation crow_text := (crow_text ls ind num fm).

Lemma compact_spec : forall t fuel i level k, rep h t i -> (t_height t <= fuel)%nat ->
  (forall j, self_or_anc h i j -> ito_format E (n_f (nd h j)) fstr = Ok (fm j)) ->
  exists l rest, walk_levels fuel h i (Z.of_nat level + 1) false = Ok l /\
    Forall2 (fun '(lv, j) '(d, o, j') => j' = j /\ Z.of_nat d = lv /\ ordinal h j o) l rest /\
    compact_dump fuel E fstr ls ind true h level (k, i) = Ok (concat (map crow_text ((level, k, i) :: rest))).
Proof.
  induction t as [f ts IH] using tree_ind'. intros [|fuel] i level k Hr Hh Hf; [cbn in Hh; lia|].
  rewrite walk_unfold. cbn [compact_dump fst snd]. rewrite Hnum. cbn [bind]. rewrite Hf by (left; reflexivity). cbn [bind].
  apply rep_unfold in Hr. destruct Hr as [_ F].
  assert (G : forall ts1 ks1 ks0, Forall2 (rep h) ts1 ks1 -> n_kids (nd h i) = ks0 ++ ks1 -> (forall t, In t ts1 -> In t ts) ->
    exists l rest, walk_go (fun c => walk_levels fuel h c (Z.of_nat level + 1 + 1) false) (Z.of_nat level + 1) false ks1 = Ok l /\
      Forall2 (fun '(lv, j) '(d, o, j') => j' = j /\ Z.of_nat d = lv /\ ordinal h j o) l rest /\
      cat2 (map_res (compact_dump fuel E fstr ls ind true h (S level)) (combine (seq (S (length ks0)) (length ks1)) ks1)) = Ok (concat (map crow_text rest))).
  { induction ts1 as [|t ts1 IHt]; intros ks1 ks0 F1 Ek Hin; inversion F1 as [|? c ? ks2 Hc F2]; subst.
    - exists [], []. split; [reflexivity|]. split; [constructor|reflexivity].
    - rewrite Forall_forall in IH.
      assert (Kc : In c (n_kids (nd h i))) by (rewrite Ek; apply in_or_app; right; left; reflexivity).
      destruct (hwf_kid h Hw _ _ Kc) as (Pc & _ & _ & _).
      destruct (IH t (Hin t (or_introl eq_refl)) fuel c (S level) (S (length ks0)) Hc) as (w & rw & W1 & W2 & W3).
      { pose proof (t_height_kids f ts t (Hin t (or_introl eq_refl))). lia. }
      { intros j Hj. apply Hf. destruct Hj as [->|Hj]; right; [apply anc_parent; exact Pc|apply (anc_trans h i c j); [apply anc_parent; exact Pc|exact Hj]]. }
      destruct (IHt ks2 (ks0 ++ [c]) F2) as (l & rest & G1 & G2 & G3); [rewrite <- app_assoc; exact Ek|intros; apply Hin; right; assumption|].
      exists ((Z.of_nat level + 1, c) :: w ++ l), ((S level, S (length ks0), c) :: rw ++ rest). split; [|split].
      + cbn [walk_go]. replace (Z.of_nat (S level) + 1) with (Z.of_nat level + 1 + 1) in W1 by lia. rewrite W1. cbn [bind].
        fold (walk_go (fun c => walk_levels fuel h c (Z.of_nat level + 1 + 1) false) (Z.of_nat level + 1) false). rewrite G1. reflexivity.
      + constructor; [|apply Forall2_app; assumption]. split; [reflexivity|]. split; [lia|]. split; [lia|]. exists i. split; [exact Pc|].
        rewrite Ek. replace (S (length ks0) - 1)%nat with (length ks0) by lia. rewrite nth_error_app2, Nat.sub_diag by lia. reflexivity.
      + cbn [length seq combine map_res]. fold (map_res (compact_dump fuel E fstr ls ind true h (S level))). rewrite W3. cbn [bind].
        rewrite app_length in G3. cbn [length] in G3. rewrite Nat.add_1_r in G3. unfold cat2 in *.
        destruct (map_res _ _) as [ys|e]; cbn [bind] in *; [|discriminate]. injection G3 as G3. cbn [map concat].
        rewrite G3, map_app, concat_app, <- app_assoc. reflexivity. }
  destruct (G ts (n_kids (nd h i)) [] F eq_refl (fun _ x => x)) as (l & rest & G1 & G2 & G3).
  exists l, rest. split; [exact G1|]. split; [exact G2|]. cbn [length] in G3. rewrite G3. cbn [bind map concat crow_text].
  rewrite <- !app_assoc. reflexivity.
Qed.

Lemma compact_one i k : acyclic h -> (i < length h)%nat ->
  (forall j, self_or_anc h i j -> ito_format E (n_f (nd h j)) fstr = Ok (fm j)) ->
  exists rows, compact_rows h i k rows /\ compact_dump (depth_fuel h) E fstr ls ind true h 0 (k, i) = Ok (concat (map crow_text rows)).
Proof.
  intros Ha Hi Hf. destruct (rep_ex h i Hw Ha Hi) as (t & Ht & Hh).
  destruct (compact_spec t (depth_fuel h) i 0 k Ht) as (l & rest & W & F & D); [unfold depth_fuel; lia|exact Hf|].
  cbn [Z.of_nat Z.add] in W. destruct (preorder_of h i l Hw Ha Hi W) as [P _].
  eexists. split; [|exact D]. eexists. exists rest. split; [exact P|]. split; [reflexivity|].
  clear - F. induction F as [|[lv j] [[d o] j'] l rest (-> & <- & O) F IH]; [constructor|]. cbn [map]. constructor; [|exact IH].
  split; [reflexivity|]. split; [lia|exact O].
Qed.
Lemma compact_all itos : acyclic h -> Forall (fun i => (i < length h)%nat) itos ->
  (forall i j, In i itos -> self_or_anc h i j -> ito_format E (n_f (nd h j)) fstr = Ok (fm j)) ->
  exists rowss, Forall2 (fun '(k, i) rows => compact_rows h i k rows) (combine (seq 1 (length itos)) itos) rowss /\
    compact_dumps E fstr ls ind true h itos = Ok (concat (map crow_text (concat rowss))).
Proof.
  intros Ha Hi Hf. unfold compact_dumps. generalize 1%nat as n. induction itos as [|i itos IH]; intros n.
  - exists []. split; [constructor|reflexivity].
  - inversion Hi as [|? ? Hi1 Hi2]; subst. destruct (compact_one i n Ha Hi1) as (rows & R & D); [intros j; apply Hf; left; reflexivity|].
    destruct (IH Hi2 (fun i' j I => Hf i' j (or_intror I)) (S n)) as (rowss & F & D2).
    exists (rows :: rowss). split; [constructor; assumption|]. unfold cat2 in *. cbn [length seq combine map_res].
    fold (map_res (compact_dump (depth_fuel h) E fstr ls ind true h 0)). rewrite D. cbn [bind].
    destruct (map_res _ _) as [ys|e]; cbn [bind] in *; [|discriminate]. injection D2 as D2. cbn [map concat]. rewrite D2, map_app, concat_app. reflexivity.
Qed.
Lemma compact_flat itos : (forall i, In i itos -> ito_format E (n_f (nd h i)) fstr = Ok (fm i)) ->
  compact_dumps E fstr ls ind false h itos = Ok (concat (map (fun '(k, i) => crow_text (0%nat, k, i)) (combine (seq 1 (length itos)) itos))).
Proof.
  intros Hf. unfold compact_dumps, cat2. rewrite (map_res_ok _ (fun '(k, i) => crow_text (0%nat, k, i))); [reflexivity|].
  intros [k i] I. apply in_combine_r in I. cbn [depth_fuel compact_dump fst snd]. rewrite Hnum. cbn [bind]. rewrite Hf by exact I. cbn [bind crow_text times].
  rewrite app_nil_r. reflexivity.
Qed.
End Compact.

Section Tree.
Variables (E : fmt_env) (fstr ls ind : pystr) (h : heap) (fm : nat -> pystr).
Hypothesis Hw : hwf h.
Definition tline (r : nat) (lj : Z * nat) (x : pystr) : Prop :=
  exists g b, guides h ind r (snd lj) g /\ branch h ind (snd lj) b /\ x = g ++ b ++ fm (snd lj) ++ ls.
Definition trow (n : nat) (prefix mark bar : pystr) (c : nat) : res pystr :=
  do t <- ito_format E (n_f (nd h c)) fstr;
  do r <- tree_children n E fstr ls ind h (prefix ++ bar ++ ind) c;
  Ok (prefix ++ mark ++ times (length ind) t_horz ++ t ++ ls ++ r).
Lemma tree_unfold n prefix i : tree_children (S n) E fstr ls ind h prefix i =
  do a <- cat2 (map_res (trow n prefix t_tee t_vert) (removelast (n_kids (nd h i))));
  match n_kids (nd h i) with
  | [] => Ok a
  | _ => do b <- trow n prefix t_elbow (lit " ") (last (n_kids (nd h i)) 0%nat); Ok (a ++ b)
  end.
Proof. reflexivity. Qed.
Lemma before_irrefl c : ~ h_before h c c.
Proof. unfold h_before. lia. Qed.
Lemma last_here i c ks0 : n_kids (nd h i) = ks0 ++ [c] -> is_last h c.
Proof.
  intros Ek. assert (In c (n_kids (nd h i))) as I by (rewrite Ek; apply in_or_app; right; left; reflexivity).
  exists i, ks0. split; [apply (hwf_kid h Hw _ _ I)|exact Ek].
Qed.
Lemma not_last_here i c ks0 ks1 z : n_kids (nd h i) = ks0 ++ c :: ks1 ++ [z] -> ~ is_last h c.
Proof.
  intros Ek (p & l & P & El). assert (In c (n_kids (nd h i))) as I by (rewrite Ek; apply in_or_app; right; left; reflexivity).
  destruct (hwf_kid h Hw _ _ I) as (Pc & _). rewrite P in Pc. injection Pc as ->. rewrite Ek in El.
  change (ks0 ++ c :: ks1 ++ [z]) with (ks0 ++ (c :: ks1) ++ [z]) in El. rewrite app_assoc in El. apply app_inj_tail in El. destruct El as [_ ->].
  pose proof (hwf_sorted h Hw i) as S. rewrite Ek in S. unfold kids_sorted in S. apply SS_app_inv in S. destruct S as (_ & S & _).
  inversion S as [|? ? S1 S2]; subst. rewrite Forall_forall in S2. apply (before_irrefl c). apply S2. apply in_or_app. right. left. reflexivity.
Qed.

Lemma tree_spec r : forall t fuel i level g, rep h t i -> (t_height t <= fuel)%nat ->
  (forall j, n_par (nd h j) = Some i -> guides h ind r j g) ->
  (forall j, self_or_anc h i j -> ito_format E (n_f (nd h j)) fstr = Ok (fm j)) ->
  exists l rest, walk_levels fuel h i level false = Ok l /\ Forall2 (tline r) l rest /\
    tree_children fuel E fstr ls ind h g i = Ok (concat rest).
Proof.
  induction t as [f ts IH] using tree_ind'. intros [|fuel] i level g Hr Hh Hg Hf; [cbn in Hh; lia|].
  rewrite walk_unfold, tree_unfold. apply rep_unfold in Hr. destruct Hr as [_ F]. rewrite Forall_forall in IH.
  assert (One : forall t c mark bar, In t ts -> rep h t c -> In c (n_kids (nd h i)) ->
     (is_last h c /\ mark = t_elbow /\ bar = [32]) \/ (~ is_last h c /\ mark = t_tee /\ bar = t_vert) ->
     exists w rw, walk_levels fuel h c (level + 1) false = Ok w /\ Forall2 (tline r) ((level, c) :: w) rw /\ trow fuel g mark bar c = Ok (concat rw)).
  { intros t c mark bar It Rt Kc Hm. destruct (hwf_kid h Hw _ _ Kc) as (Pc & _ & _ & _).
    destruct (IH t It fuel c (level + 1) (g ++ bar ++ ind) Rt) as (w & rw & W1 & W2 & W3).
    - pose proof (t_height_kids f ts t It). lia.
    - intros j Hj. destruct Hm as [(L & _ & ->)|(L & _ & ->)]; [eapply guides_blank|eapply guides_bar]; try eassumption; apply Hg; exact Pc.
    - intros j Hj. apply Hf. destruct Hj as [->|Hj]; right; [apply anc_parent; exact Pc|apply (anc_trans h i c j); [apply anc_parent; exact Pc|exact Hj]].
    - exists w. eexists ((g ++ mark ++ times (length ind) t_horz ++ fm c ++ ls) :: rw). split; [exact W1|]. split.
      + constructor; [|exact W2]. exists g, (mark ++ times (length ind) t_horz). split; [apply Hg; exact Pc|]. split.
        * destruct Hm as [(L & -> & ->)|(L & -> & ->)]; [left|right]; (split; [exact L|reflexivity]).
        * cbn [snd]. rewrite <- !app_assoc. reflexivity.
      + unfold trow. rewrite Hf by (right; apply anc_parent; exact Pc). cbn [bind]. rewrite W3. cbn [bind concat]. rewrite <- !app_assoc. reflexivity. }
  remember (n_kids (nd h i)) as ks eqn:Ek. destruct ks as [|k0 ks'] using rev_ind.
  - exists [], []. split; [reflexivity|]. split; [constructor|reflexivity].
  - clear IHks'. rewrite removelast_last, last_last. symmetry in Ek.
    apply Forall2_app_inv_r in F. destruct F as (ts' & tz & F1 & F2 & ->). inversion F2 as [|t0 ? tz' ? R0 F3]; subst. inversion F3; subst. clear F2 F3.
    assert (G : forall ts1 ks1 ks0, Forall2 (rep h) ts1 ks1 -> ks' = ks0 ++ ks1 -> (forall t, In t ts1 -> In t ts') ->
      exists l rest, walk_go (fun c => walk_levels fuel h c (level + 1) false) level false ks1 = Ok l /\
        Forall2 (tline r) l rest /\ cat2 (map_res (trow fuel g t_tee t_vert) ks1) = Ok (concat rest)).
    { induction ts1 as [|t ts1 IHt]; intros ks1 ks0 F2 Ek' Hin; inversion F2 as [|? c ? ks2 Hc F3]; subst.
      - exists [], []. split; [reflexivity|]. split; [constructor|reflexivity].
      - destruct (One t c t_tee t_vert) as (w & rw & W1 & W2 & W3).
        + apply in_or_app. left. apply Hin. left. reflexivity.
        + exact Hc.
        + apply in_or_app. left. apply in_or_app. right. left. reflexivity.
        + right. split; [|auto]. rewrite <- app_assoc in Ek. cbn [app] in Ek. exact (not_last_here i c ks0 ks2 k0 Ek).
        + destruct (IHt ks2 (ks0 ++ [c]) F3) as (l & rest & G1 & G2 & G3); [rewrite <- app_assoc; reflexivity|intros; apply Hin; right; assumption|].
          exists ((level, c) :: w ++ l), (rw ++ rest). split; [|split].
          * cbn [walk_go]. rewrite W1. cbn [bind]. fold (walk_go (fun c => walk_levels fuel h c (level + 1) false) level false). rewrite G1. reflexivity.
          * change ((level, c) :: w ++ l) with (((level, c) :: w) ++ l). apply Forall2_app; assumption.
          * cbn [map_res]. fold (map_res (trow fuel g t_tee t_vert)). unfold cat2 in *. rewrite W3. cbn [bind].
            destruct (map_res _ _) as [ys|e]; cbn [bind] in *; [|discriminate]. injection G3 as G3. cbn [concat]. rewrite G3, concat_app. reflexivity. }
    destruct (G ts' ks' [] F1 eq_refl (fun _ x => x)) as (l & rest & G1 & G2 & G3). clear G.
    destruct (One t0 k0 t_elbow [32]) as (w & rw & W1 & W2 & W3).
    + apply in_or_app. right. left. reflexivity.
    + exact R0.
    + apply in_or_app. right. left. reflexivity.
    + left. split; [exact (last_here i k0 ks' Ek)|auto].
    + exists (l ++ (level, k0) :: w), (rest ++ rw). split; [|split].
      * rewrite walk_go_app, G1. cbn [bind walk_go]. rewrite W1. cbn [bind]. rewrite app_nil_r. reflexivity.
      * apply Forall2_app; assumption.
      * rewrite G3. cbn [bind]. change (lit " ") with [32]. rewrite W3. cbn [bind]. rewrite concat_app. destruct (ks' ++ [k0]) eqn:X; [destruct ks'; discriminate|]. reflexivity.
Qed.
Lemma tree_one i : acyclic h -> (i < length h)%nat ->
  (forall j, self_or_anc h i j -> ito_format E (n_f (nd h j)) fstr = Ok (fm j)) ->
  exists lines, tree_lines h ind ls fm i lines /\
    (do t <- ito_format E (n_f (nd h i)) fstr; do r <- tree_children (depth_fuel h) E fstr ls ind h [] i; Ok (t ++ ls ++ r)) = Ok (concat lines).
Proof.
  intros Ha Hi Hf. destruct (rep_ex h i Hw Ha Hi) as (t & Ht & Hh).
  destruct (tree_spec i t (depth_fuel h) i 1 [] Ht) as (l & rest & W & F & D); [unfold depth_fuel; lia|intros j Hj; apply guides_child; exact Hj|exact Hf|].
  destruct (preorder_of h i l Hw Ha Hi W) as [P _].
  exists ((fm i ++ ls) :: rest). split.
  - eexists. exists rest. split; [exact P|]. split; [reflexivity|].
    clear - F. induction F as [|[lv j] x l rest X F IH]; [constructor|]. cbn [map]. constructor; [|exact IH]. exact X.
  - rewrite Hf by (left; reflexivity). cbn [bind]. rewrite D. cbn [bind concat]. rewrite <- app_assoc. reflexivity.
Qed.
Lemma tree_all b itos : acyclic h -> Forall (fun i => (i < length h)%nat) itos ->
  (forall i j, In i itos -> self_or_anc h i j -> ito_format E (n_f (nd h j)) fstr = Ok (fm j)) ->
  exists liness, Forall2 (tree_lines h ind ls fm) itos liness /\ tree_dumps E fstr ls ind b h itos = Ok (concat (concat liness)).
Proof.
  intros Ha Hi Hf. unfold tree_dumps. induction itos as [|i itos IH].
  - exists []. split; [constructor|reflexivity].
  - inversion Hi as [|? ? Hi1 Hi2]; subst. destruct (tree_one i Ha Hi1) as (lines & L & D); [intros j; apply Hf; left; reflexivity|].
    destruct (IH Hi2 (fun i' j I => Hf i' j (or_intror I))) as (liness & F & D2).
    exists (lines :: liness). split; [constructor; assumption|]. unfold cat2 in *. cbn [map_res].
    match goal with |- context [map_res ?f itos] => fold (map_res f) end. rewrite D. cbn [bind].
    destruct (map_res _ itos) as [ys|e]; cbn [bind] in *; [|discriminate]. injection D2 as D2. cbn [concat]. rewrite D2, concat_app. reflexivity.
Qed.
End Tree.
