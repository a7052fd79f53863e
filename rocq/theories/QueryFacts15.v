(** Ito.path finds the node. *)
From Verif Require Export HeapFacts4 QueryFacts14.

Lemma position_spec x l : forall k n, position x l k = Some n -> (k <= n)%nat /\ nth_error l (n - k) = Some x.
Proof.
  induction l as [|y l IH]; intros k n H; [discriminate|]. cbn [position] in H. destruct (Nat.eqb_spec y x) as [->|N].
  - injection H as <-. rewrite Nat.sub_diag. auto.
  - apply IH in H as [H1 H2]. split; [lia|]. replace (n - k)%nat with (S (n - S k)) by lia. exact H2.
Qed.
Lemma position_in x l : In x l -> forall k, exists n, position x l k = Some n.
Proof.
  induction l as [|y l IH]; [intros []|]. intros H k. cbn [position]. destruct (Nat.eqb_spec y x) as [->|N]; [eauto|]. destruct H as [->|H]; [congruence|]. apply IH. exact H.
Qed.
Lemma number_pick (l : list nat) n x (b : nat * nat -> bool) : nth_error l n = Some x -> (forall ec, b ec = true <-> fst ec = n) -> map snd (filter b (number l)) = [x].
Proof.
  unfold number. intros H B. assert (G : forall l k n, nth_error l n = Some x -> (forall ec, b ec = true <-> fst ec = (k + n)%nat) -> map snd (filter b (combine (seq k (length l)) l)) = [x]).
  { clear. induction l as [|y l IH]; intros k n H B; [destruct n; discriminate|]. cbn [length seq combine filter]. destruct n as [|n].
    - cbn in H. injection H as ->. replace (b (k, x)) with true by (symmetry; apply B; cbn; lia). cbn [map snd]. f_equal.
      assert (Q : forall l j, (k < j)%nat -> filter b (combine (seq j (length l)) l) = []).
      { clear -B. induction l as [|y l IH]; intros j Hj; [reflexivity|]. cbn [length seq combine filter]. replace (b (j, y)) with false; [apply IH; lia|]. symmetry. apply not_true_is_false. intros C. apply B in C. cbn in C. lia. }
      rewrite Q by lia. reflexivity.
    - replace (b (k, y)) with false by (symmetry; apply not_true_is_false; intros C; apply B in C; cbn in C; lia). apply (IH (S k) n H). intros ec. rewrite B. split; lia. }
  apply (G l 0%nat n H). exact B.
Qed.
Lemma path_safe fuel h i s : path_fuel fuel h i = Ok s -> safe (lit "{}") false s /\ exists s', s = 46 :: s'.
Proof.
  revert i s. induction fuel as [|n IH]; intros i s H; [discriminate|]. cbn [path_fuel] in H. destruct (n_par (nd h i)) as [p|]; [|injection H as <-; split; [apply safe_plain; intros c [<-|[]]; cbn; lia|eexists; reflexivity]].
  destruct (position i (n_kids (nd h p)) 0) as [k|]; [|discriminate]. destruct (path_fuel n h p) as [s0|] eqn:E0; [|discriminate]. cbn [bind] in H. injection H as <-. destruct (IH p s0 E0) as (S0 & s' & ->). split.
  - apply (safe_app (lit "{}") (46 :: s') (lit "/*[i:" ++ dec k ++ lit "]") false S0). apply (safe_app (lit "{}") (lit "/*[i:") (dec k ++ lit "]")); [apply safe_plain; intros c Hc; cbn in *; lia|]. apply (safe_app (lit "{}") (dec k) (lit "]")); apply safe_plain; intros c Hc; [apply dec_digits in Hc|]; cbn in *; lia.
  - eexists. reflexivity.
Qed.
Lemma path_find_gen E h r : plain_delims E -> ints_ok E -> py_isprintable E 46 = true -> py_isprintable E 42 = true -> hwf h ->
  forall fuel i root, get_root fuel h i = Ok root ->
  exists s, path_fuel fuel h i = Ok s /\ exists q, parse_query E s = Ok q /\ run_from q h r ([root], None) = ([i], None).
Proof.
  intros HE HI P1 P2 H. induction fuel as [|n IH]; intros i root G; [discriminate|]. cbn [get_root path_fuel] in *. destruct (n_par (nd h i)) as [p|] eqn:Ep.
  - destruct (IH p root G) as (s & S1 & q & Q1 & Q2). destruct (hwf_par h H p i Ep) as [Hin _]. destruct (position_in i _ Hin 0%nat) as (k & K1). rewrite K1, S1. cbn [bind]. eexists. split; [reflexivity|].
    destruct (position_spec _ _ _ _ K1) as [_ K2]. rewrite Nat.sub_0_r in K2.
    destruct (find_indexes E h r p (AX AxKids false OsNo) (lit "*") (lit "i") [One k] (number (n_kids (nd h p)))) as (b & F1 & F2).
    + exact HE.
    + exact HI.
    + exists []. split; [left; reflexivity|reflexivity].
    + exists 42. split; [left; reflexivity|exact P2].
    + left. reflexivity.
    + discriminate.
    + unfold axis_find. cbn [ax_key ax_rev]. unfold axis_of. rewrite gbind_one. unfold to_ecs. cbn [ax_self ax_rev]. destruct (n_kids (nd h p)); reflexivity.
    + change (lit "*" ++ written (lit "i") (index_list [One k])) with (42 :: 91 :: 105 :: 58 :: dec k ++ [93]) in F1. unfold ito_find_all in F1.
      destruct (parse_query E (42 :: 91 :: 105 :: 58 :: dec k ++ [93])) as [q2|e] eqn:Q3; [|discriminate F1].
      exists (q ++ q2). split.
      * change (s ++ lit "/*[i:" ++ dec k ++ lit "]") with (s ++ 47 :: 42 :: 91 :: 105 :: 58 :: dec k ++ [93]). destruct (path_safe _ _ _ _ S1) as (SS & s' & Es). apply parse_compose.
        -- unfold complete. apply (safe_after (lit "{}")); [cbn; tauto|cbn; tauto|exact SS].
        -- exists 46. split; [rewrite Es; left; reflexivity|exact P1].
        -- exists 42. split; [left; reflexivity|exact P2].
        -- exists q, q2. auto.
      * rewrite run_app, Q2. change (query_find_all q2 h r p = ([i], None)). rewrite F1. f_equal. apply (number_pick _ k i); [exact K2|]. intros ec. rewrite F2. split; [intros (c & [<-|[]] & C); exact C|intros C; exists (One k); split; [left; reflexivity|exact C]].
  - injection G as <-. exists (lit "."). split; [reflexivity|].
    pose proof (find_filters E h r i (AX AxSelf false OsNo) (lit ".") None [] [(0, i)]%nat (fun _ _ => true)) as F. cbn [text_of atoms part part_truth filter map snd] in F. rewrite List.app_nil_r in F.
    unfold ito_find_all in F. destruct (parse_query E (lit ".")) as [q|e] eqn:Q.
    + exists q. split; [reflexivity|]. apply F; try assumption; try reflexivity.
      * exists []. split; [left; reflexivity|reflexivity].
      * intros g [].
      * intros u v C. destruct u; discriminate.
      * split; [reflexivity|]. intros u v C. destruct u as [|x [|y u]]; discriminate.
      * exists 46. split; [left; reflexivity|exact P1].
      * intros g ec [].
    + exfalso. assert (X : graise (A := nat) e = ([i], None)); [|discriminate X]. apply F; try assumption; try reflexivity.
      * exists []. split; [left; reflexivity|reflexivity].
      * intros g [].
      * intros u v C. destruct u; discriminate.
      * split; [reflexivity|]. intros u v C. destruct u as [|x [|y u]]; discriminate.
      * exists 46. split; [left; reflexivity|exact P1].
      * intros g ec [].
Qed.
Lemma path_find E h r i : plain_delims E -> ints_ok E -> py_isprintable E 46 = true -> py_isprintable E 42 = true -> hwf h -> acyclic h -> (i < length h)%nat ->
  exists root s, root_of h root i /\ ito_path h i = Ok s /\ ito_find_all E h r root s = ([i], None) /\ ito_find E h r root s = Ok (Some i).
Proof.
  intros HE HI P1 P2 H Ha Hi. destruct (get_root_full h i H Ha Hi) as (root & G & R & _). destruct (path_find_gen E h r HE HI P1 P2 H _ _ _ G) as (s & S1 & q & Q1 & Q2).
  exists root, s. split; [exact R|]. split; [exact S1|]. unfold ito_find_all, ito_find. rewrite Q1. cbn [bind]. unfold query_find. change (query_find_all q h r root) with (run_from q h r ([root], None)). rewrite Q2. auto.
Qed.
Lemma path_total h i : hwf h -> acyclic h -> (i < length h)%nat -> exists s, ito_path h i = Ok s.
Proof.
  intros H Ha Hi. destruct (get_root_full h i H Ha Hi) as (root & G & _). unfold ito_path. revert i root Hi G. generalize (depth_fuel h). induction n as [|n IH]; intros i root Hi G; [discriminate|]. cbn [get_root path_fuel] in *.
  destruct (n_par (nd h i)) as [p|] eqn:Ep; [|eauto]. destruct (hwf_par h H p i Ep) as [Hin Hp]. destruct (position_in i _ Hin 0%nat) as (k & ->). destruct (IH p root Hp G) as (s & ->). cbn [bind]. eauto.
Qed.
(** paths determine the node in a tree *)
Lemma dec_tail m n s t : s ++ lit "/*[i:" ++ dec m ++ lit "]" = t ++ lit "/*[i:" ++ dec n ++ lit "]" -> s = t /\ m = n.
Proof.
  intros E. assert (R : forall d d' : pystr, (forall c, In c d \/ In c d' -> 48 <= c <= 57) -> forall s t : pystr, s ++ (lit "/*[i:" ++ d ++ lit "]") = t ++ (lit "/*[i:" ++ d' ++ lit "]") -> s = t /\ d = d').
  { clear. intros d d' D s t E. rewrite !app_assoc in E. apply app_inj_tail in E as [E _]. revert d' D E. induction d as [|x d IH] using rev_ind; intros d' D E.
    - rewrite List.app_nil_r in E. destruct d' as [|y d'] using rev_ind; [rewrite List.app_nil_r in E; apply app_inv_tail in E; auto|clear IHd']. exfalso. rewrite app_assoc in E. change (lit "/*[i:") with ([47; 42; 91; 105] ++ [58]) in E. rewrite app_assoc in E.
      apply app_inj_tail in E as [_ E]. specialize (D y). rewrite <- E in D. assert (48 <= 58 <= 57); [apply D; right; rewrite E; apply in_or_app; right; left; reflexivity|lia].
    - destruct d' as [|y d'] using rev_ind; [|clear IHd'].
      + exfalso. rewrite List.app_nil_r in E. rewrite app_assoc in E. change (lit "/*[i:") with ([47; 42; 91; 105] ++ [58]) in E. rewrite (app_assoc t) in E. apply app_inj_tail in E as [_ E]. specialize (D x). rewrite E in D. assert (48 <= 58 <= 57); [apply D; left; apply in_or_app; right; left; reflexivity|lia].
      + rewrite !app_assoc in E. apply app_inj_tail in E as [E ->]. destruct (IH d') as [-> ->]; [intros c Hc; apply D; destruct Hc as [Hc|Hc]; [left|right]; apply in_or_app; left; exact Hc|rewrite <- !app_assoc in E; rewrite <- !app_assoc; exact E|]. auto. }
  destruct (R (dec m) (dec n)) with (s := s) (t := t) as [R1 R2]; [intros c [Hc|Hc]; apply dec_digits in Hc; exact Hc|exact E|]. split; [exact R1|apply dec_inj; exact R2].
Qed.
Lemma path_inj h root : hwf h -> acyclic h -> forall i j s, (i < length h)%nat -> (j < length h)%nat -> root_of h root i -> root_of h root j -> ito_path h i = Ok s -> ito_path h j = Ok s -> i = j.
Proof.
  intros H Ha. unfold ito_path. assert (G : forall m n i j s, root_of h root i -> root_of h root j -> path_fuel m h i = Ok s -> path_fuel n h j = Ok s -> i = j).
  { induction m as [|m IH]; intros n i j s Ri Rj Si Sj; [discriminate|]. destruct n as [|n]; [discriminate|]. cbn [path_fuel] in *. 
    assert (RP : forall x p, n_par (nd h x) = Some p -> root_of h root x -> root_of h root p).
    { intros x p Ep [R1 [->|R2]]; [congruence|]. split; [exact R1|]. inversion R2 as [? Q|? q Q1 Q2]; subst; [left; congruence|right; rewrite Ep in Q1; injection Q1 as <-; exact Q2]. }
    destruct (n_par (nd h i)) as [p|] eqn:Ei; destruct (n_par (nd h j)) as [p'|] eqn:Ej.
    - destruct (position i _ 0) as [k|] eqn:K1; [|discriminate]. destruct (position j _ 0) as [k'|] eqn:K2; [|discriminate]. destruct (path_fuel m h p) as [s1|] eqn:E1; [|discriminate]. destruct (path_fuel n h p') as [s2|] eqn:E2; [|discriminate]. cbn [bind] in *. injection Si as Si. injection Sj as Sj.
      rewrite <- Sj in Si. apply dec_tail in Si as [-> ->]. assert (p = p') as -> by exact (IH n p p' s2 (RP i p Ei Ri) (RP j p' Ej Rj) E1 E2). apply position_spec in K1 as [_ K1]. apply position_spec in K2 as [_ K2]. rewrite K1 in K2. injection K2 as ->. reflexivity.
    - exfalso. destruct (position i _ 0) as [k|] eqn:K1; [|discriminate]. destruct (path_fuel m h p) as [s1|] eqn:E1; [|discriminate]. cbn [bind] in *. injection Si as <-. injection Sj as Sj. apply (f_equal (@length Z)) in Sj. rewrite !app_length in Sj. cbn in Sj. lia.
    - exfalso. destruct (position j _ 0) as [k|] eqn:K1; [|discriminate]. destruct (path_fuel n h p') as [s1|] eqn:E1; [|discriminate]. cbn [bind] in *. injection Sj as <-. injection Si as Si. apply (f_equal (@length Z)) in Si. rewrite !app_length in Si. cbn in Si. lia.
    - destruct Ri as [R1 [->|R2]]; [|inversion R2; congruence]. destruct Rj as [R3 [->|R4]]; [reflexivity|inversion R4; congruence]. }
  intros i j s Hi Hj. apply G.
Qed.
Lemma compose_local E p q h r i a b : complete p -> printable E p -> printable E q -> parse_query E p = Ok a -> parse_query E q = Ok b -> local_query b ->
  ito_find_all E h r i (p ++ 47 :: q) = gbind (ito_find_all E h r i p) (fun j => ito_find_all E h r j q).
Proof.
  intros C P Q A B L. unfold ito_find_all. rewrite (proj2 (parse_compose E p q (a ++ b) C P Q) (ex_intro _ a (ex_intro _ b (conj A (conj B eq_refl))))), A, B.
  change (query_find_all (a ++ b) h r i) with (run_from (a ++ b) h r ([i], None)). rewrite run_app. exact (run_local b h r L (run_from a h r ([i], None))).
Qed.
Lemma find_first E h r i p : ito_find E h r i p = match ito_find_all E h r i p with (j :: _, _) => Ok (Some j) | ([], None) => Ok None | ([], Some e) => Err e end.
Proof. unfold ito_find, ito_find_all. destruct (parse_query E p) as [q|e]; cbn [bind]; [|reflexivity]. unfold query_find, g_next. destruct (query_find_all q h r i) as [[|j l] [e|]]; reflexivity. Qed.
