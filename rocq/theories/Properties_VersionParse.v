(** Properties of Version.parse_re (pawpaw/_version.py). *)
From Verif Require Import SpecParse SpecNlp PyFacts NlpFacts NlpFacts2 NlpFacts7 NlpFacts9 TableFacts TableFacts4 TableFacts5 VersionFacts DenFacts VersionParseFacts VersionParseFacts2 VersionParseFacts3 VersionParseFacts4 VersionParseFacts5.

(** C115: an identifier, between white space and perhaps behind a v, is matched and its groups are its parts *)
Theorem C115_parts C d w1 pv w2 : vc_ok C -> id_ok d -> Forall (fun c => vc_space C c = true) (w1 ++ w2) -> pv = [] \/ pv = lit "v" ->
  let v := w1 ++ pv ++ id_text d ++ w2 in exists m, parse_match C v = Some m /\
  let g k := m_group v m k in
  g (lit "epoch") = id_epoch d /\ g (lit "release") = Some (id_release d) /\
  g (lit "pre") = option_map (fun p => fst p ++ snd p) (id_pre d) /\ g (lit "pre_l") = option_map fst (id_pre d) /\ g (lit "pre_n") = option_map snd (id_pre d) /\
  g (lit "post") = option_map (fun n => lit ".post" ++ n) (id_post d) /\ g (lit "post_l") = option_map (fun _ => lit "post") (id_post d) /\ g (lit "post_n2") = id_post d /\ g (lit "post_n1") = None /\
  g (lit "dev") = option_map (fun n => lit ".dev" ++ n) (id_dev d) /\ g (lit "dev_l") = option_map (fun _ => lit "dev") (id_dev d) /\ g (lit "dev_n") = id_dev d /\
  g (lit "local") = id_local d.
Proof.
  intros Ok Hd F V v. apply Forall_app in F. destruct F as [F1 F2]. pose proof (body_reads C Ok d Hd w1 pv w2 F1 V F2) as R. fold v in R. destruct (reads_match C v _ R) as [m Hm]. exists m. split; [exact Hm|]. intros g.
  pose proof (match_reads C v v m eq_refl (proj1 Ok) Hm) as D. pose proof (body_unique C Ok d Hd w1 pv w2 m F1 V F2 D) as Em.
  assert (G : forall k, g k = m_group v (want (zlen w1 + zlen pv) d) k) by (intros k; unfold g; exact (f_equal (fun x => m_group v x k) Em)). clear D R Hm Em. clearbody g.
  assert (W : written v (zlen v) (zlen w1 + zlen pv) (id_text d)).
  { assert (W0 : written v (zlen v) 0 v) by (unfold written; rewrite Z.add_0_l, zsub_full; repeat split; lia). unfold v in W0 at 3. pose proof (zlen_nonneg w1). pose proof (zlen_nonneg pv). apply w_app in W0; [|lia]. destruct W0 as [_ W0]. apply w_app in W0; [|lia]. destruct W0 as [_ W0]. apply w_app in W0; [|lia]. exact (proj1 W0). }
  assert (L0 : 0 <= zlen w1 + zlen pv) by (pose proof (zlen_nonneg w1); pose proof (zlen_nonneg pv); lia). rewrite !G, !(want_groups v _ d _ L0 Hd W). clear.
  repeat split; unfold only_if; repeat match goal with |- context [eqb_str (lit ?a) (lit ?b)] => let r := eval vm_compute in (eqb_str (lit a) (lit b)) in change (eqb_str (lit a) (lit b)) with r; cbn iota end; destruct d as [e r p o dv l]; cbn [id_epoch id_release id_pre id_post id_dev id_local].
  all: try reflexivity.
  all: try (destruct e; reflexivity); try (destruct p; reflexivity); try (destruct o; reflexivity); try (destruct dv; reflexivity); try (destruct l; reflexivity).
Qed.
(** so is every text is_canonical accepts *)
Lemma num_of n : v_num n -> is_number n.
Proof. intros [->|(c & r & -> & Hc & F)]; (split; [discriminate|]); [change (lit "0") with [48]|]; (apply Forall_cons; [unfold is_digit; lia|]); [apply Forall_nil|exact F]. Qed.
Lemma version_id v : version_with loose_local v -> exists d, id_ok d /\ v = id_text d.
Proof.
  intros (e & r & p & o & dv & l & -> & He & (n & ns & -> & Hn & Fn) & Hp & Ho & Hv & Hl).
  assert (A : exists x, if_any is_number x /\ e = text_if (fun n => n ++ lit "!") x) by (destruct He as [->|(x & -> & Hx & _)]; [exists None; split; [exact I|reflexivity]|exists (Some x); split; [exact (num_of x Hx)|reflexivity]]).
  assert (B : exists x, if_any (fun p => In (fst p) [lit "a"; lit "b"; lit "rc"] /\ is_number (snd p)) x /\ p = text_if (fun p => fst p ++ snd p) x) by (destruct Hp as [->|(k & x & -> & Hk & Hx)]; [exists None; split; [exact I|reflexivity]|exists (Some (k, x)); split; [split; [exact Hk|exact (num_of x Hx)]|reflexivity]]).
  assert (D : exists x, if_any is_number x /\ o = text_if (fun n => lit ".post" ++ n) x) by (destruct Ho as [->|(x & -> & Hx)]; [exists None; split; [exact I|reflexivity]|exists (Some x); split; [exact (num_of x Hx)|reflexivity]]).
  assert (F : exists x, if_any is_number x /\ dv = text_if (fun n => lit ".dev" ++ n) x) by (destruct Hv as [->|(x & -> & Hx)]; [exists None; split; [exact I|reflexivity]|exists (Some x); split; [exact (num_of x Hx)|reflexivity]]).
  assert (G : exists x, if_any (fun u => exists x ps, u = x ++ concat (map (fun p => fst p :: snd p) ps) /\ alnum_text x /\ Forall (fun p => In (fst p) (lit "-_.") /\ alnum_text (snd p)) ps) x /\ l = text_if (fun u => lit "+" ++ u) x) by (destruct Hl as [->|(x & ps & -> & Hx & Fx)]; [exists None; split; [exact I|reflexivity]|eexists (Some _); split; [exists x, ps; auto|reflexivity]]).
  destruct A as (e' & A & ->). destruct B as (p' & B & ->). destruct D as (o' & D & ->). destruct F as (d' & F & ->). destruct G as (l' & G & ->). exists (Ident e' (n ++ tail_of 46 ns) p' o' d' l'). split; [|reflexivity].
  split; [exact A|]. split; [exists n, ns; split; [reflexivity|]; split; [exact (num_of n Hn)|]; revert Fn; apply Forall_impl; exact num_of|]. auto.
Qed.
Theorem C115_canonical C v : vc_ok C -> is_canonical v = true -> exists m, parse_match C v = Some m.
Proof.
  intros Ok H. apply canonical_exact in H. destruct H as [H|(u & -> & H)]; destruct (version_id _ H) as (d & Hd & ->).
  - destruct (C115_parts C d [] [] [] Ok Hd ltac:(constructor) ltac:(auto)) as (m & Hm & _). exists m. cbn [app] in Hm. rewrite app_nil_r in Hm. exact Hm.
  - destruct (C115_parts C d [] [] [10] Ok Hd ltac:(constructor; [exact (proj1 Ok)|constructor]) ltac:(auto)) as (m & Hm & _). exists m. exact Hm.
Qed.
(** whatever is matched is its groups, put together *)
Theorem C115_whole C v m : vc_space C 10 = true -> parse_match C v = Some m ->
  let g k := m_group v m k in let self := text_if (fun y => y) in exists w1 pv w2 r,
  v = w1 ++ pv ++ text_if (fun n => n ++ lit "!") (g (lit "epoch")) ++ r ++ self (g (lit "pre")) ++ self (g (lit "post")) ++ self (g (lit "dev")) ++ text_if (fun u => lit "+" ++ u) (g (lit "local")) ++ w2 /\
  Forall (fun x => vc_space C x = true) (w1 ++ w2) /\ (pv = [] \/ exists x, pv = [x] /\ vc_same C 118 x = true) /\ if_any is_number (g (lit "epoch")) /\ g (lit "release") = Some r /\ release_like r /\
  labelled_part (g (lit "pre")) (g (lit "pre_l")) (g (lit "pre_n")) /\ post_release (g (lit "post")) (g (lit "post_n1")) (g (lit "post_l")) (g (lit "post_n2")) /\ labelled_part (g (lit "dev")) (g (lit "dev_l")) (g (lit "dev_n")).
Proof. intros Sp Hm. exact (whole C v m (match_reads C v v m eq_refl Sp Hm)). Qed.

(** a version as written, and one in capitals *)
Definition ascii_classes : vclasses := VC (fun c => (c =? 32) || ((9 <=? c) && (c <=? 13))) (fun p c => lower_of c =? p).
Lemma ascii_ok : vc_ok ascii_classes.
Proof.
  split; [reflexivity|]. split; [|split].
  - intros c H. cbn [vc_space ascii_classes]. unfold is_digit, is_letter in H. assert (B : c <> 32 /\ ~ (9 <= c <= 13)) by (destruct H as [H|[H|H]]; [lia|lia|cbn in H; lia]). apply orb_false_iff. split; [lia|]. apply andb_false_iff. lia.
  - intros p c Hp H. cbn [vc_space vc_same ascii_classes] in *. unfold lower_of, is_letter in *. destruct ((65 <=? c) && (c <=? 90)) eqn:E; [apply andb_true_iff in E|]; apply orb_false_iff; (split; [lia|]); apply andb_false_iff; lia.
  - intros p c _ _. cbn [vc_same ascii_classes]. rewrite Z.eqb_eq. tauto.
Qed.
Example C115_case : let d := Ident (Some (lit "1")) (lit "2.0.10") (Some (lit "rc", lit "3")) (Some (lit "0")) (Some (lit "12")) (Some (lit "ubuntu-1")) in
  id_ok d /\ id_text d = lit "1!2.0.10rc3.post0.dev12+ubuntu-1" /\
  option_map (fun m => map (m_group (lit " V1.0-BETA.2-7") m) [lit "release"; lit "pre"; lit "pre_l"; lit "pre_n"; lit "post_n1"; lit "dev"]) (parse_match ascii_classes (lit " V1.0-BETA.2-7")) =
    Some [Some (lit "1.0"); Some (lit "-BETA.2"); Some (lit "BETA"); Some (lit "2"); Some (lit "7"); None] /\ parse_match ascii_classes (lit "1.0.x") = None.
Proof.
  split; [|split; [reflexivity|split; vm_compute; reflexivity]]. assert (N : forall n, n <> [] -> forallb (fun c => (48 <=? c) && (c <=? 57)) n = true -> is_number n).
  { intros n Hn H. split; [exact Hn|]. rewrite forallb_forall in H. apply Forall_forall. intros c Hc. specialize (H c Hc). apply andb_true_iff in H. unfold is_digit. lia. }
  split; [apply N; [discriminate|reflexivity]|]. split; [exists (lit "2"), [lit "0"; lit "10"]; split; [reflexivity|]; split; [apply N; [discriminate|reflexivity]|]; apply Forall_cons; [apply N; [discriminate|reflexivity]|]; apply Forall_cons; [apply N; [discriminate|reflexivity]|apply Forall_nil]|].
  split; [split; [right; right; left; reflexivity|apply N; [discriminate|reflexivity]]|]. split; [apply N; [discriminate|reflexivity]|]. split; [apply N; [discriminate|reflexivity]|]. exists (lit "ubuntu"), [(45, lit "1")]. split; [reflexivity|]. split.
  - split; [discriminate|]. apply Forall_forall. intros c Hc. cbn in Hc. unfold is_letter, is_digit. lia.
  - apply Forall_cons; [|apply Forall_nil]. cbn [fst snd]. split; [left; reflexivity|]. split; [discriminate|]. apply Forall_forall. intros c Hc. cbn in Hc. unfold is_letter, is_digit. lia.
Qed.
Print Assumptions C115_parts.
Print Assumptions C115_canonical.
Print Assumptions C115_whole.
