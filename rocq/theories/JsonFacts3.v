(** Proofs: JSON round trip; pickle round trip. *)
From Verif Require Export JsonFacts2 CombinFacts3.
From Coq Require Import Arith.

(** a bare axis *)
Lemma find_axis E h r i a w ys : plain_delims E -> axis_text a w -> single_phrase w -> printable E w -> axis_find h a ([i], None) = (ys, None) ->
  ito_find_all E h r i w = (map snd ys, None).
Proof.
  intros HE HA SP PR AX. pose proof (find_filters E h r i a w None [] ys (fun _ _ => true)) as F. cbn [text_of] in F. rewrite app_nil_r in F. rewrite F; auto.
  - f_equal. f_equal. clear. induction ys as [|y ys IH]; [reflexivity|]. cbn [filter part_truth]. f_equal. exact IH.
  - exact I.
  - reflexivity.
  - intros g [].
  - apply safe_single. apply safe_plain. intros c [].
  - intros g ec [].
Qed.
Lemma find_root E h r i : json_env E -> hwf h -> acyclic h -> (i < length h)%nat ->
  ito_find E h r i (lit "....") = Ok (match n_par (nd h i) with None => None | Some _ => match get_root (depth_fuel h) h i with Ok x => Some x | Err _ => None end end).
Proof.
  intros (HE & HI & P1 & P2) H Ha Hi. destruct (axis_full h AxRoot i H Ha Hi I) as (l & L1 & _ & L2 & L3 & _).
  pose proof (find_axis E h r i (AX AxRoot false OsNo) (lit "....") (number l) HE) as F. rewrite map_snd_number in F.
  assert (Ef : ito_find_all E h r i (lit "....") = (l, None)).
  { apply F; [exists []; split; [left; reflexivity|reflexivity]| | |exact L3].
    - apply safe_single. apply safe_plain. intros c Hc. cbn in *. lia.
    - exists 46. split; [left; reflexivity|exact P1]. }
  assert (Eq : ito_find E h r i (lit "....") = match l with [] => Ok None | x :: _ => Ok (Some x) end).
  { unfold ito_find, ito_find_all in *. destruct (parse_query E (lit "....")) as [q|e]; [|discriminate]. cbn [bind]. unfold query_find. rewrite Ef. destruct l; reflexivity. }
  rewrite Eq. destruct (get_root_full h i H Ha Hi) as (root & G & R & U). rewrite G. cbn [ax_set] in L1. destruct (n_par (nd h i)) as [p|] eqn:Ep.
  - assert (Hr : In root l). { apply L1. destruct R as [R1 [->|R2]]; [congruence|auto]. }
    destruct l as [|x l]; [destruct Hr|]. do 2 f_equal. assert (Hx : n_par (nd h x) = None /\ anc h x i) by (apply L1; left; reflexivity). apply U. split; [apply Hx|right; apply Hx].
  - destruct l as [|x l]; [reflexivity|]. assert (Hx : n_par (nd h x) = None /\ anc h x i) by (apply L1; left; reflexivity). destruct Hx as [_ Hx]. apply anc_up_inv in Hx. destruct Hx as (q & Hx & _). congruence.
Qed.
Lemma rep_height_len h t i : hwf h -> acyclic h -> (i < length h)%nat -> rep h t i -> (t_height t <= length h)%nat.
Proof. intros H Ha Hi R. destruct (rep_ex h i H Ha Hi) as (u & Ru & Hu). rewrite (rep_fun h t u i R Ru). exact Hu. Qed.

Lemma jassoc_skip k k' v l : eqb_str k' k = false -> jassoc ((k', v) :: l) k = jassoc l k.
Proof. intros H. cbn [jassoc]. rewrite H. reflexivity. Qed.
Theorem json_full E g h i root t stringless hs : json_env E -> hwf h -> acyclic h -> (i < length h)%nat -> n_par (nd h i) <> None -> root_of h root i -> rep h t root -> json_safe t ->
  hwf g -> acyclic g -> (stringless = true -> hs = Some (h_string h i)) ->
  exists j g' root' i', json_encode E stringless true h i = Ok j /\ json_hook E hs g j = (g', Ok (HIto (Some i'))) /\ extends g g' /\ hwf g' /\ acyclic g' /\
    (length g <= root')%nat /\ (length g <= i' < length g')%nat /\ root_of g' root' i' /\ rep g' (forget t) root' /\ ito_path g' i' = ito_path h i /\ forall u, rep h u i -> rep g' (forget u) i'.
Proof.
  intros HE H Ha Hi Np Ro R Js Hg Ag Hs. destruct (path_total h i H Ha Hi) as (s & Es).
  assert (Hroot : (root < length h)%nat) by (destruct Ro as [_ [->|X]]; [exact Hi|apply anc_up_inv in X; destruct X as (q & X & Y); destruct (hwf_par h H q i X) as [_ Lq]; destruct Y as [->|Y]; [exact Lq|apply (anc_bound h root q H) in Y; lia]]).
  assert (Ej : json_encode E stringless true h i = Ok (JObj ((if stringless then [(lit "__type__", JStr js_type); (lit "__version__", JStr js_version)] else [(lit "__type__", JStr js_type); (lit "__version__", JStr js_version); (lit "string", JStr (h_string h i))]) ++ [(lit "path", JStr s); (lit "ito", enc t)]))).
  { unfold json_encode. rewrite (find_root E h no_env i HE H Ha Hi). destruct (n_par (nd h i)); [|congruence]. destruct (get_root_full h i H Ha Hi) as (r0 & G & _ & U). rewrite G. rewrite <- (U root Ro) in *. cbn [bind]. rewrite Es. cbn [bind fst snd].
    rewrite (encoder_spec h t (depth_fuel h) root R) by (pose proof (rep_height_len h t root H Ha Hroot R); unfold depth_fuel; lia). cbn [bind]. destruct stringless; reflexivity. }
  pose proof (rep_twf h H t root R) as Tw.
  assert (Estr : t_string t = h_string h i).
  { unfold t_string, h_string. rewrite <- (rep_f h t root R). destruct Ro as [_ [->|X]]; [reflexivity|]. symmetry. apply (anc_span h root i H) in X. destruct X as (X & _). exact X || (destruct X as [X _]; exact X). }
  destruct (hook_spec (h_string h i) t (jsize (enc t)) g Tw Estr Js (Nat.le_refl _) Hg Ag) as (g' & root' & Eh & (X1 & W1 & A1 & B1 & N1 & R1)).
  destruct (path_iso h g' root root' t H Ha W1 A1 R R1 N1 ltac:(lia) i Ro Hi) as (i' & Ri & Li & Ep & Hu).
  destruct (path_find E g' no_env i') as (root2 & s2 & R2 & Es2 & _ & Ef); try (apply HE); auto. assert (root2 = root') as -> by (eapply root_unique; eassumption). assert (s2 = s) as -> by congruence.
  eexists. exists g', root', i'. split; [exact Ej|]. split.
  - unfold json_hook. cbn [jget]. destruct stringless.
    + rewrite (Hs eq_refl). cbn [app]. repeat (rewrite jassoc_skip by reflexivity). change (jassoc ((lit "__type__", JStr js_type) :: ?x) (lit "__type__")) with (JStr js_type).
      cbn -[ito_hook ito_find json_hook]. rewrite Eh. unfold obind. cbn [fst snd lift]. rewrite Ef. reflexivity.
    + cbn [app]. cbn -[ito_hook ito_find json_hook]. rewrite Eh. unfold obind. cbn [fst snd lift]. rewrite Ef. reflexivity.
  - split; [exact X1|]. split; [exact W1|]. split; [exact A1|]. split; [lia|]. split; [|split; [exact Ri|split; [exact R1|split; [congruence|exact Hu]]]].
    destruct Ri as [_ [->|X]]; [lia|]. split; [|exact Li]. apply (new_below g g' root' i' X1 Hg W1 ltac:(lia) X).
Qed.
(** the root axis has nothing to offer for a root: AttributeError *)
Theorem json_root_error E h i stringless : json_env E -> hwf h -> acyclic h -> (i < length h)%nat -> n_par (nd h i) = None -> json_encode E stringless true h i = Err AttributeError.
Proof.
  intros HE H Ha Hi Np. unfold json_encode. rewrite (find_root E h no_env i HE H Ha Hi), Np. cbn [bind]. destruct (path_total h i H Ha Hi) as (s & ->). reflexivity.
Qed.
Theorem json_single E g h i stringless hs : json_env E -> hwf h -> (i < length h)%nat -> hwf g -> acyclic g -> (stringless = true -> hs = Some (h_string h i)) ->
  exists j, json_encode E stringless false h i = Ok j /\
    json_hook E hs g j = (g ++ [Nd (forget_f (n_f (nd h i))) None []], Ok (HIto (Some (length g)))).
Proof.
  intros HE H Hi Hg Ag Hs. eexists. split; [reflexivity|].
  pose proof (hwf_span h H i) as Ff. unfold fwf in Ff.
  assert (Eh : forall n, ito_hook (S n) (h_string h i) g (JObj [(lit "span", JArr [JInt (f_start (n_f (nd h i))); JInt (f_stop (n_f (nd h i)))]); (lit "desc", jdesc (f_desc (n_f (nd h i))))]) =
    (g ++ [Nd (forget_f (n_f (nd h i))) None []], Ok (length g))).
  { intros n. cbn [ito_hook]. cbn -[ito_of_str new_str jdesc j_desc]. unfold lift, obind. cbn -[ito_of_str new_str jdesc j_desc]. rewrite j_desc_jdesc. unfold new_str, new_node. cbn [fst snd]. unfold h_string. rewrite ito_of_str_in by lia. reflexivity. }
  assert (Hw : hwf (g ++ [Nd (forget_f (n_f (nd h i))) None []])) by (apply hwf_new; [exact Hg|exact Ff]).
  assert (Ha : acyclic (g ++ [Nd (forget_f (n_f (nd h i))) None []])) by (apply acyclic_new; assumption).
  destruct HE as (E1 & E2 & E3 & E4).
  destruct (path_find E (g ++ [Nd (forget_f (n_f (nd h i))) None []]) no_env (length g)) as (root & s & R & Es & _ & Ef); auto; [rewrite app_length; cbn; lia|].
  assert (Np : n_par (nd (g ++ [Nd (forget_f (n_f (nd h i))) None []]) (length g)) = None) by (rewrite nd_app, Nat.eqb_refl; reflexivity).
  assert (root = length g) as -> by (destruct R as [_ [R|R]]; [exact R|apply anc_up_inv in R; destruct R as (q & R & _); congruence]).
  assert (s = lit ".") as -> by (unfold ito_path, depth_fuel in Es; cbn [path_fuel] in Es; rewrite Np in Es; injection Es as <-; reflexivity).
  change (lit ".") with [46] in Ef. destruct stringless.
  - rewrite (Hs eq_refl). unfold json_hook. cbn -[ito_hook ito_find json_hook jdesc]. rewrite Eh. unfold obind. cbn [fst snd lift]. rewrite Ef. reflexivity.
  - unfold json_hook. cbn -[ito_hook ito_find json_hook jdesc]. rewrite Eh. unfold obind. cbn [fst snd lift]. rewrite Ef. reflexivity.
Qed.
Theorem json_no_string E g h i full j : json_encode E true full h i = Ok j -> json_hook E None g j = (g, Err ValueError).
Proof.
  unfold json_encode. destruct (if full then _ else _) as [[b p]|]; cbn [bind fst snd]; [|discriminate]. destruct b as [b|]; [|discriminate]. destruct (ito_encoder (depth_fuel h) full h b) as [jj|]; cbn [bind]; [|discriminate]. intros [= <-]. reflexivity.
Qed.
(** json.loads offers the objects inside the Ito to the hook as well; it leaves them alone *)
Theorem json_inner E g h n full i j hs : ito_encoder n full h i = Ok j -> json_hook E hs g j = (g, Ok (HObj j)).
Proof.
  destruct n as [|n]; [discriminate|]. cbn [ito_encoder]. destruct full; [|intros [= <-]; reflexivity]. destruct (map_res _ _) as [cs|]; cbn [bind]; [|discriminate]. intros [= <-]. reflexivity.
Qed.

(** ** pickle *)
Fixpoint dump (t : tree) : pstate := let (f, ts) := t in PS (f_str f) (f_start f) (f_stop f) (f_desc f) (map dump ts).
Lemma dump_spec h : forall t n i, rep h t i -> (t_height t <= n)%nat -> pickle_dump n h i = Ok (dump t).
Proof.
  induction t as [f ts IH] using tree_ind'. intros n i R Hn. destruct n as [|n]; [cbn in Hn; lia|]. apply rep_unfold in R. destruct R as [<- F]. cbn [pickle_dump dump].
  assert (G : map_res (pickle_dump n h) (n_kids (nd h i)) = Ok (map dump ts)).
  { assert (Hh : forall t, In t ts -> (t_height t <= n)%nat) by (intros t Ht; pose proof (t_height_kids (n_f (nd h i)) ts t Ht); lia). clear Hn. induction F as [|t k ts ks Hk F IHF]; [reflexivity|]. inversion IH; subst. cbn [map_res map]. fold (map_res (pickle_dump n h)).
    rewrite (H1 n k Hk) by (apply Hh; left; reflexivity). cbn [bind]. rewrite IHF by (auto; intros; apply Hh; right; assumption). reflexivity. }
  rewrite G. reflexivity.
Qed.
Lemma set_pars_nd i : forall ks h j, (forall k, In k ks -> (k < length h)%nat) ->
  nd (fold_left (fun h c => set_par h c (Some i)) ks h) j = Nd (n_f (nd h j)) (if existsb (Nat.eqb j) ks then Some i else n_par (nd h j)) (n_kids (nd h j)) /\
  length (fold_left (fun h c => set_par h c (Some i)) ks h) = length h.
Proof.
  induction ks as [|k ks IH]; intros h j Hk; cbn [fold_left existsb]; [split; [destruct (nd h j); reflexivity|reflexivity]|].
  assert (L : length (set_par h k (Some i)) = length h) by (unfold set_par; apply upd_length).
  destruct (IH (set_par h k (Some i)) j) as [E1 E2]; [intros x Hx; rewrite L; apply Hk; right; exact Hx|]. rewrite E1, E2, L. split; [|reflexivity].
  unfold set_par. rewrite nd_upd. destruct (Nat.eqb_spec j k) as [->|N]; cbn [andb orb].
  - assert ((k <? length h)%nat = true) as -> by (apply Nat.ltb_lt; apply Hk; left; reflexivity). cbn [n_f n_par n_kids]. destruct (existsb _ _); reflexivity.
  - reflexivity.
Qed.
Lemma set_state_nd h i f ks j : (i < length h)%nat -> (forall k, In k ks -> (k < length h)%nat) -> ~ In i ks ->
  nd (set_state h i f ks) j = (if (j =? i)%nat then Nd f None ks else if existsb (Nat.eqb j) ks then Nd (n_f (nd h j)) (Some i) (n_kids (nd h j)) else nd h j) /\ length (set_state h i f ks) = length h.
Proof.
  intros Hi Hk Hn. unfold set_state. destruct (set_pars_nd i ks (upd h i (fun _ => Nd f None ks)) j) as [E1 E2]; [intros k Hin; rewrite upd_length; apply Hk; exact Hin|]. rewrite E1, E2, upd_length. split; [|reflexivity].
  rewrite nd_upd. assert (B : (i <? length h)%nat = true) by (apply Nat.ltb_lt; exact Hi). destruct (Nat.eqb_spec j i) as [->|N]; cbn [andb].
  - rewrite B. cbn [n_f n_par n_kids]. destruct (existsb (Nat.eqb i) ks) eqn:Ex; [|reflexivity]. exfalso. apply existsb_exists in Ex. destruct Ex as (x & Hx & Ex). apply Nat.eqb_eq in Ex. subst. contradiction.
  - destruct (existsb (Nat.eqb j) ks); [reflexivity|destruct (nd h j); reflexivity].
Qed.
Definition pickle_go : heap -> list pstate -> heap * list nat :=
  fix go (h : heap) (l : list pstate) : heap * list nat :=
    match l with [] => (h, []) | x :: r => let '(h1, c) := pickle_load h x in let '(h2, cs) := go h1 r in (h2, c :: cs) end.
Lemma pickle_load_eq h s a b d kids : pickle_load h (PS s a b d kids) = let '(h1, ks) := pickle_go (h ++ [dnode]) kids in (set_state h1 (length h) (FI s a b d None) ks, length h).
Proof. reflexivity. Qed.
Lemma state_attach g f ts h2 cs : hwf g -> acyclic g -> twf (T f ts) -> decodeds (g ++ [dnode]) h2 ts cs -> decoded g (set_state h2 (length g) f cs) (T f ts) (length g).
Proof.
  intros Hg Ag Tw (X & W & A & B & N & R). pose proof X as [L E]. rewrite app_length in L, E. cbn [length] in L, E. rewrite Forall_forall in B.
  assert (B' : forall c, In c cs -> (S (length g) <= c < length h2)%nat /\ n_par (nd h2 c) = None).
  { intros c Hc. destruct (B c Hc) as [B1 B2]. rewrite app_length in B1. cbn [length] in B1. split; [lia|exact B2]. }
  assert (S : forall j, nd (set_state h2 (length g) f cs) j = (if (j =? length g)%nat then Nd f None cs else if existsb (Nat.eqb j) cs then Nd (n_f (nd h2 j)) (Some (length g)) (n_kids (nd h2 j)) else nd h2 j) /\ length (set_state h2 (length g) f cs) = length h2).
  { intros j. apply set_state_nd; [lia|intros k Hk; apply B' in Hk; lia|intros Hin; apply B' in Hin; lia]. }
  assert (Sn := fun j => proj1 (S j)). pose proof (proj2 (S 0%nat)) as Sl. clear S. set (h3 := set_state h2 (length g) f cs) in *. clearbody h3.
  assert (En : nd h2 (length g) = dnode) by (rewrite E by lia; rewrite nd_app, Nat.eqb_refl; reflexivity).
  assert (Mem : forall j, existsb (Nat.eqb j) cs = true <-> In j cs) by (intros j; rewrite existsb_exists; split; [intros (x & Hx & Ex); apply Nat.eqb_eq in Ex; subst; exact Hx|intros Hj; exists j; split; [exact Hj|apply Nat.eqb_refl]]).
  assert (Df : forall j, j <> length g -> n_f (nd h3 j) = n_f (nd h2 j)) by (intros j Hj; rewrite Sn; destruct (Nat.eqb_spec j (length g)); [contradiction|]; destruct (existsb _ _); reflexivity).
  assert (Dk : forall j, j <> length g -> n_kids (nd h3 j) = n_kids (nd h2 j)) by (intros j Hj; rewrite Sn; destruct (Nat.eqb_spec j (length g)); [contradiction|]; destruct (existsb _ _); reflexivity).
  assert (Eg : nd h3 (length g) = Nd f None cs) by (rewrite Sn, Nat.eqb_refl; reflexivity).
  apply twf_unfold in Tw. destruct Tw as (Ff & Ss & Fi & Kw).
  assert (Nk : forall p, ~ In (length g) (n_kids (nd h2 p))) by (intros p Hin; apply (hwf_kid h2 W) in Hin; destruct Hin as [Hp _]; rewrite En in Hp; discriminate).
  assert (Hcs : forall c, In c cs -> exists t, In t ts /\ rep h2 t c) by (intros c Hc; destruct (Forall2_in_r _ _ _ _ R Hc) as (t & Ht & Rt); eauto).
  assert (Nck : forall p c, In c cs -> ~ In c (n_kids (nd h2 p))) by (intros p c Hc Hin; apply (hwf_kid h2 W) in Hin; destruct Hin as [Hp _]; destruct (B' c Hc) as [_ Hn]; congruence).
  assert (Hs : forall j, j <> length g -> h_start h3 j = h_start h2 j /\ h_stop h3 j = h_stop h2 j /\ h_string h3 j = h_string h2 j) by (intros j Hj; unfold h_start, h_stop, h_string; rewrite (Df j Hj); auto).
  assert (Wf : hwf h3).
  { constructor.
    - intros i. destruct (Nat.eq_dec i (length g)) as [->|Ne]; [rewrite Eg; exact Ff|rewrite Df by exact Ne; apply (hwf_span h2 W)].
    - intros p c Hin. destruct (Nat.eq_dec p (length g)) as [->|Ne].
      + rewrite Eg in Hin. cbn [n_kids] in Hin. destruct (B' c Hin) as [Bc _]. assert (Hc : c <> length g) by lia. split; [|split; [|split; [exact Hc|rewrite Sl; lia]]].
        * rewrite Sn. destruct (Nat.eqb_spec c (length g)); [contradiction|]. rewrite (proj2 (Mem c) Hin). reflexivity.
        * destruct (Hcs c Hin) as (t & Ht & Rt). rewrite Forall_forall in Fi. specialize (Fi t Ht). destruct (Hs c Hc) as (S1 & S2 & S3). unfold fits. rewrite S1, S2, S3. unfold h_start, h_stop, h_string. rewrite Eg, (rep_f _ _ _ Rt). exact Fi.
      + rewrite Dk in Hin by exact Ne. destruct (hwf_kid h2 W p c Hin) as (P1 & P2 & P3 & P4). assert (Hc : c <> length g) by (intros ->; exact (Nk p Hin)). split; [|split; [|split; [exact P3|rewrite Sl; exact P4]]].
        * rewrite Sn. destruct (Nat.eqb_spec c (length g)); [contradiction|]. destruct (existsb (Nat.eqb c) cs) eqn:Ex; [|exact P1]. apply Mem in Ex. exfalso. exact (Nck p c Ex Hin).
        * destruct (Hs c Hc) as (S1 & S2 & S3). destruct (Hs p Ne) as (S4 & S5 & S6). unfold fits in *. rewrite S1, S2, S3, S4, S5, S6. exact P2.
    - intros p c. rewrite Sn. destruct (Nat.eqb_spec c (length g)) as [->|Hc]; [discriminate|]. destruct (existsb (Nat.eqb c) cs) eqn:Ex; cbn [n_par].
      + intros [= <-]. split; [rewrite Eg; apply Mem; exact Ex|rewrite Sl; lia].
      + intros Hp. destruct (hwf_par h2 W p c Hp) as [P1 P2]. assert (p <> length g) as Ne by (intros ->; rewrite En in P1; destruct P1). split; [rewrite Dk by exact Ne; exact P1|rewrite Sl; exact P2].
    - intros p. unfold kids_sorted. destruct (Nat.eq_dec p (length g)) as [->|Ne].
      + rewrite Eg. cbn [n_kids]. clear - Ss R B' Df. assert (Hc : forall c, In c cs -> c <> length g) by (intros c Hc; apply B' in Hc; lia). clear B'. revert Ss. induction R as [|t c ts cs Rt R IH]; intros Ss; [constructor|]. inversion Ss as [|? ? S1 S2]; subst. constructor; [apply IH; auto; intros; apply Hc; right; assumption|].
        apply Forall_forall. intros d Hd. destruct (Forall2_in_r _ _ _ _ R Hd) as (u & Hu & Ru). rewrite Forall_forall in S2. specialize (S2 u Hu). unfold t_before, t_start, t_stop in S2. unfold h_before, h_start, h_stop. rewrite !Df by (apply Hc; auto; [right; exact Hd|left; reflexivity] || (apply Hc; (left; reflexivity) || (right; exact Hd))). rewrite (rep_f _ _ _ Rt), (rep_f _ _ _ Ru). exact S2.
      + rewrite Dk by exact Ne. pose proof (hwf_sorted h2 W p) as S0. unfold kids_sorted in S0. refine (SS_impl _ _ _ _ S0). intros x y Hx Hy Hb.
        assert (x <> length g) by (intros ->; exact (Nk p Hx)). assert (y <> length g) by (intros ->; exact (Nk p Hy)). destruct (Hs x H) as (S1 & S2 & _). destruct (Hs y H0) as (S3 & S4 & _). unfold h_before in *. rewrite S1, S2, S3. exact Hb. }
  split; [|split; [exact Wf|split; [|split; [rewrite Sl; lia|split; [rewrite Eg; reflexivity|]]]]].
  - split; [rewrite Sl; lia|]. intros j Hj. rewrite Sn. destruct (Nat.eqb_spec j (length g)); [lia|]. destruct (existsb (Nat.eqb j) cs) eqn:Ex; [apply Mem in Ex; apply B' in Ex; lia|]. rewrite E by lia. rewrite nd_app. destruct (Nat.eqb_spec j (length g)); [lia|reflexivity].
  - assert (Up : forall x y, anc h3 x y -> anc h2 x y \/ x = length g).
    { intros x y Y. induction Y as [y Y|y q Y1 Y2 IH].
      - rewrite Sn in Y. destruct (Nat.eqb_spec y (length g)); [discriminate|]. destruct (existsb _ _); [right; cbn in Y; congruence|left; apply anc_parent; exact Y].
      - destruct IH as [IH|IH]; [|auto]. rewrite Sn in Y1. destruct (Nat.eqb_spec y (length g)); [discriminate|]. destruct (existsb _ _); [|left; apply (anc_up _ _ _ q Y1 IH)]. cbn in Y1. injection Y1 as <-. apply anc_up_inv in IH. destruct IH as (q' & IH & _). rewrite En in IH. discriminate. }
    intros x Y. destruct (Up x x Y) as [Z| ->]; [exact (A x Z)|]. apply anc_up_inv in Y. destruct Y as (q & Y & _). rewrite Eg in Y. discriminate.
  - apply rep_unfold. rewrite Eg. split; [reflexivity|]. cbn [n_kids]. 
    assert (G : forall us xs, Forall2 (rep h2) us xs -> (forall x, In x xs -> In x cs) -> Forall2 (rep h3) us xs).
    { intros us xs F. induction F as [|u x us xs Hu F IHf]; intros Sub; constructor; [|apply IHf; intros; apply Sub; right; assumption]. apply (rep_frame h2 h3 W u x Hu). intros j Hj.
      assert (j <> length g). { intros ->. destruct Hj as [Hj|Hj]; [pose proof (B' x (Sub x (or_introl eq_refl))); lia|]. apply anc_up_inv in Hj. destruct Hj as (q & Hj & _). rewrite En in Hj. discriminate. }
      split; [apply Df; assumption|apply Dk; assumption]. }
    apply G; auto.
Qed.
Lemma hwf_dnode h : hwf h -> hwf (h ++ [dnode]).
Proof. intros H. apply (hwf_new h (n_f dnode) H). vm_compute. repeat split; discriminate. Qed.
Lemma load_spec : forall t g, twf t -> hwf g -> acyclic g -> exists g' i, pickle_load g (dump t) = (g', i) /\ decoded g g' (forget t) i.
Proof.
  induction t as [f ts IH] using tree_ind'. intros g Ht Hg Ag. cbn [dump]. rewrite pickle_load_eq. pose proof Ht as Ht0. apply twf_unfold in Ht0. destruct Ht0 as (Ff & _ & _ & Kw).
  assert (M : forall ts', (forall t, In t ts' -> In t ts) -> forall h, hwf h -> acyclic h -> exists h2 cs, pickle_go h (map dump ts') = (h2, cs) /\ decodeds h h2 (map forget ts') cs).
  { induction ts' as [|t ts' IHt]; intros Sub h Hh Ah.
    - exists h, []. split; [reflexivity|]. split; [apply extends_refl|]. split; [exact Hh|]. split; [exact Ah|]. split; [constructor|]. split; constructor.
    - assert (Hin : In t ts) by (apply Sub; left; reflexivity). rewrite Forall_forall in IH, Kw. destruct (IH t Hin h (Kw t Hin) Hh Ah) as (h1 & c & E1 & D1).
      pose proof D1 as (X1 & W1 & A1 & _). destruct (IHt (fun u Hu => Sub u (or_intror Hu)) h1 W1 A1) as (h2 & cs & E2 & D2). exists h2, (c :: cs). split.
      + cbn [map pickle_go]. fold pickle_go. rewrite E1, E2. reflexivity.
      + cbn [map]. apply (decoded_cons h h1); assumption. }
  destruct (M ts (fun t H => H) (g ++ [dnode])) as (h2 & cs & E2 & D2); [apply hwf_dnode; exact Hg|apply acyclic_new; assumption|]. rewrite E2. eexists. eexists. split; [reflexivity|].
  apply (state_attach g (forget_f f) (map forget ts) h2 cs Hg Ag); [|exact D2]. change (T (forget_f f) (map forget ts)) with (forget (T f ts)). apply forget_twf. exact Ht.
Qed.
Theorem pickle_round h g i : hwf h -> acyclic h -> (i < length h)%nat -> hwf g -> acyclic g ->
  exists p g' i', pickle_dump (depth_fuel h) h i = Ok p /\ pickle_load g p = (g', i') /\ extends g g' /\ hwf g' /\ acyclic g' /\ (length g <= i' < length g')%nat /\ n_par (nd g' i') = None /\
    (forall j, anc g' i' j -> (length g <= j)%nat) /\ forall t, rep h t i -> rep g' (forget t) i'.
Proof.
  intros H Ha Hi Hg Ag. destruct (rep_ex h i H Ha Hi) as (t & R & Ht). destruct (load_spec t g (rep_twf h H t i R) Hg Ag) as (g' & i' & E & (X & W & A & B & N & R')).
  exists (dump t), g', i'. split; [apply dump_spec; [exact R|unfold depth_fuel; lia]|]. split; [exact E|]. split; [exact X|]. split; [exact W|]. split; [exact A|]. split; [exact B|]. split; [exact N|]. split.
  - intros j Hj. apply (new_below g g' i' j X Hg W ltac:(lia) Hj).
  - intros u Ru. rewrite <- (rep_fun h t u i R Ru). exact R'.
Qed.
