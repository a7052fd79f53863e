(** Proofs about Ito.__format__, second part: the directives (C61, C68, C69). *)
From Verif Require Export FormatFacts.

Lemma abbreviate_spec pos w abbr s : 0 <= w -> abbreviated pos w abbr s (abbreviate pos w abbr s).
Proof.
  intros W. unfold abbreviate, abbreviated. pose proof (zlen_nonneg s). pose proof (zlen_nonneg abbr).
  destruct (Z.ltb_spec w (zlen s)) as [L|L]; [right|left; split; [lia|reflexivity]]. split; [exact L|].
  destruct (Z.leb_spec w (zlen abbr)) as [A|A].
  - rewrite slice_from by lia. split; [rewrite zsub_len; lia|]. left. split; [exact A|reflexivity].
  - assert (K : forall n m r, n + m = w - zlen abbr -> 0 <= n -> 0 <= m -> r = first_of n s ++ abbr ++ last_of m s ->
      match pos with Some 60 => n = 0 | Some 94 => m <= n <= m + 1 | _ => m = 0 end ->
      zlen r = w /\ ((w <= zlen abbr /\ r = last_of w abbr) \/
        (zlen abbr < w /\ exists n m, n + m = w - zlen abbr /\ 0 <= n /\ 0 <= m /\ r = first_of n s ++ abbr ++ last_of m s /\
          match pos with Some 60 => n = 0 | Some 94 => m <= n <= m + 1 | _ => m = 0 end))).
    { intros n m r N Hn Hm -> P. split.
      - unfold first_of, last_of. rewrite !zlen_app, !zsub_len by lia. lia.
      - right. split; [exact A|]. exists n, m. repeat (split; [assumption || reflexivity|]). exact P. }
    assert (C60 : forall r, r = abbr ++ py_slice s (Some (zlen abbr - w)) None -> r = first_of 0 s ++ abbr ++ last_of (w - zlen abbr) s).
    { intros r ->. unfold first_of, last_of. rewrite (zsub_nil s 0 0) by lia. cbn [app]. f_equal.
      replace (zlen abbr - w) with (- (w - zlen abbr)) by lia. apply slice_last. lia. }
    assert (Cd : forall r, r = py_slice s None (Some (w - zlen abbr)) ++ abbr -> r = first_of (w - zlen abbr) s ++ abbr ++ last_of 0 s).
    { intros r ->. unfold first_of, last_of. rewrite (zsub_nil s (zlen s - 0)) by lia. rewrite app_nil_r. f_equal. apply slice_to. lia. }
    assert (Cc : forall r, r = (let post_len := (w - zlen abbr) / 2 in
                      let post := if 0 <? post_len then py_slice s (Some (- post_len)) None else [] in
                      let pre := py_slice s None (Some (w - zlen post - zlen abbr)) in
                      pre ++ abbr ++ post) -> r = first_of (w - zlen abbr - (w - zlen abbr) / 2) s ++ abbr ++ last_of ((w - zlen abbr) / 2) s).
    { intros r ->. cbv zeta. set (q := (w - zlen abbr) / 2). assert (Q : 0 <= q <= w - zlen abbr).
      { unfold q. pose proof (Z.div_mod (w - zlen abbr) 2 ltac:(lia)). pose proof (Z.mod_pos_bound (w - zlen abbr) 2 ltac:(lia)). lia. }
      assert (P : (if 0 <? q then py_slice s (Some (- q)) None else []) = last_of q s).
      { unfold last_of. destruct (Z.ltb_spec 0 q); [apply slice_last; lia|]. rewrite zsub_nil by lia. reflexivity. }
      rewrite P. f_equal. unfold first_of. replace (zlen (last_of q s)) with q by (unfold last_of; rewrite zsub_len; lia).
      rewrite slice_to by lia. f_equal. lia. }
    pose proof (Z.div_mod (w - zlen abbr) 2 ltac:(lia)) as D. pose proof (Z.mod_pos_bound (w - zlen abbr) 2 ltac:(lia)) as M.
    assert (CASE : (pos = Some 60 \/ pos = Some 94) \/
      (forall A (x y z : A), match pos with Some 60 => x | Some 94 => y | _ => z end = z)).
    { destruct pos as [c|]; [|right; reflexivity]. destruct (Z.eq_dec c 60) as [->|N1]; [left; left; reflexivity|].
      destruct (Z.eq_dec c 94) as [->|N2]; [left; right; reflexivity|]. right. intros T x y z.
      destruct c as [|p|p]; try reflexivity. do 7 (try (destruct p as [p|p|]; try reflexivity)); exfalso; lia. }
    destruct CASE as [[->| ->]|G].
    + apply (K 0 (w - zlen abbr)); [lia|lia|lia|apply C60; reflexivity|reflexivity].
    + apply (K (w - zlen abbr - (w - zlen abbr) / 2) ((w - zlen abbr) / 2)); [lia|lia|lia|apply Cc; reflexivity|lia].
    + rewrite G. apply (K (w - zlen abbr) 0); [lia|lia|lia|apply Cd; reflexivity|rewrite G; reflexivity].
Qed.

(** -- reading what was written -- *)
Definition no_digit_head (E : fmt_env) (s : pystr) : Prop := match s with [] => True | x :: _ => fe_digit E x = false end.
Lemma digits_read E d : forall rest, is_digits E d -> no_digit_head E rest -> digits E (d ++ rest) = (d, rest).
Proof.
  induction d as [|c d IH]; intros rest D N; cbn [app digits].
  - destruct rest as [|x rest]; cbn [digits]; [reflexivity|]. cbn in N. rewrite N. reflexivity.
  - inversion_clear D as [|? ? Dc Dd]. rewrite Dc, (IH rest Dd N). reflexivity.
Qed.
Lemma not_digit E c : fmt_env_ok E -> In c (lit "!:% ar<^>=+-#_,bcdeEfFgGnosxX") -> fe_digit E c = false.
Proof. intros H I. apply H. exact I. Qed.
Ltac not_dig := (eapply not_digit; [eassumption|cbn; tauto]).
Lemma conv_read E c w : fmt_env_ok E -> conv_ok E c -> conv_tail E (write_conv c ++ write_width w) = (c, write_width w).
Proof.
  intros OK C. assert (NW : no_digit_head E (write_width w)).
  { destruct w as [[[p d] ab]|]; cbn; [not_dig|exact I]. }
  destruct c as [[[l k] r]|].
  - destruct C as (Dl & Dr & K). cbn [write_conv app]. rewrite conv_tail_eq. cbn [Z.eqb Pos.eqb].
    rewrite <- !app_assoc. rewrite digits_read; [|exact Dl|cbn; destruct K as [->| ->]; not_dig]. cbn [app].
    replace (mem_char k (lit "ar")) with true by (destruct K as [->| ->]; reflexivity).
    rewrite digits_read by assumption. reflexivity.
  - cbn [write_conv app]. destruct w as [[[p d] ab]|]; reflexivity.
Qed.
Lemma width_read E w : fmt_env_ok E -> width_ok E w -> width_tail E (write_width w) = (w, []).
Proof.
  intros OK W. destruct w as [[[p d] ab]|]; [|reflexivity]. destruct W as (P & Nd & Dd & _ & Na). cbn [write_width app].
  rewrite width_tail_eq. cbn [Z.eqb Pos.eqb]. destruct p as [c|]; cbn [app].
  - assert (M : mem_char c (lit "<^>") = true) by (destruct P as [<-|[<-|[<-|[]]]]; reflexivity). rewrite M.
    rewrite digits_read by assumption. destruct d; [congruence|reflexivity].
  - destruct d as [|x d]; [congruence|]. cbn [app]. inversion Dd as [|? ? Dx _]; subst.
    assert (M : mem_char x (lit "<^>") = false).
    { destruct (mem_char x (lit "<^>")) eqn:M; [|reflexivity]. exfalso. cbn in M.
      assert (x = 60 \/ x = 94 \/ x = 62) as X.
      { destruct (Z.eqb_spec 60 x); [lia|]. destruct (Z.eqb_spec 94 x); [lia|]. destruct (Z.eqb_spec 62 x); [lia|]. 
        rewrite !(Z.eqb_sym x) in M. repeat (match type of M with context [?a =? x] => destruct (Z.eqb_spec a x); [lia|] end). discriminate. }
      assert (fe_digit E x = false) by (destruct X as [->|[->| ->]]; not_dig). congruence. }
    rewrite M. change (x :: d ++ ab) with ((x :: d) ++ ab). rewrite digits_read by assumption. reflexivity.
Qed.
Lemma str_read E d c w : fmt_env_ok E -> conv_ok E c -> width_ok E w -> fmt_match E (write_str d c w) = Some (FStr d c w, []).
Proof.
  intros OK C W. unfold write_str. cbn [app]. rewrite fmt_match_eq. cbn [Z.eqb Pos.eqb]. rewrite space_case.
  assert (X : is_space (dir_str_name d ++ write_conv c ++ write_width w) = None /\
     first_alt dir_int_name [DSpan; DStart; DStop] (dir_str_name d ++ write_conv c ++ write_width w) = None /\
     first_alt dir_str_name [DDesc; DString; DSubstr; DValue] (dir_str_name d ++ write_conv c ++ write_width w) = Some (d, write_conv c ++ write_width w)).
  { destruct d; repeat split; reflexivity. }
  destruct X as (-> & -> & ->). rewrite (conv_read E c w OK C), (width_read E w OK W). reflexivity.
Qed.
Lemma digits_no_pct E s : fmt_env_ok E -> is_digits E s -> ~ In 37 s.
Proof. intros OK D I. unfold is_digits in D. rewrite Forall_forall in D. apply D in I. assert (fe_digit E 37 = false) by not_dig. congruence. Qed.
Lemma name_no_pct d : ~ In 37 (dir_str_name d).
Proof. destruct d; cbn; intuition discriminate. Qed.
Theorem format_str E i d c w : fmt_env_ok E -> conv_ok E c -> width_ok E w ->
  ito_format E i (write_str d c w) = (do s <- fmt_text E i d; Ok (fmt_width E w (fmt_conv E c s))).
Proof.
  intros OK C W. unfold write_str. cbn [app]. rewrite format_one.
  - unfold expand. change (37 :: dir_str_name d ++ write_conv c ++ write_width w) with (write_str d c w).
    rewrite (str_read E d c w OK C W). cbn [fmt_item bind]. destruct (fmt_text E i d) as [s|e]; cbn [bind]; [|reflexivity]. rewrite app_nil_r. reflexivity.
  - destruct d; discriminate.
  - intros I. apply in_app_or in I. destruct I as [I|I]; [exact (name_no_pct d I)|]. apply in_app_or in I. destruct I as [I|I].
    + destruct c as [[[l k] r]|]; [|exact I]. destruct C as (Dl & Dr & K). destruct I as [I|I]; [discriminate|]. cbn [app] in I.
      apply in_app_or in I. destruct I as [I|[I|I]]; [exact (digits_no_pct E l OK Dl I)|lia|exact (digits_no_pct E r OK Dr I)].
    + destruct w as [[[p n] ab]|]; [|exact I]. destruct W as (P & _ & Dd & Nab & _). destruct I as [I|I]; [discriminate|]. cbn [app] in I.
      apply in_app_or in I. destruct I as [I|I].
      * destruct p as [x|]; [|exact I]. destruct I as [->|[]]. cbn in P. lia.
      * apply in_app_or in I. destruct I as [I|I]; [exact (digits_no_pct E n OK Dd I)|exact (Nab I)].
Qed.
Theorem format_width E i d c p n abbr s : fmt_env_ok E -> conv_ok E c -> width_ok E (Some (p, n, abbr)) -> 0 <= fe_num E n ->
  ito_format E i (write_str d c None) = Ok s ->
  exists r, ito_format E i (write_str d c (Some (p, n, abbr))) = Ok r /\ abbreviated p (fe_num E n) abbr s r.
Proof.
  intros OK C W N Es. rewrite (format_str E i d c None OK C I) in Es. rewrite (format_str E i d c _ OK C W).
  destruct (fmt_text E i d) as [t|e]; cbn [bind fmt_width] in *; [|discriminate]. injection Es as <-. eexists. split; [reflexivity|].
  apply abbreviate_spec. exact N.
Qed.
(** conversions *)
Theorem format_conv E i d l k r s : fmt_env_ok E -> conv_ok E (Some (l, k, r)) -> ito_format E i (write_str d None None) = Ok s ->
  let t := if k =? 97 then fe_ascii E s else fe_repr E s in
  let a := match l with [] => 0 | _ => fe_num E l end in
  let b := match r with [] => 0 | _ => fe_num E r end in
  0 <= a -> (r = [] \/ (r = lit "0" /\ fe_num E r = 0) \/ (r <> lit "0" /\ 0 < b)) ->
  ito_format E i (write_str d (Some (l, k, r)) None) = Ok (zsub t a (zlen t - b)).
Proof.
  intros OK C Es t a b A B. rewrite (format_str E i d None None OK I I) in Es. rewrite (format_str E i d _ None OK C I).
  destruct (fmt_text E i d) as [s'|e]; cbn [bind fmt_width fmt_conv] in *; [|discriminate]. injection Es as ->. fold t a.
  f_equal. pose proof (zlen_nonneg t) as Lt.
  assert (Full : py_slice t (Some a) None = zsub t a (zlen t - 0)).
  { destruct (Z.le_gt_cases a (zlen t)); [rewrite slice_from by lia; f_equal; lia|].
    rewrite zsub_nil by lia. rewrite py_slice_zsub. unfold from_indices. cbn [fst snd]. destruct (Z.leb_spec 0 a); [|lia]. apply zsub_nil. lia. }
  destruct B as [->|[[-> B]|[Nr B]]].
  - exact Full.
  - cbn [lit] in *. change (eqb_str _ _) with true. cbv beta iota zeta. unfold b. rewrite B. exact Full.
  - assert (Er : match r with [] => None | _ => if eqb_str r (lit "0") then None else Some (- fe_num E r) end = Some (- b)).
    { unfold b in *. destruct r as [|x r]; [lia|]. destruct (eqb_str (x :: r) (lit "0")) eqn:E0; [apply eqb_str_eq in E0; contradiction|reflexivity]. }
    rewrite Er. rewrite py_slice_zsub. unfold from_indices. cbn [fst snd]. destruct (Z.leb_spec 0 a); [|lia]. destruct (Z.leb_spec 0 (- b)); [lia|].
    destruct (Z.le_gt_cases a (zlen t - b)).
    + f_equal; lia.
    + rewrite !zsub_nil by lia. reflexivity.
Qed.
(** int directives *)
Lemma opt_read cs s rest : opt_of cs s -> match rest with [] => True | x :: _ => ~ In x cs end -> opt_class cs (s ++ rest) = rest.
Proof.
  intros [->|(c & -> & I)] N; cbn [app].
  - destruct rest as [|x rest]; cbn [opt_class]; [reflexivity|]. destruct (mem_char x cs) eqn:M; [|reflexivity].
    destruct N. unfold mem_char in M. apply existsb_exists in M. destruct M as (y & I & E). apply Z.eqb_eq in E. subst. exact I.
  - cbn [opt_class]. replace (mem_char c cs) with true; [reflexivity|]. symmetry. apply existsb_exists. exists c. split; [exact I|apply Z.eqb_refl].
Qed.
Definition heads (P : Z -> Prop) (s : pystr) : Prop := match s with [] => True | x :: _ => P x end.
Lemma heads_app (P : Z -> Prop) a b : heads P a -> heads P b -> heads P (a ++ b).
Proof. destruct a; cbn; auto. Qed.
Lemma heads_opt (P : Z -> Prop) cs s : opt_of cs s -> (forall c, In c cs -> P c) -> heads P s.
Proof. intros [->|(c & -> & I)] H; cbn; auto. Qed.
Lemma heads_digits E (P : Z -> Prop) s : is_digits E s -> (forall c, fe_digit E c = true -> P c) -> heads P s.
Proof. intros D H. destruct s; cbn; [exact I|]. inversion D; auto. Qed.
Lemma digit_not E c cs : fmt_env_ok E -> fe_digit E c = true -> (forall x, In x cs -> In x (lit "!:% ar<^>=+-#_,bcdeEfFgGnosxX")) -> ~ In c cs.
Proof. intros OK D H I. apply H in I. rewrite (OK c I) in D. discriminate. Qed.
Ltac in_lit := let x := fresh in intros x; cbn; intuition (subst; auto 40).
Lemma mem_iff x cs : mem_char x cs = true <-> In x cs.
Proof. unfold mem_char. rewrite existsb_exists. split; [intros (y & I & E); apply Z.eqb_eq in E; subst; exact I|intros I; exists x; split; [exact I|apply Z.eqb_refl]]. Qed.
Lemma mem_false x cs : ~ In x cs -> mem_char x cs = false.
Proof. intros N. destruct (mem_char x cs) eqn:M; [|reflexivity]. apply mem_iff in M. contradiction. Qed.
Lemma fill_read fa rest :
  (fa = [] \/ (exists a, fa = [a] /\ In a (lit "<>=^")) \/ (exists f a, fa = [f; a] /\ f <> 37 /\ In a (lit "<>=^"))) ->
  Forall (fun x => ~ In x (lit "<>=^")) rest -> fill_align (fa ++ rest) = rest.
Proof.
  intros H F. destruct H as [->|[(a & -> & A)|(f & a & -> & _ & A)]]; cbn [app].
  - destruct rest as [|x [|y rest]]; cbn [fill_align]; [reflexivity| |]; inversion_clear F as [|? ? Fx F']; [rewrite mem_false by exact Fx; reflexivity|].
    inversion_clear F' as [|? ? Fy _]. rewrite !mem_false by assumption. reflexivity.
  - destruct rest as [|x rest]; cbn [fill_align]; [rewrite (proj2 (mem_iff _ _) A); reflexivity|].
    inversion_clear F as [|? ? Fx _]. rewrite mem_false by exact Fx. rewrite (proj2 (mem_iff _ _) A). reflexivity.
  - cbn [fill_align]. rewrite (proj2 (mem_iff _ _) A). reflexivity.
Qed.
Lemma opt_forall (P : Z -> Prop) cs s : opt_of cs s -> (forall c, In c cs -> P c) -> Forall P s.
Proof. intros [->|(c & -> & I)] H; constructor; auto. Qed.
Lemma digits_forall E (P : Z -> Prop) s : is_digits E s -> (forall c, fe_digit E c = true -> P c) -> Forall P s.
Proof. intros D H. eapply Forall_impl; [|exact D]. exact H. Qed.
Lemma int_fields_read E f : fmt_env_ok E -> int_spec E f -> int_fields E f = [] /\ ~ In 37 f.
Proof.
  intros OK S. destruct S as [fa sg hs ze wd gr ty Hfa Hsg Hhs Hze Hwd Hgr Hty]. split.
  - unfold int_fields. rewrite fill_read; [|exact Hfa|].
    2:{ repeat (apply Forall_app; split); try (eapply opt_forall; [eassumption|]); try (eapply digits_forall; [eassumption|]);
        intros c Hc J; try (cbn in Hc, J; lia). apply (digit_not E c (lit "<>=^") OK Hc); [in_lit|exact J]. }
    rewrite (opt_read (lit "+-") sg); [|exact Hsg|].
    2:{ change (heads (fun x => ~ In x (lit "+-")) (hs ++ ze ++ wd ++ gr ++ ty)). repeat apply heads_app; try (eapply heads_opt; [eassumption|]); try (eapply heads_digits; [eassumption|]);
        intros c Hc J; try (cbn in Hc, J; lia). apply (digit_not E c (lit "+-") OK Hc); [in_lit|exact J]. }
    rewrite (opt_read (lit "#") hs); [|exact Hhs|].
    2:{ change (heads (fun x => ~ In x (lit "#")) (ze ++ wd ++ gr ++ ty)). repeat apply heads_app; try (eapply heads_opt; [eassumption|]); try (eapply heads_digits; [eassumption|]);
        intros c Hc J; try (cbn in Hc, J; lia). apply (digit_not E c (lit "#") OK Hc); [in_lit|exact J]. }
    assert (Z0 : exists wd', is_digits E wd' /\ opt_class (lit "0") (ze ++ wd ++ gr ++ ty) = wd' ++ gr ++ ty).
    { destruct Hze as [->|(c & -> & J)].
      - cbn [app]. destruct wd as [|x wd].
        + exists []. split; [constructor|]. cbn [app]. rewrite <- (app_nil_l (gr ++ ty)) at 1. apply opt_read; [left; reflexivity|].
          change (heads (fun x => ~ In x (lit "0")) (gr ++ ty)). apply heads_app; (eapply heads_opt; [eassumption|]); intros c Hc J; cbn in Hc, J; lia.
        + cbn [app opt_class]. destruct (mem_char x (lit "0")); [exists wd; inversion Hwd; split; [assumption|reflexivity]|exists (x :: wd); split; [exact Hwd|reflexivity]].
      - exists wd. split; [exact Hwd|]. cbn [app opt_class]. destruct J as [<-|[]]. reflexivity. }
    destruct Z0 as (wd' & Dw & ->). rewrite digits_read; [|exact Dw|].
    2:{ change (heads (fun x => fe_digit E x = false) (gr ++ ty)). apply heads_app; (eapply heads_opt; [eassumption|]); intros c Hc; apply OK; revert c Hc; in_lit. }
    cbn [snd]. rewrite (opt_read (lit "_,") gr); [|exact Hgr|].
    2:{ change (heads (fun x => ~ In x (lit "_,")) ty). eapply heads_opt; [eassumption|]. intros c Hc J. cbn in Hc, J. lia. }
    destruct Hty as [->|(c & -> & J)]; [reflexivity|]. cbn [opt_class]. rewrite (proj2 (mem_iff c (lit "bcdeEfFgGnosxX%"))); [reflexivity|].
    revert J. cbn. tauto.
  - intros I. apply in_app_or in I. destruct I as [I|I].
    { destruct Hfa as [->|[(a & -> & A)|(x & a & -> & X & A)]]; [exact I| |]; cbn in I, A; lia. }
    assert (F : Forall (fun c => c <> 37) (sg ++ hs ++ ze ++ wd ++ gr ++ ty)).
    { repeat (apply Forall_app; split); try (eapply opt_forall; [eassumption|]); try (eapply digits_forall; [eassumption|]);
        intros c Hc J; try (cbn in Hc; lia). subst c. assert (fe_digit E 37 = false) by not_dig. congruence. }
    rewrite Forall_forall in F. exact (F 37 I eq_refl).
Qed.
Theorem format_int E i d f a b : fmt_env_ok E -> int_spec E f -> fe_int E (f_start i) f = Ok a -> fe_int E (f_stop i) f = Ok b ->
  ito_format E i (lit "%" ++ dir_int_name d ++ lit ":" ++ f) = Ok (int_text d a b) /\
  (f = [] -> ito_format E i (lit "%" ++ dir_int_name d) = Ok (int_text d a b)).
Proof.
  intros OK S Ea Eb. destruct (int_fields_read E f OK S) as [R N]. 
  assert (I : fmt_item E i (FInt d f) = Ok (int_text d a b)).
  { destruct d; cbn [fmt_item]; rewrite ?Ea, ?Eb; cbn [bind]; rewrite ?Eb; reflexivity. }
  assert (M : forall s, first_alt dir_int_name [DSpan; DStart; DStop] (dir_int_name d ++ s) = Some (d, s) /\ is_space (dir_int_name d ++ s) = None).
  { intros s. destruct d; split; reflexivity. }
  split.
  - change (lit "%" ++ dir_int_name d ++ lit ":" ++ f) with (37 :: (dir_int_name d ++ 58 :: f)).
    rewrite format_one.
    + unfold expand. rewrite fmt_match_eq. cbn [Z.eqb Pos.eqb]. rewrite space_case. destruct (M (58 :: f)) as [M1 M2]. rewrite M2, M1.
      cbn [int_tail]. rewrite R. cbn [length]. rewrite Nat.sub_0_r, firstn_all. rewrite I. cbn [bind]. rewrite app_nil_r. reflexivity.
    + destruct d; discriminate.
    + intros J. apply in_app_or in J. destruct J as [J|[J|J]]; [destruct d; cbn in J; intuition discriminate|discriminate|exact (N J)].
  - intros ->. change (lit "%" ++ dir_int_name d) with (37 :: dir_int_name d). rewrite format_one.
    + unfold expand. rewrite fmt_match_eq. cbn [Z.eqb Pos.eqb]. rewrite space_case. destruct (M []) as [M1 M2]. rewrite app_nil_r in M1, M2. rewrite M2, M1.
      cbn [int_tail]. rewrite I. cbn [bind]. rewrite app_nil_r. reflexivity.
    + destruct d; discriminate.
    + destruct d; cbn; intuition discriminate.
Qed.
Theorem format_zws E i t : ~ In 37 t -> ito_format E i (lit "% " ++ t) = Ok t.
Proof.
  intros N. change (lit "% " ++ t) with (37 :: 32 :: t). rewrite format_one; [reflexivity|discriminate|]. intros [J|J]; [discriminate|exact (N J)].
Qed.

Theorem format_text E i d t : fmt_env_ok E -> fwf i -> names_text E i d t -> ito_format E i (write_str d None None) = Ok t.
Proof.
  intros OK W T. rewrite (format_str E i d None None OK I I). cbn [fmt_width fmt_conv].
  destruct d; cbn [fmt_text names_text bind] in *; subst; try reflexivity.
  - rewrite ito_str_zsub by exact W. reflexivity.
  - rewrite T. reflexivity.
Qed.
