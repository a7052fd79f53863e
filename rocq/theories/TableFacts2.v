(** Facts for Table.v: the layouts the expression of a style reads. *)
From Verif Require Import SpecTable PyFacts NlpFacts NlpFacts2 NlpFacts7 NlpFacts9 TableFacts.

Section Style.
  Variables (st : style) (s : pystr) (e : Z) (K : list (pystr * span) -> Prop) (ind : pystr).
  Hypothesis He : e <= zlen s.
  Hypothesis HK : forall c i ps, clean ps -> K c -> K (c ++ caps_of i ps).
  Let ind_rx := if st_equi st then ZRef t_indent else ZStr [].
  Hypothesis Hind : zp s e K ind_rx (fun ps => ps = [(None, ind)]).
  Hypothesis Ok_ : style_ok st.
  Notation zq := (zp s e K).
  Lemma zq_conv r (Q Q' : list chip -> Prop) : (forall ps, Q ps -> exists ps', Q' ps' /\ text_of ps' = text_of ps /\ (forall i, caps_of i ps' = caps_of i ps) /\ (clean ps -> clean ps')) -> zq r Q -> zq r Q'.
  Proof.
    intros H P x w Hx Kx Hw. destruct (P x w Hx Kx Hw) as (ps & q & C & W & E). destruct (H ps q) as (ps' & q' & E1 & E2 & E3). exists ps'. split; [exact q'|]. split; [exact (E3 C)|]. rewrite E1, E2. auto.
  Qed.
  Lemma break_same p : text_of (break ind :: p) = text_of ((None, [10]) :: (None, ind) :: p) /\ (forall i, caps_of i (break ind :: p) = caps_of i ((None, [10]) :: (None, ind) :: p)) /\ (clean ((None, [10]) :: (None, ind) :: p) -> clean (break ind :: p)).
  Proof.
    split; [unfold text_of, break; cbn [flat_map snd]; rewrite <- app_assoc; reflexivity|]. split; [intros i; unfold break; cbn [caps_of app]; rewrite zlen_cons; change (zlen [10]) with 1; f_equal; lia|].
    intros C. inversion C as [|? ? _ C1]; subst. inversion C1 as [|? ? _ C2]; subst. constructor; [discriminate|exact C2].
  Qed.
  Lemma zq_below a Q : zq a Q -> zq (ZSeq nl_rx (ZSeq ind_rx a)) (fun ps => exists p, ps = break ind :: p /\ Q p).
  Proof.
    intros P. eapply zq_conv; [|apply (zp_seq s e K He HK); [apply (zp_str s e K HK)|apply (zp_seq s e K He HK); [exact Hind|exact P]]]. cbn beta. intros ps (p & q & -> & -> & p2 & q2 & -> & -> & Hq). exists (break ind :: q2). split; [exists q2; auto|]. apply break_same.
  Qed.
  (** a line with an Ito and the line below *)
  Lemma zq_lines k a : k <> t_indent -> simple a = true -> zq (ZSeq (ZSeq nl_rx (ZSeq ind_rx (ZGrp k (ZPlusL ZAny)))) (ZSeq nl_rx (ZSeq ind_rx a)))
    (fun ps => exists p, ps = lines_of ind k p /\ fst p <> [] /\ lang a (snd p)).
  Proof.
    intros N S. eapply zp_imp; [|apply (zp_seq s e K He HK); [apply zq_below, (zp_some s e K He HK); [exact N]|apply zq_below, (zp_simple s e K He HK); [exact S]]]. cbn beta.
    intros ps (p & q & -> & (p1 & -> & u & -> & Nu) & (q1 & -> & v & -> & Lv)). exists (u, v). split; [reflexivity|]. auto.
  Qed.
  Lemma zq_pre : zq (match st_pre st with Some r => ZOpt (ZSeq (ZGrp t_pre r) (ZSeq nl_rx ind_rx)) | None => ZStr [] end)
    (fun ps => exists o, ps = opt_list o (fun u => [(Some t_pre, u); break ind]) /\ fits_opt (st_pre st) o).
  Proof.
    destruct Ok_ as (_ & _ & S & _). destruct (st_pre st) as [r|].
    - eapply zq_conv; [|apply (zp_opt s e K He HK); []; apply (zp_seq s e K He HK); [apply (zp_grp s e K He HK); [exact S|discriminate]|apply (zp_seq s e K He HK); [apply (zp_str s e K HK)|exact Hind]]]. cbn beta.
      intros ps [->|(p & q & -> & (u & -> & Lu) & p1 & q1 & -> & -> & ->)].
      + exists []. split; [exists None; split; [reflexivity|exact Logic.I]|]. auto.
      + exists [(Some t_pre, u); break ind]. split; [exists (Some u); split; [reflexivity|]; exists r; auto|]. destruct (break_same []) as (B1 & B2 & B3). split; [|split].
        * change [(Some t_pre, u); break ind] with ([(Some t_pre, u)] ++ [break ind]). rewrite !text_app, B1. reflexivity.
        * intros i. change [(Some t_pre, u); break ind] with ([(Some t_pre, u)] ++ [break ind]). rewrite !caps_app, B2. reflexivity.
        * intros C. inversion C as [|? ? C0 C1]; subst. constructor; [exact C0|]. apply B3. exact C1.
    - eapply zp_imp; [|apply zp_nil]. intros ps ->. exists None. split; [reflexivity|exact Logic.I].
  Qed.
  Lemma zq_header : zq (match st_header st with Some r => ZOpt (ZSeq (ZSeq nl_rx (ZSeq ind_rx (ZGrp t_header (ZPlusL ZAny)))) (ZSeq nl_rx (ZSeq ind_rx r))) | None => ZStr [] end)
    (fun ps => exists o, ps = opt_list o (lines_of ind t_header) /\ match o with Some (h, x) => h <> [] /\ fits_opt (st_header st) (Some x) | None => True end).
  Proof.
    destruct Ok_ as (_ & _ & _ & S & _). destruct (st_header st) as [r|].
    - eapply zp_imp; [|apply (zp_opt s e K He HK); []; apply zq_lines; [discriminate|exact S]]. cbn beta. intros ps [->|(p & -> & Nh & Lx)]; [exists None; split; [reflexivity|exact Logic.I]|]. exists (Some p). split; [reflexivity|]. destruct p as [h x]. cbn [fst snd] in *. split; [exact Nh|]. exists r. auto.
    - eapply zp_imp; [|apply zp_nil]. intros ps ->. exists None. split; [reflexivity|exact Logic.I].
  Qed.
  Notation row_rx := (ZSeq (ZSeq nl_rx (ZSeq ind_rx (ZGrp t_row (ZPlusL ZAny)))) (ZSeq nl_rx (ZSeq ind_rx (st_sep st)))).
  Lemma rows_flat pss : Forall (fun ps => (exists p, ps = lines_of ind t_row p /\ fst p <> [] /\ lang (st_sep st) (snd p)) /\ text_of ps <> []) pss ->
    exists rs, concat pss = flat_map (lines_of ind t_row) rs /\ Forall (fun p => fst p <> [] /\ lang (st_sep st) (snd p)) rs /\ length rs = length pss.
  Proof.
    induction 1 as [|ps pss [(p & -> & Hp) _] F (rs & IH & Fr & L)]; [exists []; split; [reflexivity|split; [constructor|reflexivity]]|]. exists (p :: rs). cbn [concat flat_map length]. rewrite IH. split; [reflexivity|]. split; [constructor; assumption|lia].
  Qed.
  Lemma zq_rows g least most : zq (ZRep g least most row_rx) (fun ps => exists rs, ps = flat_map (lines_of ind t_row) rs /\ Forall (fun p => fst p <> [] /\ lang (st_sep st) (snd p)) rs /\ (least <= length rs)%nat).
  Proof.
    destruct Ok_ as (_ & S & _). eapply zp_imp; [|apply (zp_rep s e K He HK); []; apply zq_lines; [discriminate|exact S]]. cbn beta. intros ps (pss & -> & F & L & _). destruct (rows_flat pss F) as (rs & E & Fr & Lr). exists rs. split; [exact E|]. split; [exact Fr|lia].
  Qed.
  Lemma zq_body : zq (match st_end st with None => ZPlus row_rx | Some r => ZSeqs [ZStar row_rx; ZSeq nl_rx (ZSeq ind_rx (ZGrp t_row (ZPlusL ZAny))); ZSeq nl_rx (ZSeq ind_rx r)] end)
    (fun ps => exists rs o, ps = flat_map (lines_of ind t_row) rs ++ opt_list o (lines_of ind t_row) /\ Forall (fun p => fst p <> [] /\ lang (st_sep st) (snd p)) rs /\
       match st_end st with None => rs <> [] /\ o = None | Some r => exists u x, o = Some (u, x) /\ u <> [] /\ lang r x end).
  Proof.
    destruct Ok_ as (_ & _ & _ & _ & S & _). destruct (st_end st) as [r|].
    - cbn [ZSeqs fold_right]. eapply zp_imp; [|apply (zp_seq s e K He HK); [apply zq_rows|apply (zp_seq s e K He HK); [apply zq_below, (zp_some s e K He HK); [discriminate]|apply (zp_seq s e K He HK); [apply zq_below, (zp_simple s e K He HK); [exact S]|apply zp_nil]]]]. cbn beta.
      intros ps (p & q & -> & (rs & -> & Fr & _) & p1 & q1 & -> & (p2 & -> & u & -> & Nu) & q2 & q3 & -> & (p3 & -> & x & -> & Lx) & ->). exists rs, (Some (u, x)). rewrite app_nil_r. split; [reflexivity|]. split; [exact Fr|]. exists u, x. auto.
    - eapply zp_imp; [|apply zq_rows]. cbn beta. intros ps (rs & -> & Fr & L). exists rs, None. cbn [opt_list]. rewrite app_nil_r. split; [reflexivity|]. split; [exact Fr|]. split; [destruct rs; [cbn in L; lia|discriminate]|reflexivity].
  Qed.
  Lemma zq_post : zq (match st_post st with Some r => ZSeq (ZSeq nl_rx (ZSeq ind_rx (ZGrp t_post r))) eol_rx | None => ZStr [] end)
    (fun ps => exists o, ps = opt_list o (fun u => [break ind; (Some t_post, u)]) /\ match st_post st with None => o = None | Some r => exists u, o = Some u /\ lang r u end).
  Proof.
    destruct Ok_ as (_ & _ & _ & _ & _ & S). destruct (st_post st) as [r|].
    - eapply zp_imp; [|apply (zp_seq s e K He HK); [apply zq_below, (zp_grp s e K He HK); [exact S|discriminate]|apply zp_eol]]. cbn beta. intros ps (p & q & -> & (p1 & -> & u & -> & Lu) & ->). exists (Some u). split; [reflexivity|]. exists u. auto.
    - eapply zp_imp; [|apply zp_nil]. intros ps ->. exists None. auto.
  Qed.
  Definition inner_rx : trx := ZSeqs [
            match st_pre st with Some r => ZOpt (ZSeq (ZGrp t_pre r) (ZSeq nl_rx ind_rx)) | None => ZStr [] end;
            st_start st;
            match st_header st with Some r => ZOpt (ZSeq (ZSeq nl_rx (ZSeq ind_rx (ZGrp t_header (ZPlusL ZAny)))) (ZSeq nl_rx (ZSeq ind_rx r))) | None => ZStr [] end;
            match st_end st with None => ZPlus row_rx | Some r => ZSeqs [ZStar row_rx; ZSeq nl_rx (ZSeq ind_rx (ZGrp t_row (ZPlusL ZAny))); ZSeq nl_rx (ZSeq ind_rx r)] end;
            match st_post st with Some r => ZSeq (ZSeq nl_rx (ZSeq ind_rx (ZGrp t_post r))) eol_rx | None => ZStr [] end].
  Lemma zq_inner : zq inner_rx (fun ps => exists l, layout_ok st l /\ ps = chips ind l).
  Proof.
    unfold inner_rx. cbn [ZSeqs fold_right]. pose proof Ok_ as (S & _).
    eapply zp_imp; [|apply (zp_seq s e K He HK); [apply zq_pre|]; apply (zp_seq s e K He HK); [apply (zp_simple s e K He HK); [exact S]|]; apply (zp_seq s e K He HK); [apply zq_header|]; apply (zp_seq s e K He HK); [apply zq_body|]; apply (zp_seq s e K He HK); [apply zq_post|apply zp_nil]]. cbn beta.
    intros ps (a & ps1 & -> & (opre & -> & Hpre) & b & ps2 & -> & (ustart & -> & Hstart) & c & ps3 & -> & (oh & -> & Hh) & d & ps4 & -> & (rs & ol & -> & Hr & He_) & f & g & -> & (op & -> & Hp) & ->).
    exists (Lay opre ustart oh rs ol op). unfold layout_ok, chips. cbn [ly_pre ly_start ly_header ly_rows ly_last ly_post]. rewrite app_nil_r, <- !app_assoc. auto 10.
  Qed.
End Style.
