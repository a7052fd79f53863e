(** Facts about Xml.v: the matches in a laid-out document. *)
From Verif Require Import SpecXml PyFacts ItoStrFacts FormatFacts XmlFacts XmlFacts2 XmlFacts3.

(** ** classes *)
Lemma forallb_class (p : Z -> bool) (u : pystr) (Q : Z -> Prop) : (forall c, Q c -> p c = true) -> Forall Q u -> forallb p u = true.
Proof. intros H F. apply forallb_forall. rewrite Forall_forall in F. intros x Hx. apply H, F, Hx. Qed.
Lemma name_ns u : name_ok u -> forallb ns_char u = true.
Proof.
  intros [_ F]. eapply forallb_class; [|exact F]. intros c Hc. cbv beta in Hc. destruct (ns_char c) eqn:E; [reflexivity|]. exfalso. apply ns_stop in E. apply Hc. destruct E as [-> | ->]; vm_compute; auto 20.
Qed.
Lemma name_nm u : name_ok u -> forallb nm_char u = true.
Proof.
  intros [_ F]. eapply forallb_class; [|exact F]. intros c Hc. cbv beta in Hc. destruct (nm_char c) eqn:E; [reflexivity|]. exfalso. apply nm_stop in E. apply Hc. destruct E as [-> | [-> | [-> | ->]]]; vm_compute; auto 20.
Qed.
Definition blank3 (u : pystr) : Prop := Forall (fun c => In c [9; 10; 13]) u.
Lemma blank3_nm u : blank3 u -> forallb nm_char u = true.
Proof. intros F. eapply forallb_class; [|exact F]. intros c Hc. cbn [In] in Hc. destruct Hc as [<-|[<-|[<-|[]]]]; reflexivity. Qed.
Lemma blank3_ns u : blank3 u -> forallb ns_char u = true.
Proof. intros F. eapply forallb_class; [|exact F]. intros c Hc. cbn [In] in Hc. destruct Hc as [<-|[<-|[<-|[]]]]; reflexivity. Qed.
(** white space up to a space, or up to the end of the tag *)
Definition blocked (r : pystr) : Prop := exists u c t, r = u ++ c :: t /\ blank3 u /\ stops c t.
Lemma white_blocked w r : white w -> (blocked r \/ exists u, w = u ++ [32]) -> blocked (w ++ r).
Proof.
  intros Hw. induction w as [|x w IH]; intros Hr; [destruct Hr as [Hr|(u & E)]; [exact Hr|destruct u; discriminate]|].
  inversion Hw; subst. destruct (Z.eq_dec x 32) as [->|N].
  - exists [], 32, (w ++ r). split; [reflexivity|]. split; [constructor|left; reflexivity].
  - destruct IH as (u & c & t & E & Hu & Hc); [assumption| |].
    + destruct Hr as [Hr|(u & E)]; [left; exact Hr|]. right. destruct u as [|y u]; [injection E as -> _; congruence|]. injection E as -> E. exists u. exact E.
    + exists (x :: u), c, t. split; [cbn; rewrite E; reflexivity|]. split; [|exact Hc]. constructor; [|exact Hu]. cbn [In] in *. intuition congruence.
Qed.
Lemma blocked_no_attr r i : blocked r -> ways rx_attribute r i = [].
Proof. intros (u & c & t & -> & Hu & Hc). apply no_attr; [apply blank3_nm; exact Hu|exact Hc]. Qed.

(** ** attributes *)
Definition name_caps (n : xname) (i : Z) : list (pystr * span) :=
  let b := i + zlen (name_src n) in
  match x_prefix n with
  | Some p => [(d_namespace, (i, i + zlen p)); (d_name, (i + zlen p + 1, b)); (d_tag, (i, b))]
  | None => [(d_name, (i, b)); (d_tag, (i, b))]
  end.
Definition att_caps (x : xatt) (i : Z) : list (pystr * span) :=
  let v := i + zlen (name_src (a_name x)) + 2 in
  name_caps (a_name x) i ++ [(d_value, (v, v + zlen (a_value x))); (d_attribute, (i, i + zlen (att_body x)))].
Lemma name_len n : zlen (name_src n) = match x_prefix n with Some p => zlen p + 1 + zlen (x_local n) | None => zlen (x_local n) end.
Proof. unfold name_src. destruct (x_prefix n) as [p|]; [|reflexivity]. rewrite !zlen_app. change (zlen (lit ":")) with 1. lia. Qed.
Lemma body_len x : zlen (att_body x) = zlen (name_src (a_name x)) + 2 + zlen (a_value x) + 1.
Proof. unfold att_body. rewrite !zlen_app. change (zlen [61; 34]) with 2. change (zlen [34]) with 1. lia. Qed.
Lemma attr_hit x r i : xname_ok (a_name x) -> value_ok (a_value x) -> blocked r ->
  exists ws, ways rx_attribute (att_body x ++ r) i = (r, i + zlen (att_body x), att_caps x i) :: ws.
Proof.
  intros [Hl Hp] (Hv & Hvc & Hve) Hr. pose proof (body_len x) as Lb. pose proof (name_len (a_name x)) as Ln. destruct x as [sp [pre loc] v]. unfold att_caps, name_caps, att_body, name_src in *. cbn [a_name a_value a_space x_prefix x_local] in *. cbn [app] in Lb.
  assert (Hq : ~ In 34 v) by (intros I; rewrite Forall_forall in Hvc; apply (Hvc 34 I); left; reflexivity).
  rewrite att_ways. destruct pre as [p|].
  - (* with a prefix *)
    assert (El : ((p ++ lit ":" ++ loc) ++ [61; 34] ++ v ++ [34]) ++ r = p ++ 58 :: loc ++ 61 :: 34 :: v ++ 34 :: r) by (change (lit ":") with [58]; rewrite <- !app_assoc; cbn [app]; reflexivity).
    rewrite El. unfold att_A. destruct (take_app ns_char p (58 :: loc ++ 61 :: 34 :: v ++ 34 :: r) (name_ns p Hp) eq_refl) as [-> ->].
    destruct (take_app nm_char loc (61 :: 34 :: v ++ 34 :: r) (name_nm loc Hl) eq_refl) as [-> ->]. destruct Hp as [Hp _]. destruct Hl as [Hl _].
    
    destruct p as [|p0 p'] eqn:Ep; [congruence|]. rewrite <- !Ep in *. destruct loc as [|l0 loc'] eqn:El0; [congruence|]. rewrite <- !El0 in *. cbv zeta.
    unfold att_K at 1. cbn [fst snd]. rewrite val_some by assumption. cbn [map fst snd app]. eexists.
    unfold ns_cap, nm_cap, tag_cap. rewrite Lb, Ln.
    replace (i + zlen p + 1 + zlen loc + 2 + zlen v + 1) with (i + (zlen p + 1 + zlen loc + 2 + zlen v + 1)) by lia.
    replace (i + (zlen p + 1 + zlen loc)) with (i + zlen p + 1 + zlen loc) by lia. cbn [app]. reflexivity.
  - (* without *)
    assert (El : (loc ++ [61; 34] ++ v ++ [34]) ++ r = loc ++ 61 :: 34 :: v ++ 34 :: r) by (rewrite <- !app_assoc; cbn [app]; reflexivity).
    rewrite El. rewrite att_A_none.
    + unfold att_B. destruct (take_app nm_char loc (61 :: 34 :: v ++ 34 :: r) (name_nm loc Hl) eq_refl) as [-> ->]. destruct Hl as [Hl _].
      
      destruct loc as [|l0 loc'] eqn:El0; [congruence|]. rewrite <- !El0 in *. cbv zeta. unfold att_K. cbn [fst snd]. rewrite val_some by assumption. cbn [map fst snd app]. eexists.
      unfold nm_cap, tag_cap. rewrite Lb. replace (i + zlen loc + 2 + zlen v + 1) with (i + (zlen loc + 2 + zlen v + 1)) by lia. reflexivity.
    + intros l2 E t. destruct Hr as (u & c & z & -> & Hu & Hc). destruct (stops_nm c z Hc) as [Hn Hne].
      rewrite drop_while_app_all in E by (apply name_ns; exact Hl).
      change (61 :: 34 :: v ++ 34 :: u ++ c :: z) with ([61; 34] ++ v ++ 34 :: u ++ c :: z) in E. rewrite drop_while_app_all in E by reflexivity.
      destruct (drop_cases ns_char v) as [Ha|(w & y & v2 & -> & Hw & Hy)].
      * rewrite drop_while_app_all in E by exact Ha. change (34 :: u ++ c :: z) with ([34] ++ u ++ c :: z) in E. rewrite drop_while_app_all in E by reflexivity.
        rewrite drop_while_app_all in E by (apply blank3_ns; exact Hu). exfalso. exact (stops_ns c z l2 Hc E).
      * rewrite <- app_assoc in E. cbn [app] in E. rewrite drop_at in E by assumption. injection E as -> <-.
        destruct (drop_cases nm_char v2) as [Ha|(w2 & y2 & v3 & -> & Hw2 & Hy2)].
        -- rewrite drop_while_app_all by exact Ha. change (34 :: u ++ c :: z) with ([34] ++ u ++ c :: z). rewrite drop_while_app_all by reflexivity. rewrite drop_at by (assumption || (apply blank3_nm; exact Hu)).
           apply not_eq61. exact Hne.
        -- rewrite <- app_assoc. cbn [app]. rewrite drop_at by assumption. intros F. injection F as -> F. destruct v3 as [|y3 v3].
           ++ apply Hve. split; [apply in_or_app; right; left; reflexivity|]. exists (w ++ 58 :: w2). rewrite <- app_assoc. reflexivity.
           ++ injection F as -> _. apply Hq. apply in_or_app. right. right. apply in_or_app. right. right. left. reflexivity.
Qed.
(** matches, with their position *)
Fixpoint att_matches (l : list xatt) (a : Z) : list (span * list (pystr * span)) :=
  match l with
  | [] => []
  | x :: r => let p := a + zlen (a_space x) in ((p, p + zlen (att_body x)), att_caps x p) :: att_matches r (a + zlen (att_src x))
  end.
(** positions from which no attribute begins *)
Lemma skip_run r z i ms : finds rx_attribute r (i + zlen z) ms -> (forall u v, z = u ++ v -> v <> [] -> forall j, ways rx_attribute (v ++ r) j = []) -> finds rx_attribute (z ++ r) i ms.
Proof.
  revert i. induction z as [|x z IH]; intros i F H; [cbn [app]; rewrite zlen_nil, Z.add_0_r in F; exact F|].
  cbn [app]. apply F_skip; [apply (H [] (x :: z) eq_refl ltac:(discriminate))|]. apply IH.
  - rewrite zlen_cons in F. replace (i + 1 + zlen z) with (i + (1 + zlen z)) by lia. exact F.
  - intros u v E Hv j. apply (H (x :: u) v); [cbn; rewrite E; reflexivity|exact Hv].
Qed.
Lemma white_sub u v : white (u ++ v) -> white v. Proof. intros H. apply Forall_app in H. tauto. Qed.
Lemma fin_stops fin : fin = lit ">" \/ fin = lit "/>" -> exists c t, fin = c :: t /\ stops c t.
Proof. intros [-> | ->]; [exists 62, []|exists 47, (lit ">")]; (split; [reflexivity|right; split; [tauto|vm_compute; intuition discriminate]]). Qed.
Lemma fin_blocked fin : fin = lit ">" \/ fin = lit "/>" -> blocked fin.
Proof. intros H. destruct (fin_stops fin H) as (c & t & -> & Hc). exists [], c, t. split; [reflexivity|]. split; [constructor|exact Hc]. Qed.
Lemma rest_blocked ats sp fin : Forall att_ok ats -> white sp -> fin = lit ">" \/ fin = lit "/>" -> blocked (flat_map att_src ats ++ sp ++ fin).
Proof.
  intros Ha Hs Hf. destruct ats as [|x ats]; [cbn [flat_map app]; apply white_blocked; [exact Hs|left; apply fin_blocked; exact Hf]|].
  inversion Ha; subst. destruct H1 as ((Hw & u & Eu) & _). cbn [flat_map]. unfold att_src at 1. rewrite <- !app_assoc. apply white_blocked; [exact Hw|]. right. exists u. exact Eu.
Qed.
Lemma finds_rest sp fin : white sp -> fin = lit ">" \/ fin = lit "/>" -> forall i, finds rx_attribute (sp ++ fin) i [].
Proof.
  intros Hs Hf i. apply skip_run.
  - destruct Hf as [-> | ->]; [apply (F_skip rx_attribute 62 []); [reflexivity|apply F_nil; reflexivity]|].
    apply (F_skip rx_attribute 47 [62]); [reflexivity|]. apply (F_skip rx_attribute 62 []); [reflexivity|apply F_nil; reflexivity].
  - intros u v -> Hv j. apply blocked_no_attr. apply white_blocked; [exact (white_sub u v Hs)|left; apply fin_blocked; exact Hf].
Qed.
Lemma finds_atts sp fin : white sp -> fin = lit ">" \/ fin = lit "/>" -> forall ats, Forall att_ok ats -> forall i, finds rx_attribute (flat_map att_src ats ++ sp ++ fin) i (att_matches ats i).
Proof.
  intros Hs Hf. induction ats as [|x ats IH]; intros Ha i; [cbn [flat_map app att_matches]; apply finds_rest; assumption|].
  inversion Ha; subst. destruct H1 as ((Hw & u & Eu) & Hn & Hv). cbn [flat_map att_matches]. cbv zeta. unfold att_src at 1. rewrite <- !app_assoc.
  apply skip_run.
  - destruct (attr_hit x (flat_map att_src ats ++ sp ++ fin) (i + zlen (a_space x)) Hn Hv) as (ws & E); [apply rest_blocked; assumption|].
    eapply F_hit; [exact E| |].
    + rewrite app_length. unfold att_body. rewrite !app_length. cbn [length]. lia.
    + replace (i + zlen (a_space x) + zlen (att_body x)) with (i + zlen (att_src x)) by (unfold att_src; rewrite zlen_app; lia). apply IH. assumption.
  - intros w v E Hv0 j. apply blocked_no_attr. apply white_blocked; [apply (white_sub w); rewrite <- E; exact Hw|]. right.
    assert (W : exists v', v = v' ++ [32]). { destruct (exists_last Hv0) as (v' & y & ->). exists v'. rewrite Eu in E. rewrite app_assoc in E. apply app_inj_tail in E. destruct E as [_ <-]. reflexivity. }
    exact W.
Qed.
Lemma name_chars n : xname_ok n -> Forall (fun c => ~ In c ([9; 10; 13; 34] ++ lit " /<>=?")) (name_src n).
Proof.
  assert (W : forall u, name_ok u -> Forall (fun c => ~ In c ([9; 10; 13; 34] ++ lit " /<>=?")) u).
  { intros u [_ F]. eapply Forall_impl; [|exact F]. intros c Hc I. apply Hc. revert I. vm_compute. tauto. }
  intros [Hl Hp]. unfold name_src. destruct (x_prefix n) as [p|]; [|apply W; exact Hl].
  apply Forall_app. split; [apply W; exact Hp|]. apply Forall_app. split; [constructor; [vm_compute; intuition discriminate|constructor]|apply W; exact Hl].
Qed.
Theorem finds_attributes n ats sp fin i : tag_ok n ats sp -> fin = lit ">" \/ fin = lit "/>" ->
  finds rx_attribute (open_src n ats sp fin) i (att_matches ats (i + 1 + zlen (name_src n))).
Proof.
  intros (Hn & Ha & Hs & _) Hf. unfold open_src. rewrite app_assoc. apply skip_run.
  - rewrite zlen_app. change (zlen (lit "<")) with 1. replace (i + (1 + zlen (name_src n))) with (i + 1 + zlen (name_src n)) by lia. apply finds_atts; assumption.
  - intros u v E Hv j. destruct (rest_blocked ats sp fin Ha Hs Hf) as (w & c & t & Er & Hw & Hc). rewrite Er, app_assoc. apply no_attr; [|exact Hc].
    rewrite forallb_app. apply andb_true_intro. split; [|apply blank3_nm; exact Hw].
    assert (F : forallb nm_char (lit "<" ++ name_src n) = true).
    { cbn [app lit]. apply (forallb_class nm_char _ (fun c => ~ In c (lit " />="))).
      - intros x Hx. destruct (nm_char x) eqn:En; [reflexivity|]. exfalso. apply nm_stop in En. apply Hx. destruct En as [-> | [-> | [-> | ->]]]; vm_compute; auto 10.
      - constructor; [vm_compute; intuition discriminate|]. eapply Forall_impl; [|exact (name_chars n Hn)]. intros x Hx I. apply Hx. revert I. vm_compute. tauto. }
    rewrite E, forallb_app in F. apply andb_prop in F. tauto.
Qed.

(** ** the name of a tag *)
Definition rx_ns : rx := RSeq (RGrp d_namespace (RPlus ns_char)) (RStr (lit ":")).
Lemma ns_ways l i : ways rx_ns l i =
  match take_while ns_char l with [] => [] | u => match prefixb (lit ":") (drop_while ns_char l) with true => [(skipn 1 (drop_while ns_char l), i + zlen u + 1, [ns_cap i u])] | false => [] end end.
Proof.
  unfold rx_ns. cbn [ways]. rewrite fm_map. cbn [fst snd]. rewrite (plus_then ns_char).
  - destruct (take_while ns_char l) as [|u0 u]; [reflexivity|]. cbn [fst snd]. destruct (prefixb (lit ":") (drop_while ns_char l)); reflexivity.
  - intros x r j Hx. cbn [fst snd]. assert (Py : prefixb (lit ":") (x :: r) = (58 =? x)) by (cbn; rewrite andb_true_r; reflexivity). rewrite Py.
    destruct (58 =? x) eqn:E; [|reflexivity]. apply Z.eqb_eq in E. subst x. vm_compute in Hx. discriminate.
Qed.
Lemma tag_head n r i : xname_ok n -> (exists c t, r = c :: t /\ stops c t) -> exists ws, ways rx_tag (name_src n ++ r) i = (r, i + zlen (name_src n), name_caps n i) :: ws.
Proof.
  intros [Hl Hp] (c & t & -> & Hc). destruct (stops_nm c t Hc) as [Hn _]. pose proof (name_len n) as Ln.
  set (l := name_src n ++ c :: t).
  change (ways rx_tag l i) with (map (fun w : way => (fst w, snd w ++ [(d_tag, (i, snd (fst w)))])) (flat_map (fun w => map (fun v => (fst v, snd w ++ snd v)) (ways (RGrp d_name (RPlus nm_char)) (fst (fst w)) (snd (fst w)))) (ways rx_ns l i ++ [(l, i, [])]))).
  assert (H1 : forall j, exists ws, ways (RGrp d_name (RPlus nm_char)) (x_local n ++ c :: t) j = (c :: t, j + zlen (x_local n), [nm_cap j (j + zlen (x_local n))]) :: ws).
  { intros j. cbn [ways]. destruct (plus_head nm_char (x_local n) (c :: t) j (proj1 Hl) (name_nm _ Hl) Hn) as (ws & E). rewrite E. cbn [map fst snd app]. eexists. reflexivity. }
  unfold name_caps. unfold name_src in *. destruct (x_prefix n) as [p|].
  - assert (En : ways rx_ns l i = [(x_local n ++ c :: t, i + zlen p + 1, [ns_cap i p])]).
    { rewrite ns_ways. unfold l. rewrite <- !app_assoc. destruct (take_app ns_char p (lit ":" ++ x_local n ++ c :: t) (name_ns p Hp) eq_refl) as [-> ->].
      destruct p as [|p0 p'] eqn:Ep; [destruct Hp; congruence|]. reflexivity. }
    rewrite En. cbn [app flat_map fst snd]. destruct (H1 (i + zlen p + 1)) as (ws & E). rewrite E. cbn [map app fst snd]. eexists.
    unfold ns_cap, nm_cap. rewrite Ln. replace (i + (zlen p + 1 + zlen (x_local n))) with (i + zlen p + 1 + zlen (x_local n)) by lia. reflexivity.
  - assert (En : ways rx_ns l i = []).
    { rewrite ns_ways. unfold l. destruct (take_while ns_char (x_local n ++ c :: t)) as [|u0 u1]; [reflexivity|]. rewrite drop_while_app_all by (apply name_ns; exact Hl).
      destruct (drop_while ns_char (c :: t)) as [|yy zz] eqn:Ed; [reflexivity|].
      assert (Py : prefixb (lit ":") (yy :: zz) = (58 =? yy)) by (cbn; rewrite andb_true_r; reflexivity). rewrite Py.
      destruct (58 =? yy) eqn:E; [|reflexivity]. apply Z.eqb_eq in E. subst yy. exfalso. exact (stops_ns c t zz Hc Ed). }
    rewrite En. cbn [app flat_map fst snd]. destruct (H1 i) as (ws & E). unfold l. rewrite E. cbn [map app fst snd]. eexists. reflexivity.
Qed.
Lemma no_open l i : ~ In 60 l -> finds rx_open l i [].
Proof.
  revert i. induction l as [|x l IH]; intros i H; [apply F_nil; reflexivity|]. apply F_skip; [|apply IH; intros I; apply H; right; exact I].
  unfold rx_open. cbn [ways]. assert (Py : prefixb (lit "<") (x :: l) = (60 =? x)) by (cbn; rewrite andb_true_r; reflexivity). rewrite Py.
  destruct (60 =? x) eqn:E; [|reflexivity]. apply Z.eqb_eq in E. exfalso. apply H. left. congruence.
Qed.
Lemma open_ways l i : ways rx_open (60 :: l) i =
  match l with
  | x :: l' => if mem_char x (lit "/?") then ways rx_tag l' (i + 2) ++ ways rx_tag l (i + 1) else ways rx_tag l (i + 1)
  | [] => ways rx_tag l (i + 1)
  end.
Proof.
  assert (M : forall (a : list way), map (fun v : way => (fst v, [] ++ snd v)) a = a) by (intros a; induction a as [|[u v] a IH]; [reflexivity|]; cbn [map fst snd]; rewrite IH; reflexivity).
  change (ways rx_open (60 :: l) i) with (map (fun v : way => (fst v, [] ++ snd v)) (ways (RSeq (ROpt (RCls (fun c => mem_char c (lit "/?")))) rx_tag) l (i + 1)) ++ []).
  rewrite app_nil_r, M.
  change (ways (RSeq (ROpt (RCls (fun c => mem_char c (lit "/?")))) rx_tag) l (i + 1)) with
    (flat_map (fun w : way => map (fun v => (fst v, snd w ++ snd v)) (ways rx_tag (fst (fst w)) (snd (fst w)))) (match l with [] => [] | x :: t => if mem_char x (lit "/?") then [(t, i + 1 + 1, [])] else [] end ++ [(l, i + 1, [])])).
  destruct l as [|x l'].
  - cbn [app flat_map fst snd]. rewrite app_nil_r. apply M.
  - destruct (mem_char x (lit "/?")); cbn [app flat_map fst snd]; rewrite ?app_nil_r; [rewrite !M; replace (i + 1 + 1) with (i + 2) by lia; reflexivity|apply M].
Qed.
Lemma white_no c w : white w -> ~ In c [9; 10; 13; 32] -> ~ In c w.
Proof. intros H N I. unfold white in H. rewrite Forall_forall in H. exact (N (H c I)). Qed.
Lemma name_no n c : xname_ok n -> In c ([9; 10; 13; 34] ++ lit " /<>=?") -> ~ In c (name_src n).
Proof. intros H N I. pose proof (name_chars n H) as F. rewrite Forall_forall in F. exact (F c I N). Qed.
Lemma att_no60 x : att_ok x -> ~ In 60 (att_src x).
Proof.
  intros ((Hw & _) & Hn & (_ & Hv & _)) I. unfold att_src, att_body in I. apply in_app_or in I. destruct I as [I|I]; [revert I; apply white_no; [exact Hw|cbn; intuition discriminate]|].
  apply in_app_or in I. destruct I as [I|I]; [revert I; apply name_no; [exact Hn|vm_compute; auto 20]|].
  apply in_app_or in I. destruct I as [I|I]; [cbn in I; intuition discriminate|]. apply in_app_or in I. destruct I as [I|I]; [|cbn in I; intuition discriminate].
  rewrite Forall_forall in Hv. apply (Hv 60 I). vm_compute. auto.
Qed.
Lemma atts_no60 ats : Forall att_ok ats -> ~ In 60 (flat_map att_src ats).
Proof. intros F I. apply in_flat_map in I. destruct I as (x & Hx & I). rewrite Forall_forall in F. exact (att_no60 x (F x Hx) I). Qed.
(** what follows a name: begins with a space, '/' or '>' *)
Lemma after_stops ats sp fin : fin = lit ">" \/ fin = lit "/>" -> after_name (match ats with [] => sp | a :: _ => a_space a end) -> Forall att_ok ats ->
  exists c t, flat_map att_src ats ++ sp ++ fin = c :: t /\ stops c t.
Proof.
  intros Hf Ha F. destruct ats as [|x ats].
  - cbn [flat_map app]. destruct Ha as [->|(u & ->)]; [apply fin_stops; exact Hf|]. exists 32, (u ++ fin). split; [reflexivity|left; reflexivity].
  - destruct Ha as [E|(u & E)].
    + inversion F as [|? ? Hx HF]; subst. destruct Hx as ((_ & v & Ev) & _). rewrite E in Ev. destruct v; discriminate.
    + cbn [flat_map]. unfold att_src at 1. rewrite E. exists 32. eexists. split; [reflexivity|left; reflexivity].
Qed.
Lemma name_first n : xname_ok n -> exists x u, name_src n = x :: u /\ mem_char x (lit "/?") = false.
Proof.
  intros H. pose proof (name_chars n H) as F. destruct H as [[Hl _] _]. pose proof (name_len n) as L. destruct (name_src n) as [|x u].
  - exfalso. change (zlen (@nil Z)) with 0 in L. destruct (x_prefix n) as [p|]; [pose proof (zlen_nonneg p); pose proof (zlen_nonneg (x_local n)); lia|]. apply Hl. apply zlen_0. lia.
  - exists x, u. split; [reflexivity|]. inversion F; subst. destruct (mem_char x (lit "/?")) eqn:E; [|reflexivity]. exfalso. apply H1.
    cbn in E. rewrite !orb_true_iff, !Z.eqb_eq in E. destruct E as [->|[->|E]]; [vm_compute; auto 20|vm_compute; auto 20|discriminate].
Qed.
Theorem finds_open n ats sp fin i : tag_ok n ats sp -> fin = lit ">" \/ fin = lit "/>" ->
  finds rx_open (open_src n ats sp fin) i [((i, i + 1 + zlen (name_src n)), name_caps n (i + 1))].
Proof.
  intros (Hn & Ha & Hs & Han) Hf. unfold open_src. change (lit "<" ++ ?x) with (60 :: x).
  destruct (tag_head n (flat_map att_src ats ++ sp ++ fin) (i + 1) Hn) as (ws & E); [apply after_stops; assumption|].
  eapply F_hit with (l' := flat_map att_src ats ++ sp ++ fin).
  - rewrite open_ways. destruct (name_first n Hn) as (x & u & En & Ex). rewrite En in *. cbn [app] in *. rewrite Ex. exact E.
  - cbn [length]. rewrite !app_length. lia.
  - apply no_open. intros I. apply in_app_or in I. destruct I as [I|I]; [exact (atts_no60 ats Ha I)|]. apply in_app_or in I. destruct I as [I|I].
    + revert I. apply white_no; [exact Hs|cbn; intuition discriminate].
    + destruct Hf as [-> | ->]; vm_compute in I; intuition discriminate.
Qed.
Theorem finds_close n sp i : xname_ok n -> white sp -> after_name sp ->
  finds rx_open (close_src n sp) i [((i, i + 2 + zlen (name_src n)), name_caps n (i + 2))].
Proof.
  intros Hn Hs Han. unfold close_src. change (lit "</" ++ ?x) with (60 :: 47 :: x).
  destruct (tag_head n (sp ++ lit ">") (i + 2) Hn) as (ws & E); [apply (after_stops [] sp (lit ">")); [left; reflexivity|exact Han|constructor]|].
  eapply F_hit with (l' := sp ++ lit ">").
  - rewrite open_ways. change (mem_char 47 (lit "/?")) with true. cbv iota. rewrite E. reflexivity.
  - cbn [length]. rewrite !app_length. lia.
  - apply no_open. intros I. apply in_app_or in I. destruct I as [I|I].
    + revert I. apply white_no; [exact Hs|cbn; intuition discriminate].
    + vm_compute in I; intuition discriminate.
Qed.

(** ** processing instructions and comments *)
Lemma lazy_first z rest : forall v i, (forall v1 v2, v = v1 ++ v2 -> v2 <> [] -> prefixb z (v2 ++ z ++ rest) = false) ->
  exists ws, ways (RSeq (RGrp d_value (RLazy any_char)) (RStr z)) (v ++ z ++ rest) i = (rest, i + zlen v + zlen z, [(d_value, (i, i + zlen v))]) :: ws.
Proof.
  assert (G : forall v i j, (forall v1 v2, v = v1 ++ v2 -> v2 <> [] -> prefixb z (v2 ++ z ++ rest) = false) ->
    exists ws, flat_map (fun w : way => map (fun v => (fst v, (snd w ++ [(d_value, (j, snd (fst w)))]) ++ snd v)) (ways (RStr z) (fst (fst w)) (snd (fst w)))) (lazy_ways any_char (v ++ z ++ rest) i)
      = (rest, i + zlen v + zlen z, [(d_value, (j, i + zlen v))]) :: ws).
  { induction v as [|x v IH]; intros i j H.
    - assert (P : prefixb z (z ++ rest) = true) by (apply prefixb_spec; eexists; reflexivity).
      cbn [app]. assert (S : skipn (length z) (z ++ rest) = rest) by (rewrite skipn_app, skipn_all, Nat.sub_diag; reflexivity).
      destruct (z ++ rest) as [|y t] eqn:Ez; cbn [lazy_ways flat_map fst snd ways]; rewrite P; cbn [map app fst snd]; rewrite S, zlen_nil, !Z.add_0_r; eexists; reflexivity.
    - cbn [app lazy_ways flat_map fst snd]. change (any_char x) with true. cbv iota. cbn [ways].
      rewrite (H [] (x :: v) eq_refl ltac:(discriminate) : prefixb z (x :: v ++ z ++ rest) = false). cbn [map app].
      destruct (IH (i + 1) j) as (ws & E); [intros v1 v2 E Hv; apply (H (x :: v1) v2); [cbn; rewrite E; reflexivity|exact Hv]|].
      exists ws. rewrite zlen_cons. replace (i + (1 + zlen v)) with (i + 1 + zlen v) by lia. exact E. }
  intros v i H. destruct (G v i i H) as (ws & E). exists ws. rewrite <- E. cbn [ways]. rewrite fm_map. reflexivity.
Qed.
Definition piece_matches (p : xpiece) (a : Z) : list (span * list (pystr * span)) :=
  match p with
  | PChars _ => []
  | PInstr v => [((a, a + zlen (piece_src p)), [(d_value, (a + 2, a + 2 + zlen v)); (d_pi, (a, a + zlen (piece_src p)))])]
  | PComment v => [((a, a + zlen (piece_src p)), [(d_value, (a + 4, a + 4 + zlen v)); (d_comment, (a, a + zlen (piece_src p)))])]
  end.
Fixpoint pieces_matches (t : list xpiece) (a : Z) : list (span * list (pystr * span)) :=
  match t with [] => [] | p :: r => piece_matches p a ++ pieces_matches r (a + zlen (piece_src p)) end.
Lemma misc_skip x l i : x <> 60 -> ways rx_misc (x :: l) i = [].
Proof.
  intros H. unfold rx_misc, rx_pi, rx_comment. cbn [ways].
  assert (P1 : prefixb (lit "<?") (x :: l) = false) by (destruct (prefixb (lit "<?") (x :: l)) eqn:E; [|reflexivity]; apply prefixb_spec in E; destruct E as (t & E); injection E as E _; congruence).
  assert (P2 : prefixb (lit "<!--") (x :: l) = false) by (destruct (prefixb (lit "<!--") (x :: l)) eqn:E; [|reflexivity]; apply prefixb_spec in E; destruct E as (t & E); injection E as E _; congruence).
  rewrite P1, P2. reflexivity.
Qed.
Lemma misc_chars s r i ms : ~ In 60 s -> finds rx_misc r (i + zlen s) ms -> finds rx_misc (s ++ r) i ms.
Proof.
  revert i. induction s as [|x s IH]; intros i H F; [cbn [app]; rewrite zlen_nil, Z.add_0_r in F; exact F|]. cbn [app]. apply F_skip; [apply misc_skip; intros ->; apply H; left; reflexivity|].
  apply IH; [intros I; apply H; right; exact I|]. rewrite zlen_cons in F. replace (i + 1 + zlen s) with (i + (1 + zlen s)) by lia. exact F.
Qed.
(** a delimited piece: the delimiter does not occur before its end *)
Lemma ends_pi s rest : ~ part_of (lit "?>") s -> forall v1 v2, s = v1 ++ v2 -> v2 <> [] -> prefixb (lit "?>") (v2 ++ lit "?>" ++ rest) = false.
Proof.
  intros H v1 v2 -> Hn. destruct (prefixb (lit "?>") (v2 ++ lit "?>" ++ rest)) eqn:E; [|reflexivity]. exfalso. apply prefixb_spec in E. destruct E as (t & E).
  destruct v2 as [|a [|b v2]]; [congruence| |].
  - injection E as _ E2 _. discriminate E2.
  - injection E as -> -> _. apply H. exists v1, v2. reflexivity.
Qed.
Lemma ends_comment s rest : ~ part_of (lit "-->") s -> forall v1 v2, s = v1 ++ v2 -> v2 <> [] -> prefixb (lit "-->") (v2 ++ lit "-->" ++ rest) = false.
Proof.
  intros H v1 v2 -> Hn. destruct (prefixb (lit "-->") (v2 ++ lit "-->" ++ rest)) eqn:E; [|reflexivity]. exfalso. apply prefixb_spec in E. destruct E as (t & E).
  destruct v2 as [|a [|b [|c v2]]]; [congruence| | |].
  - injection E as _ E2 _. discriminate E2.
  - injection E as _ _ E2 _. discriminate E2.
  - injection E as -> -> -> _. apply H. exists v1, v2. reflexivity.
Qed.
Lemma delim_hit (a z k : pystr) s rest i : (forall v1 v2, s = v1 ++ v2 -> v2 <> [] -> prefixb z (v2 ++ z ++ rest) = false) ->
  exists ws, ways (RGrp k (RSeq (RStr a) (RSeq (RGrp d_value (RLazy any_char)) (RStr z)))) (a ++ s ++ z ++ rest) i =
    (rest, i + zlen (a ++ s ++ z), [(d_value, (i + zlen a, i + zlen a + zlen s)); (k, (i, i + zlen (a ++ s ++ z)))]) :: ws.
Proof.
  intros H. destruct (lazy_first z rest s (i + zlen a) H) as (ws & E). set (R := RSeq (RGrp d_value (RLazy any_char)) (RStr z)) in *.
  change (ways (RGrp k (RSeq (RStr a) R)) (a ++ s ++ z ++ rest) i) with
    (map (fun w : way => (fst w, snd w ++ [(k, (i, snd (fst w)))])) (flat_map (fun w : way => map (fun v => (fst v, snd w ++ snd v)) (ways R (fst (fst w)) (snd (fst w)))) (ways (RStr a) (a ++ s ++ z ++ rest) i))).
  cbn [ways]. assert (P : prefixb a (a ++ s ++ z ++ rest) = true) by (apply prefixb_spec; eexists; reflexivity). rewrite P.
  assert (S : skipn (length a) (a ++ s ++ z ++ rest) = s ++ z ++ rest) by (rewrite skipn_app, skipn_all, Nat.sub_diag; reflexivity).
  cbn [flat_map fst snd]. rewrite S, E, app_nil_r. cbn [map fst snd app]. eexists. rewrite !zlen_app. replace (i + zlen a + zlen s + zlen z) with (i + (zlen a + (zlen s + zlen z))) by lia. reflexivity.
Qed.
Theorem finds_misc : forall t i, Forall piece_ok t -> finds rx_misc (text_src t) i (pieces_matches t i).
Proof.
  induction t as [|p t IH]; intros i F; [apply F_nil; reflexivity|]. inversion F; subst. unfold text_src in *. cbn [flat_map pieces_matches]. destruct p as [s|s|s].
  - cbn [piece_src piece_matches app]. apply misc_chars; [assumption|apply IH; assumption].
  - cbn [piece_matches app]. destruct (delim_hit (lit "<?") (lit "?>") d_pi s (flat_map piece_src t) i (ends_pi s _ H1)) as (ws & E).
    eapply F_hit with (l' := flat_map piece_src t); [| |apply IH; assumption].
    + cbn [piece_src]. rewrite <- !app_assoc. unfold rx_misc. change (ways (RAlt rx_pi rx_comment) ?l i) with (ways rx_pi l i ++ ways rx_comment l i). unfold rx_pi. rewrite E. reflexivity.
    + cbn [piece_src]. rewrite !app_length. cbn. lia.
  - cbn [piece_matches app]. destruct (delim_hit (lit "<!--") (lit "-->") d_comment s (flat_map piece_src t) i (ends_comment s _ H1)) as (ws & E).
    eapply F_hit with (l' := flat_map piece_src t); [| |apply IH; assumption].
    + cbn [piece_src]. rewrite <- !app_assoc. unfold rx_misc. change (ways (RAlt rx_pi rx_comment) ?l i) with (ways rx_pi l i ++ ways rx_comment l i).
      assert (N : ways rx_pi (lit "<!--" ++ s ++ lit "-->" ++ flat_map piece_src t) i = []) by reflexivity. rewrite N. unfold rx_comment. cbn [app]. exact E.
    + cbn [piece_src]. rewrite !app_length. cbn. lia.
Qed.
