(** Proofs: Xml. *)
From Verif Require Export PepoFacts2.

Definition xesc1 (c : Z) : pystr := if c =? 60 then lit "&lt;" else if c =? 62 then lit "&gt;" else if c =? 38 then lit "&amp;" else [c].
Lemma xml_escape_map s : xml_escape s = flat_map xesc1 s.
Proof.
  unfold xml_escape. change (py_replace_char 38 (lit "&amp;") s) with (flat_map (fun x => if x =? 38 then lit "&amp;" else [x]) s).
  rewrite replace_flat_map, replace_flat_map. apply flat_map_ext. intros c. unfold xesc1.
  destruct (c =? 38) eqn:E; [apply Z.eqb_eq in E; subst; reflexivity|]. unfold py_replace_char. cbn [flat_map app].
  destruct (c =? 62) eqn:E2; [apply Z.eqb_eq in E2; subst; reflexivity|]. cbn [flat_map app]. rewrite app_nil_r. reflexivity.
Qed.
Lemma xesc_chars attr s : Forall (fun c => xml_char c /\ c <> 13 /\ (attr = true -> ~ In c [34; 9; 10])) s -> xchars attr (xml_escape s) s.
Proof.
  rewrite xml_escape_map. induction 1 as [|c s (C1 & C2 & C3) F IH]; [constructor|]. cbn [flat_map]. unfold xesc1 at 1.
  destruct (c =? 60) eqn:E1; [apply Z.eqb_eq in E1; subst; apply xc_ref; [cbn; tauto|exact IH]|].
  destruct (c =? 62) eqn:E2; [apply Z.eqb_eq in E2; subst; apply xc_ref; [cbn; tauto|exact IH]|].
  destruct (c =? 38) eqn:E3; [apply Z.eqb_eq in E3; subst; apply xc_ref; [cbn; tauto|exact IH]|].
  apply Z.eqb_neq in E1, E2, E3. apply xc_plain; auto. intros [X|[X|[X|[X|[]]]]]; congruence.
Qed.
Lemma int_xchars z : xchars true (int_str z) (int_str z).
Proof.
  assert (G : forall s, (forall c, In c s -> 48 <= c <= 57 \/ c = 45) -> xchars true s s).
  { induction s as [|c s IH]; intros H; [constructor|]. pose proof (H c (or_introl eq_refl)). apply xc_plain.
    - unfold xml_char. lia.
    - intros [X|[X|[X|[X|[]]]]]; lia.
    - intros _ [X|[X|[X|[]]]]; lia.
    - apply IH. intros x I. apply H. right. exact I. }
  apply G. intros c. apply int_str_chars.
Qed.
Lemma xname_ok n : forallb (fun c => (97 <=? c) && (c <=? 122)) n = true -> n <> [] -> xname n.
Proof. intros H N. split; [exact N|]. apply Forall_forall. intros c I. rewrite forallb_forall in H. specialize (H c I). apply andb_true_iff in H. lia. Qed.
Lemma xelems_ws w s l : jws w -> xelems s l -> xelems (w ++ s) l.
Proof.
  intros W H. destruct H as [w' W'|w' s e r l W' X R]; [apply xl_nil, jws_app; assumption|]. rewrite app_assoc. apply xl_cons; [apply jws_app|..]; assumption.
Qed.
(** an element with white space around it *)
Definition xvalue (s : pystr) (e : xml) : Prop := exists a t b, jws a /\ xelem t e /\ jws b /\ s = a ++ t ++ b.
Lemma xvalue_cons s e r l : xvalue s e -> xelems r l -> xelems (s ++ r) (e :: l).
Proof. intros (a & t & b & A & T & B & ->) R. rewrite <- !app_assoc. apply xl_cons; [exact A|exact T|]. apply xelems_ws; assumption. Qed.
Lemma xvalues ss l w : Forall2 xvalue ss l -> jws w -> xelems (concat ss ++ w) l.
Proof. intros F W. induction F; [apply xl_nil; exact W|]. cbn [concat]. rewrite <- app_assoc. apply xvalue_cons; assumption. Qed.

Lemma ito_elem (pad ls w sub start stop desc sub' desc' : pystr) ks l : jws pad -> jws ls -> jws w ->
  xchars true start start -> xchars true stop stop -> xchars true desc' desc -> xchars false sub' sub -> xelems ks l ->
  xelem (lit "<ito" ++ lit " start=""" ++ start ++ lit """" ++ lit " stop=""" ++ stop ++ lit """" ++ lit " desc=""" ++ desc' ++ lit """>" ++ ls ++
         pad ++ lit "<substring>" ++ sub' ++ lit "</substring>" ++ ls ++ ks ++ w ++ lit "</ito>")
    (XElems (lit "ito") [(lit "start", start); (lit "stop", stop); (lit "desc", desc)] (XText (lit "substring") [] sub :: l)).
Proof.
  intros P L W C1 C2 C3 C4 K.
  assert (A : xattrs (lit " start=""" ++ start ++ lit """" ++ lit " stop=""" ++ stop ++ lit """" ++ lit " desc=""" ++ desc' ++ lit """" ++ [])
     [(lit "start", start); (lit "stop", stop); (lit "desc", desc)]).
  { apply (xa_cons (lit "start") start start (lit " stop=""" ++ stop ++ lit """" ++ lit " desc=""" ++ desc' ++ lit """" ++ [])); [apply xname_ok; [reflexivity|discriminate]| |exact C1|].
    - cbn [map fst]. intros [X|[X|[]]]; discriminate X.
    - apply (xa_cons (lit "stop") stop stop (lit " desc=""" ++ desc' ++ lit """" ++ [])); [apply xname_ok; [reflexivity|discriminate]| |exact C2|].
      + cbn [map fst]. intros [X|[]]; discriminate X.
      + apply (xa_cons (lit "desc") desc' desc []); [apply xname_ok; [reflexivity|discriminate]|intros []|exact C3|constructor]. }
  assert (S : xelem (lit "<substring>" ++ sub' ++ lit "</substring>") (XText (lit "substring") [] sub)).
  { apply (xe_text (lit "substring") [] [] sub' sub); [apply xname_ok; [reflexivity|discriminate]|constructor|exact C4]. }
  assert (Kw : xelems (ks ++ w) l).
  { clear - K W. induction K as [w' W'|w' s e r l W' X R IH]; [apply xl_nil, jws_app; assumption|]. rewrite <- !app_assoc. apply xl_cons; assumption. }
  apply (xelems_ws ls _ _ L) in Kw. assert (B := xl_cons pad _ _ _ _ P S Kw). apply (xelems_ws ls _ _ L) in B.
  assert (X := xe_elems (lit "ito") _ _ _ _ (xname_ok (lit "ito") eq_refl ltac:(discriminate)) A B). rewrite <- !app_assoc in X. cbn [app] in X. rewrite <- !app_assoc in *. exact X.
Qed.

Section Xml.
Variables (ls ind : pystr) (children : bool) (h : heap).
Hypothesis Hw : hwf h.
Hypothesis Hls : jws ls.
Hypothesis Hind : jws ind.
Lemma xml_one_spec : forall t fuel i level, rep h t i -> (t_height t <= fuel)%nat -> (forall j, self_or_anc h i j -> xml_fit h j) ->
  exists s e, xml_dump fuel ls ind children h level i = Ok s /\ xdescribed children h i e /\ xvalue s e.
Proof.
  induction t as [f ts IH] using tree_ind'. intros [|fuel] i level Hr Hh Hc; [cbn in Hh; lia|]. cbn [xml_dump].
  apply rep_unfold in Hr. destruct Hr as [_ F]. rewrite Forall_forall in IH.
  assert (G : forall ts1 ks, Forall2 (rep h) ts1 ks -> (forall t, In t ts1 -> In t ts) -> (forall k, In k ks -> In k (n_kids (nd h i))) ->
     exists ss es, map_res (xml_dump fuel ls ind children h (S level)) ks = Ok ss /\ xkids children h ks es /\ Forall2 xvalue ss es).
  { clear F. induction ts1 as [|t ts1 IHt]; intros ks F Hin Kin; inversion F as [|? c ? ks2 Rc F2]; subst.
    - exists [], []. repeat split; constructor.
    - destruct (IHt ks2 F2) as (ss & js & G1 & G2 & G3); [intros; apply Hin; right; assumption|intros; apply Kin; right; assumption|].
      assert (It := Hin t (or_introl eq_refl)). destruct (hwf_kid h Hw _ _ (Kin c (or_introl eq_refl))) as (Pc & _).
      destruct (IH t It fuel c (S level) Rc) as (s & j & D1 & D2 & D3).
      + pose proof (t_height_kids f ts t It). lia.
      + intros j Hj. apply Hc. destruct Hj as [->|Hj]; right; [apply anc_parent; exact Pc|apply (anc_trans h i c j); [apply anc_parent; exact Pc|exact Hj]].
      + exists (s :: ss), (j :: js). split; [|split; constructor; assumption]. cbn [map_res]. fold (map_res (xml_dump fuel ls ind children h (S level))).
        rewrite D1. cbn [bind]. rewrite G1. reflexivity. }
  set (pad := times level ind). assert (Wp : jws pad) by (apply jws_times; exact Hind).
  destruct (Hc i (or_introl eq_refl)) as [C1 C2].
  assert (B : exists kt l, (if children then match n_kids (nd h i) with [] => Ok [] | ks => do t <- cat2 (map_res (xml_dump fuel ls ind children h (S level)) ks);
      Ok (pad ++ lit "<children>" ++ ls ++ t ++ pad ++ lit "</children>" ++ ls) end else Ok []) = Ok kt /\ xbelow children h i l /\ xelems kt l).
  { destruct children eqn:Ch; [|exists [], []; split; [reflexivity|]; split; [apply xbelow_none; left; reflexivity|apply xl_nil, jws_nil]].
    destruct (G ts (n_kids (nd h i)) F (fun _ x => x) (fun _ x => x)) as (ss & es & G1 & G2 & G3). clear G.
    destruct (n_kids (nd h i)) as [|k ks] eqn:K; [exists [], []; split; [reflexivity|]; split; [apply xbelow_none; right; exact K|apply xl_nil, jws_nil]|].
    unfold cat2. rewrite G1. cbn [bind]. eexists. exists [XElems (lit "children") [] es]. split; [reflexivity|]. split.
    - apply xbelow_some; [reflexivity|rewrite K; discriminate|rewrite K; exact G2].
    - assert (X := xvalues ss es pad G3 Wp). apply (xelems_ws ls _ _ Hls) in X.
      assert (Y := xe_elems (lit "children") [] [] _ _ (xname_ok (lit "children") eq_refl ltac:(discriminate)) xa_nil X).
      assert (V := xl_cons pad _ _ _ _ Wp Y (xl_nil ls Hls)). rewrite <- !app_assoc in *. cbn [app] in V. rewrite <- ?app_assoc in V. exact V. }
  destruct B as (kt & l & B1 & B2 & B3). fold pad. rewrite B1. cbn [bind].
  eexists. eexists. split; [reflexivity|]. split; [apply xdescribed_intro; [apply jint_str|apply jint_str|exact B2]|].
  assert (W1 : jws (times (level - 1) ind)) by (apply jws_times; exact Hind).
  exists pad. eexists. exists ls. split; [exact Wp|]. split.
  - apply (ito_elem pad ls (times (level - 1) ind) _ (int_str (f_start (n_f (nd h i)))) (int_str (f_stop (n_f (nd h i)))) _ (xml_escape (ito_str (n_f (nd h i)))) (xml_escape (odflt (f_desc (n_f (nd h i))) [])) kt l);
      try assumption; try apply int_xchars.
    + apply xesc_chars. destruct (f_desc (n_f (nd h i))) as [d|]; [|constructor]. specialize (C2 d eq_refl). apply Forall_forall. intros c Ic.
      rewrite Forall_forall in C2. destruct (C2 c Ic) as [X Y]. split; [exact X|]. split; [intros ->; apply Y; cbn; tauto|]. intros _ Z. apply Y. cbn in *. tauto.
    + rewrite (ito_str_zsub (n_f (nd h i)) (hwf_span h Hw i)). apply xesc_chars. apply Forall_forall. intros c Ic. rewrite Forall_forall in C1.
      destruct (C1 c Ic) as [X Y]. split; [exact X|]. split; [exact Y|discriminate].
  - split; [exact Hls|]. rewrite <- !app_assoc. reflexivity.
Qed.
Lemma xml_one i level : acyclic h -> (i < length h)%nat -> (forall j, self_or_anc h i j -> xml_fit h j) ->
  exists s e, xml_dump (depth_fuel h) ls ind children h level i = Ok s /\ xdescribed children h i e /\ xvalue s e.
Proof. intros Ha Hi. destruct (rep_ex h i Hw Ha Hi) as (t & Ht & Hh). apply (xml_one_spec t); [exact Ht|unfold depth_fuel; lia]. Qed.
Lemma xml_body itos : acyclic h -> Forall (fun i => (i < length h)%nat) itos -> (forall i j, In i itos -> self_or_anc h i j -> xml_fit h j) ->
  exists body es, xml_dumps ls ind children h itos = Ok (lit "<?xml version=""1.0"" encoding=""UTF-8"" ?>" ++ ls ++ lit "<itos>" ++ body ++ lit "<itos>" ++ ls) /\
    xelems body es /\ Forall2 (xdescribed children h) itos es.
Proof.
  intros Ha Hi Hf. unfold xml_dumps, cat2.
  assert (G : exists ss es, map_res (xml_dump (depth_fuel h) ls ind children h 1) itos = Ok ss /\ Forall2 (xdescribed children h) itos es /\ Forall2 xvalue ss es).
  { induction itos as [|i itos IH]; [exists [], []; repeat split; constructor|]. inversion Hi as [|? ? Hi1 Hi2]; subst.
    destruct (IH Hi2 (fun i j I => Hf i j (or_intror I))) as (ss & es & G1 & G2 & G3).
    destruct (xml_one i 1 Ha Hi1 (fun j => Hf i j (or_introl eq_refl))) as (s & e & D1 & D2 & D3).
    exists (s :: ss), (e :: es). split; [|split; constructor; assumption]. cbn [map_res]. fold (map_res (xml_dump (depth_fuel h) ls ind children h 1)). rewrite D1. cbn [bind]. rewrite G1. reflexivity. }
  destruct G as (ss & es & G1 & G2 & G3). rewrite G1. cbn [bind]. exists (ls ++ concat ss), es. split; [rewrite <- !app_assoc; reflexivity|]. split; [|exact G2].
  apply xelems_ws; [exact Hls|]. rewrite <- (app_nil_r (concat ss)). apply xvalues; [exact G3|apply jws_nil].
Qed.
End Xml.

(** ** the closing tag never comes *)
Definition fin : pystr := lit "</itos>".
(** how much of fin has been read; None: all of it *)
Definition kstep (q : nat) (c : Z) : option nat :=
  if c =? nth q fin 0 then (if (q =? 6)%nat then None else Some (S q)) else if c =? 60 then Some 1%nat else Some 0%nat.
Fixpoint kscan (q : nat) (s : pystr) : option nat :=
  match s with [] => Some q | c :: r => match kstep q c with None => None | Some q' => kscan q' r end end.
Lemma kscan_app a : forall q b, kscan q (a ++ b) = match kscan q a with None => None | Some q' => kscan q' b end.
Proof. induction a as [|c a IH]; intros q b; [reflexivity|]. cbn [app kscan]. destruct (kstep q c); [apply IH|reflexivity]. Qed.
Lemma kscan_fin q : kscan q fin = None.
Proof.
  assert (K : kstep q 60 = Some 1%nat).
  { do 8 (destruct q as [|q]; [reflexivity|]). reflexivity. }
  unfold fin. change (lit "</itos>") with [60; 47; 105; 116; 111; 115; 62]. cbn [kscan]. rewrite K. reflexivity.
Qed.
Lemma kscan_occurs s : occurs fin s -> kscan 0 s = None.
Proof. intros (a & b & ->). rewrite kscan_app. destruct (kscan 0 a); [|reflexivity]. rewrite kscan_app, kscan_fin. reflexivity. Qed.
(** a text that starts and ends outside *)
Definition kok (s : pystr) : Prop := kscan 0 s = Some 0%nat.
Lemma kok_app a b : kok a -> kok b -> kok (a ++ b).
Proof. unfold kok. intros A B. rewrite kscan_app, A. exact B. Qed.
Lemma kok_no s : ~ In 60 s -> kok s.
Proof.
  intros N. unfold kok. induction s as [|c s IH]; [reflexivity|]. cbn [kscan]. unfold kstep. change (nth 0 fin 0) with 60.
  rewrite (proj2 (Z.eqb_neq c 60)) by (intros ->; apply N; left; reflexivity). apply IH. intros I. apply N. right. exact I.
Qed.
Lemma kok_times n s : ~ In 60 s -> kok (times n s).
Proof. intros N. apply kok_no. induction n as [|n IH]; [intros []|]. cbn [times]. intros I. apply in_app_or in I. tauto. Qed.
Lemma kok_esc s : kok (xml_escape s).
Proof.
  rewrite xml_escape_map. apply kok_no. induction s as [|c s IH]; [intros []|]. cbn [flat_map]. intros I. apply in_app_or in I. destruct I as [I|I]; [|exact (IH I)].
  unfold xesc1 in I. destruct (c =? 60) eqn:E; [|destruct (c =? 62); [|destruct (c =? 38)]]; cbn in I;
    repeat (destruct I as [I|I]; [try discriminate I; subst; apply Z.eqb_neq in E; congruence|]); try exact I.
Qed.
Lemma kok_int z : kok (int_str z).
Proof. apply kok_no. intros I. apply int_str_chars in I. lia. Qed.
Section Fin.
Variables (ls ind : pystr) (children : bool) (h : heap).
Hypothesis Hls : ~ In 60 ls.
Hypothesis Hind : ~ In 60 ind.
Lemma xml_dump_kok : forall fuel level i s, xml_dump fuel ls ind children h level i = Ok s -> kok s.
Proof.
  induction fuel as [|fuel IH]; intros level i s E; [discriminate|]. cbn [xml_dump] in E.
  assert (K : forall ks ss, map_res (xml_dump fuel ls ind children h (S level)) ks = Ok ss -> kok (concat ss)).
  { induction ks as [|k ks IHk]; intros ss M; cbn [map_res] in M; [injection M as <-; reflexivity|].
    fold (map_res (xml_dump fuel ls ind children h (S level))) in M. destruct (xml_dump fuel ls ind children h (S level) k) as [x|e] eqn:X; cbn [bind] in M; [|discriminate].
    destruct (map_res _ ks) as [ys|e] eqn:Y; cbn [bind] in M; [|discriminate]. injection M as <-. cbn [concat]. apply kok_app; [exact (IH _ _ _ X)|exact (IHk _ eq_refl)]. }
  assert (L : kok ls) by (apply kok_no; exact Hls). assert (T : forall n, kok (times n ind)) by (intros n; apply kok_times; exact Hind).
  match type of E with bind ?b _ = _ => assert (B : forall kt, b = Ok kt -> kok kt) end.
  { intros kt B. destruct children; [|injection B as <-; reflexivity]. destruct (n_kids (nd h i)) as [|k ks]; [injection B as <-; reflexivity|].
    unfold cat2 in B. destruct (map_res _ _) as [ys|e] eqn:Y; cbn [bind] in B; [|discriminate]. injection B as <-.
    repeat (apply kok_app; [first [exact L|apply T|exact (K _ _ Y)|reflexivity]|]). exact L. }
  match type of E with bind ?b _ = _ => destruct b as [kt|e]; cbn [bind] in E; [|discriminate] end. specialize (B kt eq_refl). injection E as <-.
  repeat (apply kok_app; [first [exact L|exact B|apply kok_esc|apply kok_int|apply T|reflexivity]|]). exact L.
Qed.
Lemma xml_never_closed itos s : xml_dumps ls ind children h itos = Ok s -> occurs (lit "<itos>") s /\ ~ occurs (lit "</itos>") s.
Proof.
  unfold xml_dumps, cat2. intros E. destruct (map_res _ itos) as [ss|e] eqn:M; cbn [bind] in E; [|discriminate]. injection E as <-.
  assert (K : forall ks ss, map_res (xml_dump (depth_fuel h) ls ind children h 1) ks = Ok ss -> kok (concat ss)).
  { induction ks as [|k ks IHk]; intros ss' M'; cbn [map_res] in M'; [injection M' as <-; reflexivity|].
    fold (map_res (xml_dump (depth_fuel h) ls ind children h 1)) in M'. destruct (xml_dump (depth_fuel h) ls ind children h 1 k) as [x|e] eqn:X; cbn [bind] in M'; [|discriminate].
    destruct (map_res _ ks) as [ys|e] eqn:Y; cbn [bind] in M'; [|discriminate]. injection M' as <-. cbn [concat]. apply kok_app; [exact (xml_dump_kok _ _ _ _ X)|exact (IHk _ eq_refl)]. }
  specialize (K _ _ M). assert (L : kok ls) by (apply kok_no; exact Hls). split.
  - exists (lit "<?xml version=""1.0"" encoding=""UTF-8"" ?>" ++ ls). eexists. rewrite <- !app_assoc. reflexivity.
  - intros O. apply kscan_occurs in O. enough (Y : kscan 0 (lit "<?xml version=""1.0"" encoding=""UTF-8"" ?>" ++ ls ++ lit "<itos>" ++ ls ++ concat ss ++ lit "<itos>" ++ ls) = Some 0%nat) by (pose proof (eq_trans (eq_sym O) Y) as YZ; discriminate YZ).
    repeat (apply kok_app; [first [exact L|exact K|reflexivity]|]). exact L.
Qed.
End Fin.
