(** Proofs: Json. *)
From Verif Require Export PepoFacts HighlightFacts2.
From Coq Require DecimalPos DecimalFacts.

(** ** numbers *)
Lemma fold_acc u : forall acc, fold_left (fun n c => 10 * n + (c - 48)) (uint_str u) (Zpos acc) = Zpos (Pos.of_uint_acc u acc).
Proof. induction u; intros acc; [reflexivity|..]; cbn [uint_str fold_left Pos.of_uint_acc]; rewrite <- IHu; f_equal; lia. Qed.
Lemma digit_value_of u : digit_value (uint_str u) = Z.of_N (Pos.of_uint u).
Proof.
  unfold digit_value. induction u; [reflexivity|..]; cbn [uint_str fold_left Pos.of_uint]; [exact IHu|..]; apply fold_acc.
Qed.
Lemma no_zero_head u : Decimal.unorm u = u -> hd 0 (uint_str u) = 48 -> u = Decimal.zero.
Proof.
  intros U H. destruct u; cbn in H; try discriminate. unfold Decimal.unorm in U. cbn [Decimal.nzhead] in U.
  assert (X : forall v w, Decimal.nzhead v = Decimal.D0 w -> False) by (induction v; cbn; intros w E; try discriminate; exact (IHv w E)).
  destruct (Decimal.nzhead u) eqn:N; try discriminate; [injection U as <-; reflexivity|exfalso; exact (X _ _ N)].
Qed.
Lemma to_uint_digits p : jdigits (uint_str (Pos.to_uint p)) /\ digit_value (uint_str (Pos.to_uint p)) = Zpos p.
Proof.
  pose proof (DecimalPos.Unsigned.of_to p) as O.
  assert (V : digit_value (uint_str (Pos.to_uint p)) = Zpos p) by (rewrite digit_value_of, O; reflexivity).
  split; [|exact V]. split; [|split].
  - intros N. rewrite N in V. cbn in V. discriminate.
  - apply Forall_forall. intros c I. exact (uint_digits _ _ I).
  - intros H. exfalso. pose proof (DecimalPos.Unsigned.to_of (Pos.to_uint p)) as T. rewrite O in T. cbn [N.to_uint] in T. symmetry in T.
    apply (no_zero_head _ T) in H. exact (DecimalPos.Unsigned.to_uint_nonzero p H).
Qed.
Lemma jint_str z : jint (int_str z) z.
Proof.
  destruct z as [|p|p]; cbn [int_str].
  - apply (jint_pos [48]). split; [discriminate|]. split; [|reflexivity]. constructor; [lia|constructor].
  - destruct (to_uint_digits p) as [D V]. rewrite <- V. apply jint_pos. exact D.
  - destruct (to_uint_digits p) as [D V]. change (Z.neg p) with (- Z.pos p). rewrite <- V. apply jint_neg. exact D.
Qed.

(** ** strings *)
Lemma hex_ok n : 0 <= n < 16 -> hex_value (hex_char n) = Some n.
Proof.
  intros H. assert (n = 0 \/ n = 1 \/ n = 2 \/ n = 3 \/ n = 4 \/ n = 5 \/ n = 6 \/ n = 7 \/ n = 8 \/ n = 9 \/ n = 10 \/ n = 11 \/ n = 12 \/ n = 13 \/ n = 14 \/ n = 15) as D by lia.
  repeat (destruct D as [->|D]; [reflexivity|]). subst. reflexivity.
Qed.
Lemma enc_chars s : Forall (fun c => 0 <= c) s -> jchars (flat_map json_esc s) s.
Proof.
  induction s as [|c s IH]; intros H; [constructor|]. inversion H as [|? ? Hc Hs]; subst. specialize (IH Hs). cbn [flat_map].
  unfold json_esc.
  destruct (c =? 92) eqn:E1; [apply Z.eqb_eq in E1; subst; apply (jc_esc 92 92); [cbn; tauto|exact IH]|].
  destruct (c =? 34) eqn:E2; [apply Z.eqb_eq in E2; subst; apply (jc_esc 34 34); [cbn; tauto|exact IH]|].
  destruct (c =? 8) eqn:E3; [apply Z.eqb_eq in E3; subst; apply (jc_esc 98 8); [cbn; tauto|exact IH]|].
  destruct (c =? 12) eqn:E4; [apply Z.eqb_eq in E4; subst; apply (jc_esc 102 12); [cbn; tauto|exact IH]|].
  destruct (c =? 10) eqn:E5; [apply Z.eqb_eq in E5; subst; apply (jc_esc 110 10); [cbn; tauto|exact IH]|].
  destruct (c =? 13) eqn:E6; [apply Z.eqb_eq in E6; subst; apply (jc_esc 114 13); [cbn; tauto|exact IH]|].
  destruct (c =? 9) eqn:E7; [apply Z.eqb_eq in E7; subst; apply (jc_esc 116 9); [cbn; tauto|exact IH]|].
  apply Z.eqb_neq in E1, E2. destruct (c <? 32) eqn:E8.
  - apply Z.ltb_lt in E8. pose proof (Z.div_mod c 16) as D. assert (Q2 : 0 <= c mod 16 < 16) by (apply Z.mod_pos_bound; lia). assert (Q1 : 0 <= c / 16 < 16) by (split; [apply Z.div_pos; lia|apply Z.div_lt_upper_bound; lia]).
    assert (X := jc_hex 48 48 (hex_char (c / 16)) (hex_char (c mod 16)) 0 0 (c / 16) (c mod 16) (flat_map json_esc s) s eq_refl eq_refl (hex_ok _ Q1) (hex_ok _ Q2)).
    cbv zeta in X. replace (((0 * 16 + 0) * 16 + c / 16) * 16 + c mod 16) with c in X by lia. apply X; [lia|exact IH].
  - apply Z.ltb_ge in E8. apply jc_plain; assumption.
Qed.

Lemma zsub_in {A} (l : list A) a b x : In x (zsub l a b) -> In x l.
Proof.
  unfold zsub. intros H. rewrite <- (firstn_skipn (Z.to_nat a) l). apply in_or_app. right.
  rewrite <- (firstn_skipn (Z.to_nat (b - a)) (skipn (Z.to_nat a) l)). apply in_or_app. left. exact H.
Qed.
(** ** white space *)
Lemma jws_app a b : jws a -> jws b -> jws (a ++ b).
Proof. intros H1 H2. apply Forall_app. auto. Qed.
Lemma jws_times n s : jws s -> jws (times n s).
Proof. intros H. induction n; [constructor|]. cbn [times]. apply jws_app; assumption. Qed.
Lemma jws_space : jws [32].
Proof. constructor; [cbn; tauto|constructor]. Qed.
Lemma jws_nil : jws [].
Proof. constructor. Qed.

(** ** the dump of one Ito *)
Lemma jm_app a k b c s d key j r l t : jws a -> jchars k key -> jws b -> jws c -> jtext s j -> jws d -> jmembers r l ->
  t = a ++ [34] ++ k ++ [34] ++ b ++ [58] ++ c ++ s ++ d ++ [44] ++ r -> jmembers t ((key, j) :: l).
Proof. intros. subst t. apply jm_cons; assumption. Qed.
Lemma jm_end a k b c s d key j t : jws a -> jchars k key -> jws b -> jws c -> jtext s j -> jws d ->
  t = a ++ [34] ++ k ++ [34] ++ b ++ [58] ++ c ++ s ++ d -> jmembers t [(key, j)].
Proof. intros. subst t. apply jm_one; assumption. Qed.
Lemma key_chars s : forallb (fun c => (32 <=? c) && negb (c =? 34) && negb (c =? 92)) s = true -> jchars s s.
Proof.
  induction s as [|c s IH]; intros H; [constructor|]. cbn [forallb] in H. apply andb_true_iff in H. destruct H as [H H'].
  apply andb_true_iff in H. destruct H as [H H3]. apply andb_true_iff in H. destruct H as [H1 H2]. apply Z.leb_le in H1. apply negb_true_iff in H2, H3.
  apply Z.eqb_neq in H2, H3. apply jc_plain; auto.
Qed.
Definition jvalue (s : pystr) (j : json) : Prop := exists w s', jws w /\ jtext s' j /\ s = w ++ s'.
Lemma jelems_ws w s l : jws w -> jelems s l -> jelems (w ++ s) l.
Proof.
  intros W H. inversion H as [a x b j A T B|a x b j r k A T B R]; subst; rewrite app_assoc; [apply je_one|apply je_cons]; try assumption; apply jws_app; assumption.
Qed.
Lemma jmembers_ws w s l : jws w -> jmembers s l -> jmembers (w ++ s) l.
Proof.
  intros W H. inversion H; subst; rewrite app_assoc; [apply jm_one|apply jm_cons]; try assumption; apply jws_app; assumption.
Qed.
Lemma rows_elems ls : jws ls -> forall l js b, l <> [] -> Forall2 jvalue l js -> jws b -> jelems (json_rows ls l ++ b) js.
Proof.
  intros Hl l js b N F Hb. induction F as [|x j l js (w & x' & W & T & ->) F IH]; [contradiction|]. destruct F as [|y j2 l js Hy F].
  - cbn [json_rows]. rewrite <- !app_assoc. apply je_one; [exact W|exact T|apply jws_app; assumption].
  - change (json_rows ls ((w ++ x') :: y :: l)) with ((w ++ x') ++ lit "," ++ ls ++ json_rows ls (y :: l)). rewrite <- !app_assoc.
    apply (je_cons w x' [] j); [exact W|exact T|apply jws_nil|].
    apply jelems_ws; [exact Hl|]. apply IH. discriminate.
Qed.
Lemma obj_text (pad ls s1 s2 s3 s4 s5 w : pystr) z1 z2 d v js : jws pad -> jws ls -> jws w ->
  jint s1 z1 -> jint s2 z2 -> jtext s3 d -> jtext s4 v -> jtext s5 (JArr js) ->
  jtext (lit "{" ++ ls ++ pad ++ lit """start"": " ++ s1 ++ lit "," ++ ls ++ pad ++ lit """stop"": " ++ s2 ++ lit "," ++ ls ++
         pad ++ lit """desc"": " ++ s3 ++ lit "," ++ ls ++ pad ++ lit """substr"": " ++ s4 ++ lit "," ++ ls ++
         pad ++ lit """children"": " ++ s5 ++ ls ++ w ++ lit "}")
    (JObj [(lit "start", JInt z1); (lit "stop", JInt z2); (lit "desc", d); (lit "substr", v); (lit "children", JArr js)]).
Proof.
  intros P L W I1 I2 T3 T4 T5.
  assert (M : jmembers (ls ++ pad ++ lit """start"": " ++ s1 ++ lit "," ++ ls ++ pad ++ lit """stop"": " ++ s2 ++ lit "," ++ ls ++
         pad ++ lit """desc"": " ++ s3 ++ lit "," ++ ls ++ pad ++ lit """substr"": " ++ s4 ++ lit "," ++ ls ++
         pad ++ lit """children"": " ++ s5 ++ ls ++ w) [(lit "start", JInt z1); (lit "stop", JInt z2); (lit "desc", d); (lit "substr", v); (lit "children", JArr js)]).
  { apply jmembers_ws; [exact L|]. apply (jm_app pad (lit "start") [] [32] s1 [] (lit "start") (JInt z1) (ls ++ pad ++ lit """stop"": " ++ s2 ++ lit "," ++ ls ++
         pad ++ lit """desc"": " ++ s3 ++ lit "," ++ ls ++ pad ++ lit """substr"": " ++ s4 ++ lit "," ++ ls ++
         pad ++ lit """children"": " ++ s5 ++ ls ++ w)); [exact P|apply key_chars; reflexivity|apply jws_nil|apply jws_space|apply jt_int; exact I1|apply jws_nil| |reflexivity].
    apply jmembers_ws; [exact L|]. apply (jm_app pad (lit "stop") [] [32] s2 [] (lit "stop") (JInt z2) (ls ++
         pad ++ lit """desc"": " ++ s3 ++ lit "," ++ ls ++ pad ++ lit """substr"": " ++ s4 ++ lit "," ++ ls ++
         pad ++ lit """children"": " ++ s5 ++ ls ++ w)); [exact P|apply key_chars; reflexivity|apply jws_nil|apply jws_space|apply jt_int; exact I2|apply jws_nil| |reflexivity].
    apply jmembers_ws; [exact L|]. apply (jm_app pad (lit "desc") [] [32] s3 [] (lit "desc") d (ls ++ pad ++ lit """substr"": " ++ s4 ++ lit "," ++ ls ++
         pad ++ lit """children"": " ++ s5 ++ ls ++ w)); [exact P|apply key_chars; reflexivity|apply jws_nil|apply jws_space|exact T3|apply jws_nil| |reflexivity].
    apply jmembers_ws; [exact L|]. apply (jm_app pad (lit "substr") [] [32] s4 [] (lit "substr") v (ls ++
         pad ++ lit """children"": " ++ s5 ++ ls ++ w)); [exact P|apply key_chars; reflexivity|apply jws_nil|apply jws_space|exact T4|apply jws_nil| |reflexivity].
    apply jmembers_ws; [exact L|]. apply (jm_end pad (lit "children") [] [32] s5 (ls ++ w)); [exact P|apply key_chars; reflexivity|apply jws_nil|apply jws_space|exact T5|apply jws_app; assumption|reflexivity]. }
  apply jt_obj in M. rewrite <- !app_assoc in M. exact M.
Qed.

Section Json.
Variables (ls ind : pystr) (h : heap).
Hypothesis Hw : hwf h.
Hypothesis Hls : jws ls.
Hypothesis Hind : jws ind.
Lemma json_one_spec : forall t fuel i level, rep h t i -> (t_height t <= fuel)%nat ->
  (forall j, self_or_anc h i j -> Forall (fun c => 0 <= c) (h_string h j) /\ Forall (fun c => 0 <= c) (odflt (f_desc (n_f (nd h j))) [])) ->
  exists s j, json_dump fuel ls ind true h level i = Ok s /\ described h i j /\ jvalue s j.
Proof.
  induction t as [f ts IH] using tree_ind'. intros [|fuel] i level Hr Hh Hc; [cbn in Hh; lia|]. cbn [json_dump].
  apply rep_unfold in Hr. destruct Hr as [_ F]. rewrite Forall_forall in IH.
  assert (G : forall ts1 ks, Forall2 (rep h) ts1 ks -> (forall t, In t ts1 -> In t ts) -> (forall k, In k ks -> In k (n_kids (nd h i))) ->
     exists ss js, map_res (json_dump fuel ls ind true h (S (S level))) ks = Ok ss /\ Forall2 (described h) ks js /\ Forall2 jvalue ss js).
  { clear F. induction ts1 as [|t ts1 IHt]; intros ks F Hin Kin; inversion F as [|? c ? ks2 Rc F2]; subst.
    - exists [], []. repeat split; constructor.
    - destruct (IHt ks2 F2) as (ss & js & G1 & G2 & G3); [intros; apply Hin; right; assumption|intros; apply Kin; right; assumption|].
      assert (It := Hin t (or_introl eq_refl)). destruct (hwf_kid h Hw _ _ (Kin c (or_introl eq_refl))) as (Pc & _).
      destruct (IH t It fuel c (S (S level)) Rc) as (s & j & D1 & D2 & D3).
      + pose proof (t_height_kids f ts t It). lia.
      + intros j Hj. apply Hc. destruct Hj as [->|Hj]; right; [apply anc_parent; exact Pc|apply (anc_trans h i c j); [apply anc_parent; exact Pc|exact Hj]].
      + exists (s :: ss), (j :: js). split; [|split; constructor; assumption]. cbn [map_res]. fold (map_res (json_dump fuel ls ind true h (S (S level)))).
        rewrite D1. cbn [bind]. rewrite G1. reflexivity. }
  destruct (G ts (n_kids (nd h i)) F (fun _ x => x) (fun _ x => x)) as (ss & js & G1 & G2 & G3). rewrite G1. cbn [bind].
  eexists. eexists. split; [reflexivity|]. split; [apply described_intro; exact G2|].
  destruct (Hc i (or_introl eq_refl)) as [C1 C2].
  set (pad := times (S level) ind).
  assert (Wp : jws pad) by (apply jws_times; exact Hind). assert (Wl : jws (times level ind)) by (apply jws_times; exact Hind).
  set (s5 := lit "[" ++ match ss with [] => lit "]" | _ => ls ++ json_rows ls ss ++ pad ++ lit "]" end).
  assert (T5 : jtext s5 (JArr js)).
  { subst s5. destruct ss as [|x ss].
    - inversion G3; subst. apply (jt_arr0 []). apply jws_nil.
    - assert (X := rows_elems ls Hls (x :: ss) js pad ltac:(discriminate) G3 Wp). apply (jelems_ws ls _ _ Hls) in X. apply jt_arr in X.
      rewrite <- !app_assoc in X. exact X. }
  assert (E : (pad ++ lit """children"": [" ++ match ss with [] => lit "]" ++ ls | _ => ls ++ json_rows ls ss ++ pad ++ lit "]" ++ ls end) = pad ++ lit """children"": " ++ s5 ++ ls).
  { subst s5. destruct ss; rewrite <- ?app_assoc; reflexivity. }
  fold pad. rewrite E. clearbody s5 pad. clear E.
  exists (times level ind). eexists. split; [exact Wl|]. split; [|reflexivity].
  rewrite <- !app_assoc. apply obj_text; try assumption; try apply jint_str.
  - destruct (f_desc (n_f (nd h i))) as [d|]; [apply jt_str; apply enc_chars; exact C2|apply jt_null].
  - replace (zsub (h_string h i) (h_start h i) (h_stop h i)) with (ito_str (n_f (nd h i))) by (apply ito_str_zsub, (hwf_span h Hw)).
    apply jt_str. apply enc_chars. rewrite (ito_str_zsub (n_f (nd h i)) (hwf_span h Hw i)). apply Forall_forall. intros c Ic.
    rewrite Forall_forall in C1. apply C1. exact (zsub_in _ _ _ _ Ic).
Qed.
Lemma items_elems : forall r x js w, jws w -> Forall2 jvalue (x :: r) js -> jelems (ls ++ x ++ json_items ls false r ++ w) js.
Proof.
  induction r as [|y r IH]; intros x js w W F; inversion F as [|? j ? js' (a & x' & A & T & ->) F2]; subst; rewrite <- app_assoc; (apply jelems_ws; [exact Hls|]).
  - inversion F2; subst. cbn [json_items app]. apply je_one; assumption.
  - cbn [json_items]. rewrite <- !app_assoc. apply (je_cons a x' [] j); auto using jws_nil.
Qed.
Lemma json_all itos : acyclic h -> Forall (fun i => (i < length h)%nat) itos ->
  (forall j, Forall (fun c => 0 <= c) (h_string h j) /\ Forall (fun c => 0 <= c) (odflt (f_desc (n_f (nd h j))) [])) ->
  exists s js, json_dumps ls ind true h itos = Ok s /\ jdoc s (JObj [(lit "itos", JArr js)]) /\ Forall2 (described h) itos js.
Proof.
  intros Ha Hi Hc. unfold json_dumps.
  assert (G : exists ss js, map_res (json_dump (depth_fuel h) ls ind true h 2) itos = Ok ss /\ Forall2 (described h) itos js /\ Forall2 jvalue ss js).
  { induction itos as [|i itos IH]; [exists [], []; repeat split; constructor|]. inversion Hi as [|? ? Hi1 Hi2]; subst.
    destruct (IH Hi2) as (ss & js & G1 & G2 & G3). destruct (rep_ex h i Hw Ha Hi1) as (t & Ht & Hh).
    destruct (json_one_spec t (depth_fuel h) i 2 Ht) as (s & j & D1 & D2 & D3); [unfold depth_fuel; lia|auto|].
    exists (s :: ss), (j :: js). split; [|split; constructor; assumption]. cbn [map_res]. fold (map_res (json_dump (depth_fuel h) ls ind true h 2)).
    rewrite D1. cbn [bind]. rewrite G1. reflexivity. }
  destruct G as (ss & js & G1 & G2 & G3). rewrite G1. cbn [bind]. eexists. exists js. split; [reflexivity|]. split; [|exact G2].
  assert (A : jtext (lit "[" ++ json_items ls true ss ++ ls ++ ind ++ lit "]") (JArr js)).
  { destruct G3 as [|x j ss js X G3].
    - cbn [json_items app]. assert (Y := jt_arr0 (ls ++ ind) (jws_app _ _ Hls Hind)). rewrite <- !app_assoc in Y. exact Y.
    - assert (Y := items_elems ss x (j :: js) (ls ++ ind) (jws_app _ _ Hls Hind) (Forall2_cons _ _ X G3)). apply jt_arr in Y. rewrite <- !app_assoc in Y.
      cbn [json_items]. rewrite <- !app_assoc. exact Y. }
  exists [], (lit "{" ++ ls ++ ind ++ lit """itos"": " ++ (lit "[" ++ json_items ls true ss ++ ls ++ ind ++ lit "]") ++ ls ++ lit "}"), ls.
  split; [apply jws_nil|]. split; [|split; [exact Hls|rewrite <- !app_assoc; reflexivity]].
  assert (M : jmembers (ls ++ ind ++ lit """itos"": " ++ (lit "[" ++ json_items ls true ss ++ ls ++ ind ++ lit "]") ++ ls) [(lit "itos", JArr js)]).
  { apply jmembers_ws; [exact Hls|]. apply (jm_end ind (lit "itos") [] [32] (lit "[" ++ json_items ls true ss ++ ls ++ ind ++ lit "]") ls); [exact Hind|apply key_chars; reflexivity|apply jws_nil|apply jws_space|exact A|exact Hls|rewrite <- !app_assoc; reflexivity]. }
  apply jt_obj in M. rewrite <- !app_assoc in *. exact M.
Qed.
End Json.

(** ** texts with a comma before a closing bracket are not JSON *)
Inductive sstate := Out (comma : bool) | InStr | Esc.
Definition sstep (q : sstate) (c : Z) : option sstate :=
  match q with
  | Out cm => if c =? 34 then Some InStr else if c =? 44 then Some (Out true)
              else if (c =? 32) || (c =? 9) || (c =? 10) || (c =? 13) then Some (Out cm)
              else if (c =? 125) || (c =? 93) then (if cm then None else Some (Out false))
              else Some (Out false)
  | InStr => if c =? 92 then Some Esc else if c =? 34 then Some (Out false) else Some InStr
  | Esc => Some InStr
  end.
Fixpoint scan (q : sstate) (s : pystr) : option sstate :=
  match s with [] => Some q | c :: r => match sstep q c with None => None | Some q' => scan q' r end end.
Lemma scan_app a : forall q b, scan q (a ++ b) = match scan q a with None => None | Some q' => scan q' b end.
Proof. induction a as [|c a IH]; intros q b; [reflexivity|]. cbn [app scan]. destruct (sstep q c); [apply IH|reflexivity]. Qed.
Lemma scan_ws cm w : jws w -> scan (Out cm) w = Some (Out cm).
Proof. induction 1 as [|c w C W IH]; [reflexivity|]. cbn [scan]. destruct C as [<-|[<-|[<-|[<-|[]]]]]; exact IH. Qed.
Lemma scan_chars s v : jchars s v -> scan InStr s = Some InStr.
Proof.
  induction 1 as [|c s v C1 C2 C3 H IH|e c s v He H IH|a b c d x y z w s v A B C D n N H IH]; [reflexivity|..].
  - cbn [scan sstep]. rewrite (proj2 (Z.eqb_neq c 92) C3), (proj2 (Z.eqb_neq c 34) C2). exact IH.
  - exact IH.
  - assert (P : forall c x, hex_value c = Some x -> (c =? 92) = false /\ (c =? 34) = false).
    { clear. intros c x H. split; apply Z.eqb_neq; intros ->; discriminate. }
    destruct (P _ _ A) as [A1 A2], (P _ _ B) as [B1 B2], (P _ _ C) as [C1 C2], (P _ _ D) as [D1 D2].
    change (scan InStr (a :: b :: c :: d :: s) = Some InStr). cbn [scan sstep].
    rewrite A1, A2. cbn [scan sstep]. rewrite B1, B2. cbn [scan sstep]. rewrite C1, C2. cbn [scan sstep]. rewrite D1, D2. exact IH.
Qed.
Lemma scan_digits ds cm : Forall (fun c => 48 <= c <= 57) ds -> ds <> [] -> scan (Out cm) ds = Some (Out false).
Proof.
  intros F N. destruct ds as [|c ds]; [contradiction|]. clear N.
  assert (S : forall cm c, 48 <= c <= 57 -> sstep (Out cm) c = Some (Out false)).
  { clear. intros cm c H. unfold sstep. repeat (match goal with |- context [c =? ?k] => rewrite (proj2 (Z.eqb_neq c k)) by lia end). reflexivity. }
  revert cm c F. induction ds as [|d ds IH]; intros cm c F; inversion F as [|? ? F1 F2]; subst; cbn [scan]; rewrite S by assumption; [reflexivity|]. apply IH. exact F2.
Qed.
Lemma scan_then a q q' b : scan q a = Some q' -> scan q (a ++ b) = scan q' b.
Proof. intros E. rewrite scan_app, E. reflexivity. Qed.
Lemma scan_json : (forall s j, jtext s j -> forall cm, scan (Out cm) s = Some (Out false)) /\
  (forall s l, jelems s l -> forall cm, scan (Out cm) s = Some (Out false)) /\ (forall s l, jmembers s l -> forall cm, scan (Out cm) s = Some (Out false)).
Proof.
  apply json_mut.
  - intros []; reflexivity.
  - intros s z H cm. destruct H as [ds (N & F & _)|ds (N & F & _)]; [apply scan_digits; assumption|]. cbn [scan]. change (sstep (Out cm) 45) with (Some (Out false)). apply scan_digits; assumption.
  - intros s v H cm. rewrite (scan_then [34] _ InStr), (scan_then s _ InStr) by first [exact (scan_chars s v H)|reflexivity]. reflexivity.
  - intros w W cm. rewrite (scan_then [91] _ (Out false)), (scan_then w _ (Out false)) by first [exact (scan_ws _ _ W)|reflexivity]. reflexivity.
  - intros s l _ IH cm. rewrite (scan_then [91] _ (Out false)), (scan_then s _ (Out false)) by first [exact (IH _)|reflexivity]. reflexivity.
  - intros w W cm. rewrite (scan_then [123] _ (Out false)), (scan_then w _ (Out false)) by first [exact (scan_ws _ _ W)|reflexivity]. reflexivity.
  - intros s l _ IH cm. rewrite (scan_then [123] _ (Out false)), (scan_then s _ (Out false)) by first [exact (IH _)|reflexivity]. reflexivity.
  - intros a s b j A _ IH B cm. rewrite (scan_then a _ _ _ (scan_ws cm a A)), (scan_then s _ _ _ (IH cm)). exact (scan_ws _ b B).
  - intros a s b j r l A _ IH B _ IHr cm. rewrite (scan_then a _ _ _ (scan_ws cm a A)), (scan_then s _ _ _ (IH cm)), (scan_then b _ _ _ (scan_ws _ b B)).
    rewrite (scan_then [44] _ (Out true)) by reflexivity. apply IHr.
  - intros a k b c s d key j A K B C _ IH D cm. rewrite (scan_then a _ _ _ (scan_ws cm a A)), (scan_then [34] (Out cm) InStr) by reflexivity.
    rewrite (scan_then k _ _ _ (scan_chars k key K)), (scan_then [34] InStr (Out false)) by reflexivity. rewrite (scan_then b _ _ _ (scan_ws _ b B)), (scan_then [58] _ (Out false)) by reflexivity.
    rewrite (scan_then c _ _ _ (scan_ws _ c C)), (scan_then s _ _ _ (IH _)). exact (scan_ws _ d D).
  - intros a k b c s d key j r l A K B C _ IH D _ IHr cm. rewrite (scan_then a _ _ _ (scan_ws cm a A)), (scan_then [34] (Out cm) InStr) by reflexivity.
    rewrite (scan_then k _ _ _ (scan_chars k key K)), (scan_then [34] InStr (Out false)) by reflexivity. rewrite (scan_then b _ _ _ (scan_ws _ b B)), (scan_then [58] _ (Out false)) by reflexivity.
    rewrite (scan_then c _ _ _ (scan_ws _ c C)), (scan_then s _ _ _ (IH _)), (scan_then d _ _ _ (scan_ws _ d D)), (scan_then [44] _ (Out true)) by reflexivity. apply IHr.
Qed.
Lemma scan_doc s j : jdoc s j -> scan (Out false) s = Some (Out false).
Proof. intros (a & t & b & A & T & B & ->). rewrite (scan_then a _ _ _ (scan_ws _ a A)), (scan_then t _ _ _ (proj1 scan_json t j T _)). apply scan_ws. exact B. Qed.
Lemma scan_basestring s cm : Forall (fun c => 0 <= c) s -> scan (Out cm) (encode_basestring s) = Some (Out false).
Proof. intros H. apply (proj1 scan_json _ (JStr s)). apply jt_str, enc_chars, H. Qed.
Lemma json_bare ls ind h i itos : jws ls -> jws ind -> hwf h ->
  (forall j, Forall (fun c => 0 <= c) (h_string h j) /\ Forall (fun c => 0 <= c) (odflt (f_desc (n_f (nd h j))) [])) ->
  exists s, json_dumps ls ind false h (i :: itos) = Ok s /\ forall j, ~ jdoc s j.
Proof.
  intros Hls Hind Hw Hc. unfold json_dumps.
  assert (G : forall l, exists ss, map_res (json_dump (depth_fuel h) ls ind false h 2) l = Ok ss).
  { induction l as [|x l [ss IH]]; [exists []; reflexivity|]. eexists. cbn [map_res]. fold (map_res (json_dump (depth_fuel h) ls ind false h 2)). rewrite IH.
    cbn [json_dump depth_fuel bind]. reflexivity. }
  destruct (G itos) as [ss E]. cbn [map_res]. fold (map_res (json_dump (depth_fuel h) ls ind false h 2)). rewrite E. cbn [json_dump depth_fuel bind].
  eexists. split; [reflexivity|]. intros j J. apply scan_doc in J. cbn [json_items] in J.
  set (pad := times 3 ind) in *. set (pad2 := times 2 ind) in *.
  assert (Wp : jws pad) by (apply jws_times; exact Hind). assert (Wl : jws pad2) by (apply jws_times; exact Hind). clearbody pad pad2.
  destruct (Hc i) as [C1 C2].
  set (d := match f_desc (n_f (nd h i)) with None => lit "null" | Some d => encode_basestring d end) in *.
  assert (Sd : scan (Out false) d = Some (Out false)) by (subst d; destruct (f_desc (n_f (nd h i))); [apply scan_basestring; exact C2|reflexivity]).
  assert (Ss : scan (Out false) (encode_basestring (ito_str (n_f (nd h i)))) = Some (Out false)).
  { apply scan_basestring. rewrite (ito_str_zsub _ (hwf_span h Hw i)). apply Forall_forall. intros c Ic. rewrite Forall_forall in C1. exact (C1 c (zsub_in _ _ _ _ Ic)). }
  assert (Si : forall z, scan (Out false) (int_str z) = Some (Out false)) by (intros z; apply (proj1 scan_json _ (JInt z)), jt_int, jint_str).
  clearbody d. cbn [app] in J. rewrite <- !app_assoc in J.
  rewrite (scan_then (lit "{") _ (Out false)) in J by reflexivity. rewrite (scan_then ls _ _ _ (scan_ws _ ls Hls)), (scan_then ind _ _ _ (scan_ws _ ind Hind)) in J.
  rewrite (scan_then (lit """itos"": [") _ (Out false)) in J by reflexivity. rewrite (scan_then ls _ _ _ (scan_ws _ ls Hls)), (scan_then pad2 _ _ _ (scan_ws _ pad2 Wl)) in J.
  rewrite (scan_then (lit "{") _ (Out false)) in J by reflexivity. rewrite (scan_then ls _ _ _ (scan_ws _ ls Hls)), (scan_then pad _ _ _ (scan_ws _ pad Wp)) in J.
  rewrite (scan_then (lit """start"": ") _ (Out false)) in J by reflexivity. rewrite (scan_then (int_str _) _ _ _ (Si _)), (scan_then (lit ",") _ (Out true)) in J by reflexivity.
  rewrite (scan_then ls _ _ _ (scan_ws _ ls Hls)), (scan_then pad _ _ _ (scan_ws _ pad Wp)) in J.
  rewrite (scan_then (lit """stop"": ") _ (Out false)) in J by reflexivity. rewrite (scan_then (int_str _) _ _ _ (Si _)), (scan_then (lit ",") _ (Out true)) in J by reflexivity.
  rewrite (scan_then ls _ _ _ (scan_ws _ ls Hls)), (scan_then pad _ _ _ (scan_ws _ pad Wp)) in J.
  rewrite (scan_then (lit """desc"": ") _ (Out false)) in J by reflexivity. rewrite (scan_then d _ _ _ Sd), (scan_then (lit ",") _ (Out true)) in J by reflexivity.
  rewrite (scan_then ls _ _ _ (scan_ws _ ls Hls)), (scan_then pad _ _ _ (scan_ws _ pad Wp)) in J.
  rewrite (scan_then (lit """substr"": ") _ (Out false)) in J by reflexivity. rewrite (scan_then (encode_basestring _) _ _ _ Ss), (scan_then (lit ",") _ (Out true)) in J by reflexivity.
  rewrite (scan_then ls _ _ _ (scan_ws _ ls Hls)), (scan_then pad2 _ _ _ (scan_ws _ pad2 Wl)) in J.
  discriminate J.
Qed.
