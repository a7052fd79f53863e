(** Property theorems C60 and C67: the highlighter and SGR codes. *)
From Verif Require Import HighlightFacts2 Properties_Heap.

(** ** C60 Highlighter *)
(** what is written is the text of i cut into runs; each run belongs to the deepest Ito covering it, no run crosses a boundary
    of any Ito of the tree, and the k-th selected run gets colour k mod n *)
Theorem C60_runs : forall h pred backs i, hwf h -> acyclic h -> (i < length h)%nat -> backs <> [] ->
  exists rs, highlight h pred backs i = (coloured (h_string h i) pred backs (pl_reset back) 0 rs, None) /\
    tiles_from (h_start h i) (map snd rs) (h_stop h i) /\ Forall (deepest h i) rs /\ Forall (uncut h i) rs.
Proof. exact highlight_full. Qed.
Print Assumptions C60_runs.
(** removing the colour codes leaves str(i), if str(i) itself has no ESC character *)
Theorem C60_text : forall h pred pal backs i, hwf h -> acyclic h -> (i < length h)%nat -> pal <> [] -> hl_init pal = Ok backs ->
  ~ In 27 (ito_str (n_f (nd h i))) ->
  exists out, highlight h pred backs i = (out, None) /\ strip_codes false out = ito_str (n_f (nd h i)).
Proof. exact highlight_text. Qed.
Print Assumptions C60_text.
(** consecutive selected runs differ in colour, for a palette of at least two different colours *)
Theorem C60_differ : forall pal backs k, Forall is_color pal -> NoDup pal -> (2 <= length pal)%nat -> hl_init pal = Ok backs ->
  nth (k mod length backs) backs [] <> nth (S k mod length backs) backs [].
Proof. exact palette_differs. Qed.
Print Assumptions C60_differ.
Definition two : list color := [CNamed 1; CRgb 1 2 255].
Example C60_case : exists backs, hl_init two = Ok backs /\
  strip_codes false (fst (highlight demo (fun _ => true) backs 0)) = ito_str (n_f (nd demo 0)) /\
  snd (highlight demo (fun _ => true) backs 0) = None /\ snd (highlight demo (fun _ => true) [] 0) = Some StopIteration.
Proof. eexists. split; [vm_compute; reflexivity|]. vm_compute. auto. Qed.
Example C60_case_two : Forall is_color two /\ NoDup two /\ hl_init two = Ok [lit "" ++ 27 :: lit "[41m"; 27 :: lit "[48;2;1;2;255m"].
Proof. split; [repeat constructor; cbn; lia|]. split; [repeat constructor; cbn; intuition discriminate|reflexivity]. Qed.

(** ** C67 SGR codes *)
Theorem C67_encode : forall m n, m <> [] -> n <> [] -> sgr_encode m = sgr_encode n -> m = n.
Proof. exact encode_inj. Qed.
Theorem C67_color : forall p q c d s, (p = fore \/ p = back) -> (q = fore \/ q = back) -> is_color c -> is_color d ->
  from_color p c = Ok s -> from_color q d = Ok s -> p = q /\ c = d.
Proof. exact from_color_inj. Qed.
Theorem C67_not_reset : forall p q c, (p = fore \/ p = back) -> (q = fore \/ q = back) -> is_color c -> from_color p c <> Ok (pl_reset q).
Proof. exact from_color_not_reset. Qed.
Theorem C67_total : forall p c, is_color c -> exists s, from_color p c = Ok s.
Proof. exact color_total. Qed.
(** every code is removed as a whole by a terminal *)
Theorem C67_strip : forall n r, strip_codes false (sgr_encode n ++ r) = strip_codes false r.
Proof. exact strip_encode. Qed.
Theorem C67_24_bit : forall v, 0 <= v < 2 ^ 24 ->
  exists r g b, rgb_from_24_bit v = CRgb r g b /\ is_color (CRgb r g b) /\ v = r * 65536 + g * 256 + b.
Proof. exact rgb_24_bit. Qed.
(** a terminal shows the colour that was asked for, in the foreground or in the background, and leaves the other *)
Lemma numbers_int n r : 0 <= n <= 255 -> code_numbers 0 (int_str n ++ r) = code_numbers n r.
Proof.
  intros H. assert (Q : forall k, In k (map Z.of_nat (seq 0 256)) -> code_numbers 0 (int_str k ++ r) = code_numbers k r).
  { apply Forall_forall. cbn [map seq]. repeat (apply Forall_cons; [reflexivity|]). apply Forall_nil. }
  apply Q. apply in_map_iff. exists (Z.to_nat n). split; [lia|]. apply in_seq. lia.
Qed.
Lemma code_five a r g b : 0 <= a <= 255 -> 0 <= r <= 255 -> 0 <= g <= 255 -> 0 <= b <= 255 -> code_of (sgr_encode [a; 2; r; g; b]) = [a; 2; r; g; b].
Proof.
  intros Ha Hr Hg Hb. assert (E : sgr_encode [a; 2; r; g; b] = 27 :: 91 :: int_str a ++ 59 :: int_str 2 ++ 59 :: int_str r ++ 59 :: int_str g ++ 59 :: int_str b ++ [109]).
  { unfold sgr_encode. cbn [map py_join app]. rewrite <- !app_assoc. reflexivity. }
  rewrite E. cbn [code_of]. rewrite numbers_int by exact Ha. cbn [code_numbers Z.eqb Pos.eqb]. rewrite numbers_int by lia. cbn [code_numbers Z.eqb Pos.eqb]. rewrite numbers_int by exact Hr. cbn [code_numbers Z.eqb Pos.eqb]. rewrite numbers_int by exact Hg. cbn [code_numbers Z.eqb Pos.eqb]. rewrite numbers_int by exact Hb. reflexivity.
Qed.
Lemma code_three a n : 0 <= a <= 255 -> 0 <= n <= 255 -> code_of (sgr_encode [a; 5; n]) = [a; 5; n].
Proof.
  intros Ha Hn. assert (E : sgr_encode [a; 5; n] = 27 :: 91 :: int_str a ++ 59 :: int_str 5 ++ 59 :: int_str n ++ [109]).
  { unfold sgr_encode. cbn [map py_join app]. rewrite <- !app_assoc. reflexivity. }
  rewrite E. cbn [code_of]. rewrite numbers_int by exact Ha. cbn [code_numbers Z.eqb Pos.eqb]. rewrite numbers_int by lia. cbn [code_numbers Z.eqb Pos.eqb]. rewrite numbers_int by exact Hn. reflexivity.
Qed.
Theorem C67_shown : forall c, is_color c -> forall f b,
  (exists s, from_color fore c = Ok s /\ terminal s (f, b) = (meant c, b)) /\ (exists s, from_color back c = Ok s /\ terminal s (f, b) = (f, meant c)).
Proof.
  intros c Hc f b. destruct c as [v|x y z|n|]; cbn [is_color] in Hc.
  - assert (Q : Forall (fun v => (exists s, from_color fore (CNamed v) = Ok s /\ terminal s (f, b) = (meant (CNamed v), b)) /\ (exists s, from_color back (CNamed v) = Ok s /\ terminal s (f, b) = (f, meant (CNamed v)))) named_values).
    { unfold named_values. repeat (apply Forall_cons; [split; eexists; split; reflexivity|]). apply Forall_nil. }
    rewrite Forall_forall in Q. exact (Q v Hc).
  - destruct Hc as (H1 & H2 & H3). split; eexists; (split; [reflexivity|]); unfold terminal; cbn [pl_by_idx fore back]; rewrite code_five by lia; reflexivity.
  - split; eexists; (split; [reflexivity|]); unfold terminal; cbn [pl_by_idx fore back]; rewrite code_three by lia; reflexivity.
  - destruct Hc.
Qed.
Theorem C67_reset : forall f b, terminal (pl_reset fore) (f, b) = (ShDefault, b) /\ terminal (pl_reset back) (f, b) = (f, ShDefault).
Proof. intros f b. split; reflexivity. Qed.
Print Assumptions C67_shown.
Print Assumptions C67_reset.
Print Assumptions C67_color.
Print Assumptions C67_not_reset.
Print Assumptions C67_24_bit.
Example C67_case : from_color fore (CNamed 60) = Ok (27 :: lit "[90m") /\ from_color back (CEight 200) = Ok (27 :: lit "[48;5;200m") /\
  rgb_from_24_bit 5476912 = CRgb 83 146 48 /\ sgr_encode [] = sgr_encode [0] /\ from_color back CNone = Err TypeError.
Proof. vm_compute. auto. Qed.
