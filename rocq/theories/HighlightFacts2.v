(** Proofs about SGR codes (C67). *)
From Verif Require Export HighlightFacts.
From Coq Require DecimalPos.

Lemma int_str_inj a b : int_str a = int_str b -> a = b.
Proof.
  assert (PE : forall p q, uint_str (Pos.to_uint p) = uint_str (Pos.to_uint q) -> p = q).
  { intros p q E. apply uint_str_inj in E. apply DecimalPos.Unsigned.to_uint_inj. exact E. }
  assert (Z0' : forall p, [48] = uint_str (Pos.to_uint p) -> False).
  { intros p E. change [48] with (uint_str (Decimal.D0 Decimal.Nil)) in E. apply uint_str_inj in E.
    assert (X := DecimalPos.Unsigned.of_to p). rewrite <- E in X. discriminate X. }
  assert (N45 : forall p r, uint_str (Pos.to_uint p) = 45 :: r -> False).
  { intros p r E. assert (I : In 45 (uint_str (Pos.to_uint p))) by (rewrite E; left; reflexivity). apply uint_digits in I. lia. }
  destruct a, b; cbn [int_str]; intros E; try reflexivity; try discriminate.
  - destruct (Z0' _ E).
  - destruct (Z0' _ (eq_sym E)).
  - apply PE in E. congruence.
  - destruct (N45 _ _ E).
  - destruct (N45 _ _ (eq_sym E)).
  - injection E as E. apply PE in E. congruence.
Qed.
Lemma sep_inj c (a b x y : pystr) : ~ In c a -> ~ In c b -> a ++ c :: x = b ++ c :: y -> a = b /\ x = y.
Proof.
  revert b. induction a as [|u a IH]; intros [|v b] A B E; cbn [app] in E.
  - injection E as E. auto.
  - injection E as -> E. destruct B. left. reflexivity.
  - injection E as -> E. destruct A. left. reflexivity.
  - injection E as -> E. destruct (IH b) as [-> ->]; auto; intros I; [apply A|apply B]; right; exact I.
Qed.
Lemma join_inj c (l : list pystr) : forall l', Forall (fun x => ~ In c x) l -> Forall (fun x => ~ In c x) l' -> l <> [] -> l' <> [] ->
  py_join [c] l = py_join [c] l' -> l = l'.
Proof.
  assert (Q : forall x y (l : list pystr), ~ In c x -> x = y ++ [c] ++ py_join [c] l -> False).
  { intros x y m N ->. apply N. apply in_or_app. right. left. reflexivity. }
  induction l as [|x l IH]; intros [|x' l'] F F' NE NE' E; try congruence.
  inversion_clear F as [|? ? Fx Fl]. inversion_clear F' as [|? ? Fx' Fl']. destruct l as [|y l], l' as [|y' l'].
  - cbn in E. congruence.
  - change (x = x' ++ [c] ++ py_join [c] (y' :: l')) in E. destruct (Q _ _ _ Fx E).
  - change (x ++ [c] ++ py_join [c] (y :: l) = x') in E. destruct (Q _ _ _ Fx' (eq_sym E)).
  - change (x ++ c :: py_join [c] (y :: l) = x' ++ c :: py_join [c] (y' :: l')) in E.
    apply sep_inj in E; auto. destruct E as [-> E]. f_equal. apply IH; auto; discriminate.
Qed.
Theorem encode_inj m n : m <> [] -> n <> [] -> sgr_encode m = sgr_encode n -> m = n.
Proof.
  intros Hm Hn E. unfold sgr_encode in E. apply app_inv_head in E. apply app_inv_tail in E.
  destruct m as [|a m]; [congruence|]. destruct n as [|b n]; [congruence|].
  assert (F : forall l, Forall (fun x => ~ In 59 x) (map int_str l)).
  { intros l. apply Forall_forall. intros x I J. apply in_map_iff in I. destruct I as (z & <- & _). apply int_str_chars in J. lia. }
  apply (join_inj 59) in E; try apply F; try discriminate.
  revert E. generalize (a :: m) (b :: n). clear. induction l as [|x l IH]; intros [|y r] E; try discriminate; [reflexivity|].
  cbn [map] in E. injection E as E1 E2. apply int_str_inj in E1. f_equal; auto.
Qed.
Lemma named_range v : In v named_values -> 0 <= v <= 7 \/ 60 <= v <= 67.
Proof. cbn. intuition lia. Qed.
Theorem from_color_inj p q c d s : (p = fore \/ p = back) -> (q = fore \/ q = back) -> is_color c -> is_color d ->
  from_color p c = Ok s -> from_color q d = Ok s -> p = q /\ c = d.
Proof.
  intros Hp Hq Hc Hd Ec Ed.
  assert (K : forall a m b n, Ok (sgr_encode (a :: m)) = Ok s -> Ok (sgr_encode (b :: n)) = Ok s -> a :: m = b :: n).
  { intros a m b n E1 E2. apply encode_inj; congruence. }
  destruct c as [v|r g b|v|], d as [v'|r' g' b'|v'|]; cbn [from_color is_color] in *; try contradiction;
    pose proof (K _ _ _ _ Ec Ed) as E; try discriminate.
  - injection E as E. apply named_range in Hc, Hd. destruct Hp as [->| ->], Hq as [->| ->]; cbn in E; try (split; [reflexivity|f_equal; lia]); exfalso; lia.
  - injection E as E1 E2 E3 E4. destruct Hp as [->| ->], Hq as [->| ->]; cbn in E1; try discriminate; split; congruence.
  - injection E as E1 E2. destruct Hp as [->| ->], Hq as [->| ->]; cbn in E1; try discriminate; split; congruence.
Qed.
Theorem from_color_not_reset p q c : (p = fore \/ p = back) -> (q = fore \/ q = back) -> is_color c -> from_color p c <> Ok (pl_reset q).
Proof.
  intros Hp Hq Hc E. assert (R : exists z, pl_reset q = sgr_encode [z] /\ (z = 39 \/ z = 49)) by (destruct Hq as [->| ->]; eexists; split; [reflexivity|left; reflexivity|reflexivity|right; reflexivity]).
  destruct R as (z & R & Z'). rewrite R in E.
  destruct c as [v|r g b|v|]; cbn [from_color is_color] in *; try discriminate; assert (E' : forall a m, Ok (sgr_encode (a :: m)) = Ok (sgr_encode [z]) -> a :: m = [z]) by (intros a m X; apply encode_inj; congruence); apply E' in E; clear E'; try discriminate.
  injection E as E. apply named_range in Hc. destruct Hp as [->| ->]; cbn in E; lia.
Qed.
Theorem rgb_24_bit v : 0 <= v < 2 ^ 24 ->
  exists r g b, rgb_from_24_bit v = CRgb r g b /\ is_color (CRgb r g b) /\ v = r * 65536 + g * 256 + b.
Proof.
  intros V. unfold rgb_from_24_bit. do 3 eexists. split; [reflexivity|].
  rewrite !Z.shiftr_div_pow2 by lia. change 255 with (Z.ones 8). rewrite !Z.land_ones by lia. cbn [is_color].
  change (2 ^ 16) with 65536. change (2 ^ 8) with 256. change (2 ^ 24) with 16777216 in V.
  assert (E : v / 65536 = v / 256 / 256) by (rewrite Z.div_div by lia; reflexivity). rewrite E.
  pose proof (Z.div_mod v 256 ltac:(lia)). pose proof (Z.mod_pos_bound v 256 ltac:(lia)).
  pose proof (Z.div_mod (v / 256) 256 ltac:(lia)). pose proof (Z.mod_pos_bound (v / 256) 256 ltac:(lia)).
  assert (0 <= v / 256 / 256 <= 255) by (rewrite <- E; split; [apply Z.div_pos; lia|]; apply Z.lt_succ_r, Z.div_lt_upper_bound; lia).
  repeat split; lia.
Qed.
Lemma color_total p c : is_color c -> exists s, from_color p c = Ok s.
Proof. destruct c; cbn; intros H; try contradiction; eexists; reflexivity. Qed.
Lemma palette_total pal : Forall is_color pal -> exists backs, hl_init pal = Ok backs.
Proof.
  induction 1 as [|c pal Hc _ [backs E]]; cbn [hl_init]; [eexists; reflexivity|]. destruct (color_total back c Hc) as [s ->]. cbn [bind]. rewrite E. eexists; reflexivity.
Qed.
Lemma palette_nodup pal : forall backs, Forall is_color pal -> NoDup pal -> hl_init pal = Ok backs -> NoDup backs /\ length backs = length pal /\
  forall s, In s backs -> exists c, In c pal /\ from_color back c = Ok s.
Proof.
  induction pal as [|c pal IH]; intros backs F N; cbn [hl_init].
  - intros [= <-]. split; [constructor|]. split; [reflexivity|intros s []].
  - inversion_clear F as [|? ? Fc Fp]. inversion_clear N as [|? ? Nc Np].
    destruct (from_color back c) as [s|] eqn:E; cbn [bind]; [|discriminate]. destruct (hl_init pal) as [l|]; cbn [bind]; [|discriminate].
    intros [= <-]. destruct (IH l Fp Np eq_refl) as (NL & LL & X). split; [|split; [cbn; lia|]].
    + constructor; [|exact NL]. intros I. destruct (X s I) as (d & Id & Ed). rewrite Forall_forall in Fp.
      destruct (from_color_inj back back c d s (or_intror eq_refl) (or_intror eq_refl) Fc (Fp d Id) E Ed) as [_ ->]. contradiction.
    + intros s' [<-|I]; [exists c; split; [left; reflexivity|exact E]|]. destruct (X s' I) as (d & Id & Ed). exists d. split; [right; exact Id|exact Ed].
Qed.
Theorem palette_differs pal backs k : Forall is_color pal -> NoDup pal -> (2 <= length pal)%nat -> hl_init pal = Ok backs ->
  nth (k mod length backs) backs [] <> nth (S k mod length backs) backs [].
Proof. intros F N L E. destruct (palette_nodup pal backs F N E) as (NB & LB & _). apply cycle_differs; [exact NB|lia]. Qed.
