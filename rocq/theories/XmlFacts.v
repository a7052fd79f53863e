(** Facts about Xml.v: offsets, UTF-8. *)
From Verif Require Import SpecXml PyFacts ItoStrFacts FormatFacts.

(** ** positions *)
Definition line_start (s : pystr) (n : nat) : Z := Z.of_nat n - col_at s n.
Lemma col_range s n : 0 <= col_at s n <= Z.of_nat n.
Proof. induction n as [|m IH]; cbn [col_at]; [lia|]. destruct (line_end s m); lia. Qed.
Lemma line_pos s n : 1 <= line_at s n.
Proof. induction n as [|m IH]; cbn [line_at]; [lia|]. destruct (line_end s m); lia. Qed.
Lemma line_mono s m n : (m <= n)%nat -> line_at s m <= line_at s n /\ line_start s m <= line_start s n /\ (line_at s m = line_at s n -> line_start s m = line_start s n).
Proof.
  induction 1 as [|k Hk (I1 & I2 & I3)]; [split; [lia|split; [lia|reflexivity]]|].
  pose proof (col_range s k). unfold line_start in *. cbn [line_at col_at]. destruct (line_end s k).
  - split; [lia|]. split; [lia|]. intros E. exfalso. lia.
  - split; [lia|]. split; [lia|]. intros E. rewrite Z.add_0_r in E. specialize (I3 E). lia.
Qed.
Lemma line_start_range s n : 0 <= line_start s n <= Z.of_nat n.
Proof. unfold line_start. pose proof (col_range s n). lia. Qed.

Section Off.
  Variables (c : codec) (ok : Z -> Prop) (s : pystr).
  Hypothesis C : codec_for c ok.
  Hypothesis S : Forall ok s.
  Let enc := cd_enc c.
  Lemma enc_app a b : enc (a ++ b) = enc a ++ enc b. Proof. apply (proj1 C). Qed.
  (** the bytes between two character positions *)
  Lemma bytes_between a b : 0 <= a <= b -> b <= zlen s ->
    py_slice (enc s) (Some (zlen (enc (zsub s 0 a)))) (Some (zlen (enc (zsub s 0 b)))) = enc (zsub s a b).
  Proof.
    intros Ha Hb. assert (E : enc s = enc (zsub s 0 a) ++ enc (zsub s a b) ++ enc (zsub s b (zlen s))).
    { rewrite <- !enc_app, !zsub_app_split by lia. rewrite zsub_full. reflexivity. }
    assert (E2 : enc (zsub s 0 b) = enc (zsub s 0 a) ++ enc (zsub s a b)).
    { rewrite <- enc_app, zsub_app_split by lia. reflexivity. }
    rewrite E2, zlen_app. pose proof (zlen_nonneg (enc (zsub s 0 a))). pose proof (zlen_nonneg (enc (zsub s a b))). pose proof (zlen_nonneg (enc (zsub s b (zlen s)))).
    rewrite py_slice_in; [|lia|rewrite E, !zlen_app; lia]. rewrite E.
    replace (zlen (enc (zsub s 0 a))) with (zlen (enc (zsub s 0 a)) + 0) at 1 by lia. rewrite zsub_app_2 by lia.
    rewrite zsub_app_l by lia. apply zsub_full.
  Qed.
  Lemma ok_sub a b : Forall ok (zsub s a b).
  Proof. apply Forall_forall. intros x Hx. unfold zsub in Hx. rewrite Forall_forall in S. apply S.
    clear -Hx. assert (I : In x (skipn (Z.to_nat a) s)). { rewrite <- (firstn_skipn (Z.to_nat (b - a)) (skipn (Z.to_nat a) s)). apply in_or_app. left. exact Hx. }
    rewrite <- (firstn_skipn (Z.to_nat a) s). apply in_or_app. right. exact I.
  Qed.
  Lemma dec_between a b : cd_dec c (enc (zsub s a b)) = Ok (zsub s a b).
  Proof. apply (proj2 C). apply ok_sub. Qed.
  (** the indexer knows the beginning of the line of position n *)
  Definition at_line (st : indexer) (n : nat) : Prop :=
    st = IX (line_at s n) (line_start s n) (zlen (enc (zsub s 0 (line_start s n)))).
  Lemma enc_nil : enc [] = [].
  Proof. pose proof (enc_app [] []) as E. cbn [app] in E. apply (f_equal (@length Z)) in E. rewrite app_length in E. destruct (enc []); [reflexivity|cbn in E; lia]. Qed.
  Lemma offset_step st m p : 0 <= p <= zlen s -> (at_line st m /\ (m <= Z.to_nat p)%nat) \/ st = ix_reset ->
    exists st', char_offset_ex c s st (event_at enc s p) = Ok (p, st') /\ at_line st' (Z.to_nat p).
  Proof.
    intros Hp Hst. unfold char_offset_ex, event_at. cbn [ev_line ev_col ev_byte]. set (n := Z.to_nat p) in *.
    pose proof (line_start_range s n) as Ln. pose proof (col_range s n) as Cn. unfold line_start in Ln. pose proof (line_pos s n) as Pn.
    assert (Hb : exists a, 0 <= a <= line_start s n /\ ix_char st = a /\ ix_byte st = zlen (enc (zsub s 0 a))).
    { destruct Hst as [(-> & Hm)| ->].
      - exists (line_start s m). cbn. pose proof (line_start_range s m). pose proof (line_mono s m n Hm). split; [lia|auto].
      - exists 0. cbn. rewrite zsub_nil by lia. rewrite enc_nil. split; [unfold line_start; lia|auto]. }
    destruct Hb as (a & Ha & Ec & Eb). rewrite Ec, Eb.
    destruct (ix_line st <? line_at s n) eqn:El.
    - rewrite bytes_between by (unfold line_start in Ha; lia). cbn [bind]. fold enc. rewrite dec_between. cbn [bind].
      rewrite zsub_len by (unfold line_start in Ha; lia).
      replace (a + (p - a) - col_at s n) with (line_start s n) by (unfold line_start, n; lia).
      rewrite py_slice_in by (unfold line_start in *; lia). cbn [bind ix_char].
      eexists. split; [f_equal; f_equal; unfold line_start, n; lia|].
      unfold at_line. f_equal. fold enc. rewrite <- zlen_app, <- enc_app, zsub_app_split by lia. reflexivity.
    - cbn [bind]. apply Z.ltb_ge in El. destruct Hst as [(A & Hm)|A]; unfold at_line in A; subst st; [|cbn in El; lia].
      cbn [ix_line ix_char] in *. pose proof (line_mono s m n Hm) as (M1 & M2 & M3). assert (E : line_at s m = line_at s n) by lia.
      specialize (M3 E). exists (IX (line_at s m) (line_start s m) (zlen (enc (zsub s 0 (line_start s m))))).
      split; [f_equal; f_equal; cbn [ix_char]; rewrite M3; unfold line_start, n; lia|]. unfold at_line. rewrite E, M3. reflexivity.
  Qed.
  Lemma offsets_spec : forall ps st m, Forall (fun p => 0 <= p <= zlen s) ps -> StronglySorted Z.le ps ->
    (at_line st m /\ Forall (fun p => (m <= Z.to_nat p)%nat) ps) \/ st = ix_reset ->
    offsets c s st (map (event_at enc s) ps) = Ok ps.
  Proof.
    induction ps as [|p ps IH]; intros st m HF HS Hst; [reflexivity|]. inversion HF; subst. inversion HS; subst.
    cbn [map offsets]. destruct (offset_step st m p H1) as (st' & E & A).
    { destruct Hst as [(A & F)| ->]; [left; inversion F; subst; auto|right; reflexivity]. }
    rewrite E. cbn [bind fst snd]. rewrite (IH st' (Z.to_nat p)); [reflexivity|assumption|assumption|].
    left. split; [exact A|]. eapply Forall_impl; [|exact H4]. intros q Hq. cbn beta in Hq. lia.
  Qed.
  Lemma offset_from p : 0 <= p <= zlen s -> char_offset_from c s (zlen (enc (zsub s 0 p))) = Ok p.
  Proof.
    intros Hp. unfold char_offset_from. pose proof (bytes_between 0 p) as B. rewrite (zsub_nil s 0 0) in B by lia. rewrite enc_nil in B. change (zlen (@nil Z)) with 0 in B. fold enc. rewrite B by lia.
    rewrite dec_between. cbn [bind]. rewrite zsub_len by lia. f_equal. lia.
  Qed.
End Off.

(** ** UTF-8 *)
Lemma utf8_char_len x : (1 <= length (utf8_char x) <= 4)%nat.
Proof. unfold utf8_char. destruct (x <? 128); [cbn; lia|]. destruct (x <? 2048); [cbn; lia|]. destruct (x <? 65536); cbn; lia. Qed.
Lemma utf8_dec_char n x b : 0 <= x < 1114112 -> utf8_dec (S n) (utf8_char x ++ b) = do r <- utf8_dec n b; Ok (x :: r).
Proof.
  intros Hx. unfold utf8_char. destruct (x <? 128) eqn:E1; [apply Z.ltb_lt in E1|apply Z.ltb_ge in E1].
  { cbn [app utf8_dec]. rewrite (proj2 (Z.ltb_lt _ _) E1). reflexivity. }
  destruct (x <? 2048) eqn:E2; [apply Z.ltb_lt in E2|apply Z.ltb_ge in E2].
  { assert (D : 2 <= x / 64 < 32) by (split; [apply Z.div_le_lower_bound|apply Z.div_lt_upper_bound]; lia).
    pose proof (Z.div_mod x 64 ltac:(lia)) as M. cbn [app utf8_dec].
    rewrite (proj2 (Z.ltb_ge _ _)) by lia. rewrite (proj2 (Z.ltb_lt _ _)) by lia.
    replace ((192 + x / 64 - 192) * 64 + (128 + x mod 64 - 128)) with x by lia. reflexivity. }
  destruct (x <? 65536) eqn:E3; [apply Z.ltb_lt in E3|apply Z.ltb_ge in E3].
  { assert (D : 0 <= x / 4096 < 16) by (split; [apply Z.div_le_lower_bound|apply Z.div_lt_upper_bound]; lia).
    pose proof (Z.div_mod x 64 ltac:(lia)) as M. pose proof (Z.div_mod (x / 64) 64 ltac:(lia)) as M2.
    rewrite Z.div_div in M2 by lia. change (64 * 64) with 4096 in M2. cbn [app utf8_dec].
    rewrite (proj2 (Z.ltb_ge _ _)) by lia. rewrite (proj2 (Z.ltb_ge _ _)) by lia. rewrite (proj2 (Z.ltb_lt _ _)) by lia.
    replace ((224 + x / 4096 - 224) * 4096 + (128 + (x / 64) mod 64 - 128) * 64 + (128 + x mod 64 - 128)) with x by lia. reflexivity. }
  assert (D : 0 <= x / 262144 < 8) by (split; [apply Z.div_le_lower_bound|apply Z.div_lt_upper_bound]; lia).
  pose proof (Z.div_mod x 64 ltac:(lia)) as M. pose proof (Z.div_mod (x / 64) 64 ltac:(lia)) as M2. pose proof (Z.div_mod (x / 4096) 64 ltac:(lia)) as M3.
  rewrite Z.div_div in M2, M3 by lia. change (64 * 64) with 4096 in M2. change (4096 * 64) with 262144 in M3. cbn [app utf8_dec].
  rewrite (proj2 (Z.ltb_ge _ _)) by lia. rewrite (proj2 (Z.ltb_ge _ _)) by lia. rewrite (proj2 (Z.ltb_ge _ _)) by lia.
  replace ((240 + x / 262144 - 240) * 262144 + (128 + (x / 4096) mod 64 - 128) * 4096 + (128 + (x / 64) mod 64 - 128) * 64 + (128 + x mod 64 - 128)) with x by lia.
  reflexivity.
Qed.
Theorem utf8_ok : codec_for utf8 unicode.
Proof.
  split; [intros a b; cbn [utf8 cd_enc]; apply flat_map_app|]. intros a Ha. cbn [utf8 cd_enc cd_dec].
  assert (G : forall n, (length (flat_map utf8_char a) < n)%nat -> utf8_dec n (flat_map utf8_char a) = Ok a); [|apply G; lia].
  induction Ha as [|x a Hx Ha IH]; intros n Hn; [destruct n; [cbn in Hn; lia|reflexivity]|].
  cbn [flat_map] in *. rewrite app_length in Hn. pose proof (utf8_char_len x). destruct n as [|n]; [lia|].
  rewrite utf8_dec_char by exact Hx. rewrite IH by lia. reflexivity.
Qed.
Theorem offsets_utf8 s ps : Forall unicode s -> Forall (fun p => 0 <= p <= zlen s) ps -> StronglySorted Z.le ps ->
  offsets utf8 s ix_reset (map (event_at (cd_enc utf8) s) ps) = Ok ps.
Proof. intros Hs HF HS. apply (offsets_spec utf8 unicode s utf8_ok Hs ps ix_reset 0%nat HF HS). right. reflexivity. Qed.
Theorem offsets_codec c ok s ps : codec_for c ok -> Forall ok s -> Forall (fun p => 0 <= p <= zlen s) ps -> StronglySorted Z.le ps ->
  offsets c s ix_reset (map (event_at (cd_enc c) s) ps) = Ok ps.
Proof. intros C Hs HF HS. apply (offsets_spec c ok s C Hs ps ix_reset 0%nat HF HS). right. reflexivity. Qed.
