(** Properties of ascii_box.py: directions, the box-drawing characters, boxes. *)
From Verif Require Import Properties_Heap SpecBox BoxFacts BoxFacts2 BoxFacts3 BoxFacts4 BoxFacts5.
From Verif Require Import Box SpecBox.
Opaque instances.

Definition ch (c : Z) : bdc := match from_char [c] with Ok b => b | Err _ => Bdc 0 [] [] end.

(** ** C74 directions *)
Theorem C74_from_degrees : forall z, dvalue (from_degrees z) <= z mod 360 < dvalue (from_degrees z) + 45.
Proof. exact from_degrees_range. Qed.
Theorem C74_rotate : forall d a, a mod 45 = 0 -> dvalue (rotate d a) = (dvalue d + a) mod 360.
Proof. exact rotate_val. Qed.
Theorem C74_compose : forall d a b, a mod 45 = 0 -> rotate (rotate d a) b = rotate d (a + b).
Proof. exact rotate_rotate. Qed.
Theorem C74_full_turn : forall d k, rotate d (360 * k) = d.
Proof. exact rotate_360. Qed.
Theorem C74_reflect : forall d s, dvalue (reflect d s) = (2 * dvalue s - dvalue d) mod 360.
Proof. exact reflect_val. Qed.
Theorem C74_two_mirrors : forall d s t, reflect (reflect d s) t = rotate d (2 * (dvalue t - dvalue s)).
Proof. exact reflect_reflect. Qed.
Print Assumptions C74_compose.
Example C74_case : rotate DNE 315 = DN /\ rotate (rotate DNE 315) (-50) = DW /\ reflect DE DNE = DN /\ from_degrees (-1) = DNW.
Proof. by_vm. Qed.
(** only multiples of 45 may be added up *)
Example C74_fractions : rotate (rotate DN 44) 1 = DN /\ rotate DN 45 = DNE.
Proof. by_vm. Qed.

(** ** C75 lookup *)
Theorem C75_char : forall s b, from_char s = Ok b <-> In b instances /\ s = [b_char b].
Proof. exact from_char_iff. Qed.
Theorem C75_no_char : forall s, (forall b, In b instances -> s <> [b_char b]) -> from_char s = Err ValueError.
Proof. exact from_char_err. Qed.
Theorem C75_name : forall s b, from_name s = Ok b <-> In b instances /\ s = b_name b.
Proof. exact from_name_iff. Qed.
Theorem C75_no_name : forall s, (forall b, In b instances -> s <> b_name b) -> from_name s = Err ValueError.
Proof. exact from_name_err. Qed.
Theorem C75_exact : forall ts b, NoDup (map fst ts) -> from_direction_styles ts false = Ok b <-> drawn ts b.
Proof. exact exact_iff. Qed.
Theorem C75_no_exact : forall ts, NoDup (map fst ts) -> (forall b, ~ drawn ts b) -> from_direction_styles ts false = Err ValueError.
Proof. exact exact_err. Qed.
Theorem C75_unique : forall b c, In b instances -> In c instances -> Permutation (b_ds b) (b_ds c) -> b = c.
Proof. exact table_unique. Qed.
Theorem C75_fuzzy : forall ts, (1 <= length ts <= 4)%nat -> exists b, from_direction_styles ts true = Ok b /\ closest ts b.
Proof. exact fuzzy_total. Qed.
Theorem C75_fuzzy_exact : forall ts b, NoDup (map fst ts) -> drawn ts b -> from_direction_styles ts true = Ok b.
Proof. exact fuzzy_drawn. Qed.
Theorem C75_fuzzy_none : forall ts, (length ts = 0 \/ 4 < length ts)%nat -> from_direction_styles ts true = Err UnboundLocalError.
Proof. exact fuzzy_none. Qed.
Print Assumptions C75_fuzzy.
Example C75_case : from_direction_styles [(DS, heavy); (DE, light)] false = Ok (ch 9486) /\
  from_direction_styles [(DS, heavy); (DE, double)] false = Err ValueError /\ from_direction_styles [(DS, heavy); (DE, double)] true = Ok (ch 9486).
Proof. by_vm. Qed.

(** ** C76 turning and mirroring characters *)
Theorem C76_rotate : forall a b, a mod 90 = 0 -> In b instances -> exists c, bdc_rotate b a = Ok c /\ drawn (map (ds_rotate a) (b_ds b)) c.
Proof. intros a b H I. exact (proj2 (turn_ok a b H I)). Qed.
Theorem C76_compose : forall a a' b c, a mod 90 = 0 -> a' mod 90 = 0 -> In b instances ->
  bdc_rotate b a = Ok c -> bdc_rotate c a' = bdc_rotate b (a + a').
Proof. exact turn_turn. Qed.
Theorem C76_no_turn : forall b, In b instances -> bdc_rotate b 0 = Ok b.
Proof. exact turn_none. Qed.
Theorem C76_reflect : forall s b, In b instances -> exists c, bdc_reflect b s = Ok c /\ drawn (map (ds_reflect s) (b_ds b)) c.
Proof. intros s b I. exact (proj2 (mirror_ok s b I)). Qed.
Theorem C76_mirror_twice : forall s b c, In b instances -> bdc_reflect b s = Ok c -> bdc_reflect c s = Ok b.
Proof. exact mirror_mirror. Qed.
Print Assumptions C76_rotate.
Example C76_case : bdc_rotate (ch 9485) 90 = Ok (ch 9490) /\ bdc_reflect (ch 9485) DNE = Ok (ch 9498) /\ In (ch 9485) instances.
Proof. split; [by_vm|]. split; [by_vm|]. apply (proj1 (from_char_iff [9485] (ch 9485))). by_vm. Qed.
(** an eighth of a turn has no character to go to: the closest one is taken *)
Example C76_eighth : bdc_rotate (ch 9484) 45 = Ok (ch 9585) /\ bdc_rotate (ch 9585) (-45) = Ok (ch 9474).
Proof. by_vm. Qed.

(** ** C77 text in a box *)
Theorem C77_rows_partial : forall printable b srcs, Forall fwf srcs -> src_lines srcs <> [] ->
  (forall c t, In t (src_lines srcs) -> In c t -> printable c = true) ->
  let m := widest (src_lines srcs) in
  exists rows, from_srcs printable b srcs = Ok ([bx_nw b ++ rep_str (bx_n b) (m + 2) ++ bx_ne b] ++ rows ++ [bx_sw b ++ rep_str (bx_s b) (m + 2) ++ bx_se b]) /\
    Forall2 (fun r t => row r (bx_w b) (bx_e b) t m) rows (src_lines srcs).
Proof. exact box_rows. Qed.
Theorem C77_width : forall r w e t m, length w = 1%nat -> length e = 1%nat -> row r w e t m -> length r = (m + 4)%nat.
Proof. exact row_len. Qed.
Theorem C77_no_lines : forall printable b srcs, Forall fwf srcs -> src_lines srcs = [] -> from_srcs printable b srcs = Err ValueError.
Proof. exact box_no_lines. Qed.
Print Assumptions C77_rows_partial.
Definition plus_box : boxer := Boxer [43] [45] [43] [124] [124] [43] [45] [43].
Definition shows_ascii (c : Z) : bool := (32 <=? c) && (c <=? 126).
Example C77_case : from_srcs shows_ascii plus_box [FI (lit "one" ++ [10] ++ lit "sixty") 0 9 None None; FI (lit "ab") 0 2 None None] =
  Ok [lit "+-------+"; lit "|  one  |"; lit "| sixty |"; lit "|  ab   |"; lit "+-------+"].
Proof. by_vm. Qed.
(** a character that is not printed takes no column when the width is found, but takes one when the line is padded *)
Theorem C77_rows_refuted : exists i rows, fwf i /\ from_srcs shows_ascii plus_box [i] = Ok rows /\
  exists r r', In r rows /\ In r' rows /\ length (filter shows_ascii r) <> length (filter shows_ascii r').
Proof.
  exists (FI ([97; 7] ++ [10] ++ lit "bcde") 0 7 None None). eexists. split; [vm_compute; repeat split; discriminate|]. split; [vm_compute; reflexivity|].
  exists (lit "+------+"), ([124; 32; 32; 97; 7; 32; 32; 124]). split; [now left|]. split; [right; now left|]. vm_compute. discriminate.
Qed.

(** ** C78 a box from its sides *)
Theorem C78_sides_partial : forall n w e s, gives n DW DE -> gives w DN DS -> gives e DN DS -> gives s DW DE ->
  ~ (n = PNone /\ w = PNone /\ e = PNone /\ s = PNone) ->
  exists x, from_sides n w e s = Ok (drawn_frame x) /\ in_table x /\ corners_span x /\
    kept n (f_n x) /\ kept w (f_w x) /\ kept e (f_e x) /\ kept s (f_s x).
Proof. exact sides_spec. Qed.
Theorem C78_joined_partial : forall x, corners_span x ->
  level (f_n x) DW DE -> level (f_s x) DW DE -> level (f_w x) DN DS -> level (f_e x) DN DS ->
  joinable DW (f_n x) DE DS (f_e x) DN -> joinable DN (f_e x) DS DW (f_s x) DE ->
  joinable DE (f_s x) DW DN (f_w x) DS -> joinable DS (f_w x) DN DE (f_n x) DW -> joined x.
Proof. exact sides_joined. Qed.
Print Assumptions C78_sides_partial.
Lemma in_ch c : from_char [c] = Ok (ch c) -> In (ch c) instances.
Proof. intros H. apply (proj1 (proj1 (from_char_iff _ _) H)). Qed.
Definition meetb (a : bdc) (d : dir) (b : bdc) (d' : dir) : bool :=
  match arm a d, arm b d' with Some s, Some s' => differ s s' =? 0 | _, _ => false end.
Lemma meetb_iff a d b d' : meetb a d b d' = true <-> meet a d b d'.
Proof.
  unfold meetb, meet. destruct (arm a d) as [s|], (arm b d') as [s'|].
  2,3,4: (split; [discriminate|intros (y & A & B); discriminate]).
  rewrite Z.eqb_eq, differ_zero. split; [intros ->; exists s'; auto|intros (y & [= ->] & [= ->]); reflexivity].
Qed.
Definition joinedb (x : frame) : bool :=
  meetb (f_nw x) DE (f_n x) DW && (meetb (f_n x) DE (f_ne x) DW && (meetb (f_ne x) DS (f_e x) DN && (meetb (f_e x) DS (f_se x) DN &&
  (meetb (f_se x) DW (f_s x) DE && (meetb (f_s x) DW (f_sw x) DE && (meetb (f_sw x) DN (f_w x) DS && meetb (f_w x) DN (f_nw x) DS)))))).
Lemma joinedb_iff x : joinedb x = true <-> joined x.
Proof. unfold joinedb, joined. rewrite !andb_true_iff, !meetb_iff. reflexivity. Qed.
Lemma frame_in a b c d e f g h : forallb (fun z => match from_char [z] with Ok _ => true | _ => false end) [a; b; c; d; e; f; g; h] = true ->
  in_table (Frame (ch a) (ch b) (ch c) (ch d) (ch e) (ch f) (ch g) (ch h)).
Proof.
  intros H. assert (forall z, In z [a; b; c; d; e; f; g; h] -> In (ch z) instances) as G.
  { intros z I. apply in_ch. pose proof (proj1 (forallb_forall _ _) H z I) as E. cbn beta in E. unfold ch. destruct (from_char [z]); [reflexivity|discriminate]. }
  unfold in_table. cbn [f_nw f_n f_ne f_w f_e f_sw f_s f_se]. repeat split; apply G; cbn; tauto.
Qed.
Example C78_case : from_sides (PBdc (ch 9473)) (PBdc (ch 9474)) (PBdc (ch 9474)) (PBdc (ch 9473)) =
  Ok (drawn_frame (Frame (ch 9485) (ch 9473) (ch 9489) (ch 9474) (ch 9474) (ch 9493) (ch 9473) (ch 9497))) /\
  joined (Frame (ch 9485) (ch 9473) (ch 9489) (ch 9474) (ch 9474) (ch 9493) (ch 9473) (ch 9497)).
Proof. split; [vm_compute; reflexivity|]. apply joinedb_iff. vm_compute. reflexivity. Qed.
(** light above, heavy below: a box that joins up exists, but the one built does not *)
Theorem C78_joined_refuted : exists n s x y, In n instances /\ In s instances /\
  in_table x /\ joined x /\ f_n x = n /\ f_s x = s /\
  from_sides (PBdc n) PNone PNone (PBdc s) = Ok (drawn_frame y) /\ in_table y /\ ~ joined y.
Proof.
  exists (ch 9472), (ch 9473), (Frame (ch 9484) (ch 9472) (ch 9488) (ch 9597) (ch 9597) (ch 9495) (ch 9473) (ch 9499)),
    (Frame (ch 9486) (ch 9472) (ch 9490) (ch 9597) (ch 9597) (ch 9493) (ch 9473) (ch 9497)).
  split; [apply in_ch; vm_compute; reflexivity|]. split; [apply in_ch; vm_compute; reflexivity|].
  split; [apply frame_in; vm_compute; reflexivity|]. split; [apply joinedb_iff; vm_compute; reflexivity|].
  split; [reflexivity|]. split; [reflexivity|]. split; [vm_compute; reflexivity|]. split; [apply frame_in; vm_compute; reflexivity|].
  intros J. apply joinedb_iff in J. vm_compute in J. discriminate.
Qed.
(** sides given as str never give a box, although the characters are checked *)
Theorem C78_str_refuted : exists s, from_char s = Ok (ch 9472) /\ from_sides (PStr s) PNone PNone PNone = Err AttributeError.
Proof. exists [9472]. split; vm_compute; reflexivity. Qed.
Theorem C78_no_side_refuted : from_sides PNone PNone PNone PNone = Err StopIteration.
Proof. reflexivity. Qed.
Theorem C78_armless_refuted : from_sides (PBdc (ch 9588)) PNone PNone PNone = Err AttributeError.
Proof. vm_compute. reflexivity. Qed.

(** ** C79 a box from its corners *)
Theorem C79_corners : forall l bs, (1 <= length l <= 4)%nat -> Forall2 denotes l bs ->
  (exists x p, from_corners l = Ok (drawn_frame x) /\ in_table x /\ seated x bs p /\ sides_span x) \/
  (from_corners l = Err ValueError /\ forall p, ~ seating bs p).
Proof. exact corners_spec. Qed.
Theorem C79_joined : forall x, sides_span x ->
  joinable DW (f_nw x) DE DE (f_ne x) DW -> joinable DN (f_ne x) DS DS (f_se x) DN ->
  joinable DE (f_se x) DW DW (f_sw x) DE -> joinable DS (f_sw x) DN DN (f_nw x) DS -> joined x.
Proof. exact corners_joined. Qed.
Theorem C79_bad_count : forall l, (length l = 0 \/ 4 < length l)%nat -> from_corners l = Err ValueError.
Proof.
  intros l H. unfold from_corners. replace ((length l =? 0)%nat || (4 <? length l)%nat) with true; [reflexivity|].
  symmetry. apply orb_true_iff. rewrite Nat.eqb_eq, Nat.ltb_lt. exact H.
Qed.
Theorem C79_bad_char : forall l s, (1 <= length l <= 4)%nat -> In (PStr s) l -> (forall b, In b instances -> s <> [b_char b]) -> from_corners l = Err ValueError.
Proof. exact corners_bad_char. Qed.
Print Assumptions C79_corners.
Example C79_case : from_corners [PStr [9499]; PBdc (ch 9484)] =
  Ok (drawn_frame (Frame (ch 9484) (ch 9472) (ch 9490) (ch 9474) (ch 9475) (ch 9493) (ch 9473) (ch 9499))) /\
  joined (Frame (ch 9484) (ch 9472) (ch 9490) (ch 9474) (ch 9475) (ch 9493) (ch 9473) (ch 9499)) /\
  from_corners [PStr [9484]; PStr [9484]] = Err ValueError.
Proof. split; [vm_compute; reflexivity|]. split; [apply joinedb_iff; vm_compute; reflexivity|]. vm_compute. reflexivity. Qed.
