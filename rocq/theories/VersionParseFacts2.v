(** Facts for VersionParse.v: an identifier is read in one way only. *)
From Verif Require Import SpecParse SpecNlp PyFacts NlpFacts NlpFacts2 NlpFacts7 NlpFacts9 TableFacts TableFacts4 TableFacts5 VersionFacts DenFacts VersionParseFacts.

Definition quiet (R : pystr) : Prop := match R with [] => True | c :: r => ~ is_digit c /\ c <> 33 /\ (c = 46 -> stops is_digit r) end.
Lemma quiet_stops R : quiet R -> stops is_digit R. Proof. destruct R; [auto|]. intros H. exact (proj1 H). Qed.
Lemma number_split n n' R R' : is_number n -> is_number n' -> quiet R -> quiet R' -> n ++ R = n' ++ R' -> n = n' /\ R = R'.
Proof. intros [_ F] [_ F'] Q Q' E. exact (run_split is_digit n n' R R' F F' (quiet_stops _ Q) (quiet_stops _ Q') E). Qed.
Section Parse.
  Variable C : vclasses.
  Hypothesis Ok_ : vc_ok C.
  Notation same := (vc_same C).
  Notation spaces := (Forall (fun c => vc_space C c = true)).
  Lemma space_not c : vc_space C c = true -> ~ is_digit c /\ ~ is_letter c /\ ~ In c (lit ".!+-_") /\ forall p, is_letter p -> same p c = false.
  Proof.
    intros H. destruct Ok_ as (_ & O1 & O2 & _). split; [intros D; rewrite (O1 c) in H by auto; discriminate H|]. split; [intros D; rewrite (O1 c) in H by auto; discriminate H|]. split; [intros D; rewrite (O1 c) in H by auto; discriminate H|].
    intros p Hp. destruct (same p c) eqn:E; [|reflexivity]. rewrite (O2 p c Hp E) in H. discriminate H.
  Qed.
  (** the local part, or nothing *)
  Definition plus_part (u : pystr) : Prop := u = [] \/ exists l, u = lit "+" ++ l /\ locals C l.
  Lemma quiet_space w : spaces w -> quiet w.
  Proof. destruct w as [|c w]; [exact (fun _ => I)|]. intros F. inversion F as [|? ? H _]; subst. destruct (space_not c H) as (D & _ & N & _). split; [exact D|]. split; [intros ->; apply N; right; left; reflexivity|]. intros ->. exfalso. apply N. left. reflexivity. Qed.
  Lemma quiet_plus u w : plus_part u -> spaces w -> quiet (u ++ w).
  Proof. intros [->|(l & -> & _)] F; [exact (quiet_space w F)|]. split; [unfold is_digit; cbn; lia|]. split; [discriminate|]. discriminate. Qed.
  Definition lettered (ws : list pystr) : Prop := Forall (fun w => exists p r, w = p :: r /\ is_letter p) ws.
  Definition part_of (ws : list pystr) (u : pystr) : Prop := exists s1 t s2 d, u = s1 ++ t ++ s2 ++ d /\ sepo s1 /\ one_of C ws t /\ sepo s2 /\ Forall is_digit d.
  Lemma word_head ws t : lettered ws -> one_of C ws t -> exists p c r, t = c :: r /\ is_letter p /\ same p c = true /\ exists w, In (p :: w) ws.
  Proof. intros F (w & Hw & H). unfold lettered in F. rewrite Forall_forall in F. destruct (F w Hw) as (p & r & -> & Lp). inversion H as [|? c ? r' E H']; subst. exists p, c, r'. split; [reflexivity|]. split; [exact Lp|]. split; [exact E|]. exists r. exact Hw. Qed.
  Lemma quiet_part ws u T : lettered ws -> part_of ws u -> quiet (u ++ T).
  Proof.
    intros F (s1 & t & s2 & d & -> & S1 & L & _). destruct (word_head ws t F L) as (p & c & r & -> & Lp & E & _). destruct (letter_not C Ok_ p c Lp E) as [D N]. destruct S1 as [->|(c0 & -> & H0)]; cbn [app].
    - split; [exact D|]. split; [intros ->; apply N; right; right; right; left; reflexivity|]. intros ->. exfalso. apply N. right; right; left. reflexivity.
    - assert (B : c0 = 45 \/ c0 = 95 \/ c0 = 46) by (cbn in H0; lia). split; [unfold is_digit; lia|]. split; [lia|]. intros _. exact D.
  Qed.
  Lemma one_start ws u : part_of ws u -> lettered ws -> u <> [].
  Proof. intros (s1 & t & s2 & d & -> & S1 & L & _) F E. destruct (word_head ws t F L) as (p & c & r & -> & _). destruct s1; discriminate E. Qed.
  (** a number behind letters *)
  Lemma behind n T s2 d T' : is_number n -> quiet T -> quiet T' -> sepo s2 -> Forall is_digit d -> n ++ T = s2 ++ d ++ T' -> s2 = [] /\ d = n /\ T = T'.
  Proof.
    intros [N F] Q Q' [->|(c & -> & H)] Fd E.
    - cbn [app] in E. destruct (run_split is_digit n d T T' F Fd (quiet_stops _ Q) (quiet_stops _ Q') E) as [-> ->]. auto.
    - exfalso. destruct n as [|a n]; [congruence|]. cbn [app] in E. injection E as <- _. inversion F as [|? ? D _]; subst. unfold is_digit in D. cbn in H. lia.
  Qed.
  Ltac peel := repeat match goal with
    | H : Forall2 _ [] _ |- _ => inversion H; clear H; subst
    | H : Forall2 _ (_ :: _) _ |- _ => inversion H; clear H; subst
    end; cbn [app] in *.
  Ltac is_let := unfold is_letter; lia.
  Ltac bad := exfalso; match goal with
    | H : same ?p ?c = true |- _ => let Q := fresh in pose proof (same_ascii C Ok_ p c ltac:(is_let) ltac:(lia) H) as Q; vm_compute in Q; discriminate Q
    | H : same ?p ?c = true, D : is_digit ?c |- _ => exact (proj1 (letter_not C Ok_ p c ltac:(is_let) H) D)
    | H : same ?p ?c = true, D : vc_space C ?c = true |- _ => let Q := fresh in pose proof (proj2 (proj2 (proj2 (space_not c D))) p ltac:(is_let)) as Q; rewrite H in Q; discriminate Q
    end.
  Ltac sep_bad := exfalso; match goal with H : In _ (lit "-_.") |- _ => cbn in H; lia end.
  (** ** the local part *)
  Lemma locals_nospace l : locals C l -> Forall (fun c => vc_space C c = false) l.
  Proof.
    destruct Ok_ as (_ & O1 & O2 & _). assert (A : forall x, alnums C x -> Forall (fun c => vc_space C c = false) x).
    { intros x [_ F]. eapply Forall_impl; [|exact F]. cbn beta. intros c H. unfold p_alnum in H. apply orb_true_iff in H. destruct H as [H|H]; [apply O1; left; apply v_digit_is; exact H|]. apply existsb_exists in H. destruct H as (p & Hp & E). apply (O2 p c); [|exact E]. unfold is_letter. cbn in Hp. lia. }
    intros (x & ps & -> & Hx & F). apply Forall_app. split; [exact (A x Hx)|]. apply Forall_concat, Forall_map. eapply Forall_impl; [|exact F]. cbn beta. intros [c y] [Hc Hy]. cbn [fst snd] in *. constructor; [apply O1; right; right; cbn in Hc |- *; lia|exact (A y Hy)].
  Qed.
  Lemma local_unique (o : option pystr) w u w' : if_any (locals C) o -> spaces w -> plus_part u -> spaces w' -> text_if (fun l => lit "+" ++ l) o ++ w = u ++ w' -> u = text_if (fun l => lit "+" ++ l) o /\ w' = w.
  Proof.
    intros Ho Fw Hu Fw' E. assert (P : forall r, spaces r -> stops (fun c => vc_space C c = false) r) by (intros [|c r] F; [exact I|]; inversion F as [|? ? H _]; subst; cbn; congruence).
    assert (Nx : forall l, locals C l -> Forall (fun c => vc_space C c = false) (lit "+" ++ l)) by (intros l Hl; constructor; [apply Ok_; right; right; right; right; left; reflexivity|exact (locals_nospace l Hl)]).
    assert (F1 : Forall (fun c => vc_space C c = false) (text_if (fun l => lit "+" ++ l) o)) by (destruct o as [l|]; [exact (Nx l Ho)|constructor]).
    assert (F2 : Forall (fun c => vc_space C c = false) u) by (destruct Hu as [->|(l & -> & Hl)]; [constructor|exact (Nx l Hl)]).
    destruct (run_split _ _ _ _ _ F1 F2 (P w Fw) (P w' Fw') E). auto.
  Qed.
  (** ** .dev *)
  Lemma devs : lettered dev_words. Proof. change dev_words with [[100; 101; 118]]. repeat (apply Forall_cons; [eexists; eexists; split; [reflexivity|is_let]|]); apply Forall_nil. Qed.
  Lemma posts : lettered post_words. Proof. change post_words with [[112; 111; 115; 116]; [114; 101; 118]; [114]]. repeat (apply Forall_cons; [eexists; eexists; split; [reflexivity|is_let]|]); apply Forall_nil. Qed.
  Lemma pres : lettered pre_words. Proof. change pre_words with [[97]; [98]; [99]; [114; 99]; [97; 108; 112; 104; 97]; [98; 101; 116; 97]; [112; 114; 101]; [112; 114; 101; 118; 105; 101; 119]]. repeat (apply Forall_cons; [eexists; eexists; split; [reflexivity|is_let]|]); apply Forall_nil. Qed.
  (** the rest behind a development release begins with + or white space *)
  Definition tail3 (T : pystr) : Prop := exists u w, T = u ++ w /\ plus_part u /\ spaces w.
  Lemma tail3_head T : tail3 T -> forall c r, T = c :: r -> c = 43 \/ vc_space C c = true.
  Proof. intros (u & w & -> & [->|(l & -> & _)] & F) c r E; cbn [app] in E; [subst w; inversion F; auto|]. injection E as <- _. left. reflexivity. Qed.
  Lemma tail3_quiet T : tail3 T -> quiet T. Proof. intros (u & w & -> & P & F). exact (quiet_plus u w P F). Qed.
  Lemma dev_unique (o : option pystr) T s1 t s2 d T' : if_any is_number o -> tail3 T -> tail3 T' -> sepo s1 -> one_of C dev_words t -> sepo s2 -> Forall is_digit d -> text_if (fun n => lit ".dev" ++ n) o ++ T = s1 ++ t ++ s2 ++ d ++ T' ->
    exists n, o = Some n /\ s1 = lit "." /\ t = lit "dev" /\ s2 = [] /\ d = n /\ T' = T.
  Proof.
    intros Ho H3 H3' S1 (w & [<-|[]] & Hw) S2 Fd E. change (lit "dev") with [100; 101; 118] in Hw. peel. destruct o as [n|]; cbn [text_if if_any] in *.
    - change (lit ".dev") with [46; 100; 101; 118] in E. destruct S1 as [->|(c0 & -> & H0)]; cbn [app] in E; injection E as; subst.
      + bad.
      + match goal with E : n ++ T = _ |- _ => destruct (behind n T s2 d T' Ho (tail3_quiet _ H3) (tail3_quiet _ H3') S2 Fd E) as (-> & -> & ->) end. exists n. auto 10.
    - exfalso. destruct S1 as [->|(c0 & -> & H0)]; cbn [app] in E; destruct (tail3_head _ H3 _ _ E) as [Q|Q].
      + subst. bad.
      + bad.
      + subst. sep_bad.
      + destruct (space_not _ Q) as (_ & _ & N & _). apply N. cbn in H0 |- *. lia.
  Qed.
  Lemma dev_none n T T' : tail3 T' -> lit ".dev" ++ n ++ T = T' -> False.
  Proof. intros H3 E. symmetry in E. change (lit ".dev") with [46; 100; 101; 118] in E. cbn [app] in E. destruct (tail3_head _ H3 _ _ E) as [Q|Q]; [discriminate Q|]. destruct (space_not _ Q) as (_ & _ & N & _). apply N. left. reflexivity. Qed.
  (** ** .post *)
  Definition tail2 (T : pystr) : Prop := exists u T', T = u ++ T' /\ (u = [] \/ part_of dev_words u) /\ tail3 T'.
  Lemma tail2_quiet T : tail2 T -> quiet T. Proof. intros (u & T' & -> & [->|P] & H3); [exact (tail3_quiet _ H3)|]. exact (quiet_part dev_words u T' devs P). Qed.
  (** it begins with +, white space, a d, or a separator and a d *)
  Lemma tail2_head T : tail2 T -> forall c r, T = c :: r -> c = 43 \/ vc_space C c = true \/ same 100 c = true \/ (In c (lit "-_.") /\ exists y r', r = y :: r' /\ same 100 y = true).
  Proof.
    intros (u & T' & -> & [->|(s1 & t & s2 & d & -> & S1 & (w & [<-|[]] & Hw) & _)] & H3) c r E; [cbn [app] in E; destruct (tail3_head _ H3 _ _ E); auto|].
    change (lit "dev") with [100; 101; 118] in Hw. peel. destruct S1 as [->|(c0 & -> & H0)]; cbn [app] in E; injection E as; subst; [auto|]. right. right. right. split; [exact H0|]. eexists. eexists. split; [reflexivity|assumption].
  Qed.
  Lemma post_unique (o : option pystr) T s1 t s2 d T' : if_any is_number o -> (o = None -> exists o' T3, T = text_if (fun n => lit ".dev" ++ n) o' ++ T3 /\ tail3 T3) -> tail2 T -> tail2 T' -> sepo s1 -> one_of C post_words t -> sepo s2 -> Forall is_digit d ->
    text_if (fun n => lit ".post" ++ n) o ++ T = s1 ++ t ++ s2 ++ d ++ T' -> exists n, o = Some n /\ s1 = lit "." /\ t = lit "post" /\ s2 = [] /\ d = n /\ T' = T.
  Proof.
    intros Ho HT H2 H2' S1 (w & Hw0 & Hw) S2 Fd E. change post_words with [[112; 111; 115; 116]; [114; 101; 118]; [114]] in Hw0. destruct o as [n|]; cbn [text_if if_any] in *.
    - clear HT. change (lit ".post") with [46; 112; 111; 115; 116] in E. destruct Hw0 as [<-|[<-|[<-|[]]]]; peel; (destruct S1 as [->|(c0 & -> & H0)]; cbn [app] in E; injection E as; subst); try bad.
      match goal with E : n ++ T = _ |- _ => destruct (behind n T s2 d T' Ho (tail2_quiet _ H2) (tail2_quiet _ H2') S2 Fd E) as (-> & -> & ->) end. exists n. auto 10.
    - exfalso. destruct (HT eq_refl) as (o' & T3 & -> & H3). destruct o' as [m|]; cbn [text_if] in E.
      + change (lit ".dev") with [46; 100; 101; 118] in E. destruct Hw0 as [<-|[<-|[<-|[]]]]; peel; (destruct S1 as [->|(c0 & -> & H0)]; cbn [app] in E; injection E as; subst); bad.
      + cbn [app] in E. pose proof (tail3_head _ H3) as G. rewrite E in G. clear HT H2 H3 E. destruct Hw0 as [<-|[<-|[<-|[]]]]; peel; (destruct S1 as [->|(c0 & -> & H0)]; cbn [app] in G; (destruct (G _ _ eq_refl) as [Q|Q]; [subst; first [bad|sep_bad]|first [bad|destruct (space_not _ Q) as (_ & _ & N & _); apply N; cbn in H0 |- *; lia]])).
  Qed.
  (** ** the pre-release *)
  Definition tail1 (T : pystr) : Prop := exists u T', T = u ++ T' /\ (u = [] \/ (exists d, u = lit "-" ++ d /\ is_number d) \/ part_of post_words u) /\ tail2 T'.
  Lemma tail1_quiet T : tail1 T -> quiet T.
  Proof. intros (u & T' & -> & [->|[(d & -> & _)|P]] & H2); [exact (tail2_quiet _ H2)| |exact (quiet_part post_words u T' posts P)]. split; [unfold is_digit; cbn; lia|]. split; discriminate. Qed.
  Definition ok_second (c : Z) : Prop := same 101 c = true \/ In c (lit "-_.") \/ is_digit c \/ c = 43 \/ vc_space C c = true \/ same 100 c = true.
  Lemma tail1_head T : tail1 T -> forall c r, T = c :: r -> c = 43 \/ vc_space C c = true \/ same 100 c = true \/ In c (lit "-_.") \/ same 112 c = true \/ (same 114 c = true /\ forall y r', r = y :: r' -> ok_second y).
  Proof.
    intros (u & T' & -> & [->|[(d & -> & _)|(s1 & t & s2 & d & -> & S1 & (w & Hw0 & Hw) & S2 & Fd)]] & H2) c r E.
    - cbn [app] in E. destruct (tail2_head _ H2 _ _ E) as [Q|[Q|[Q|[Q _]]]]; auto.
    - cbn [app] in E. injection E as <- _. right. right. right. left. left. reflexivity.
    - change post_words with [[112; 111; 115; 116]; [114; 101; 118]; [114]] in Hw0. destruct Hw0 as [<-|[<-|[<-|[]]]]; peel; (destruct S1 as [->|(c0 & -> & H0)]; cbn [app] in E; injection E as; subst); try (right; right; right; left; assumption); auto 10.
      + right. right. right. right. right. split; [assumption|]. intros y r' [= <- _]. left. assumption.
      + right. right. right. right. right. split; [assumption|]. intros y r' E1. unfold ok_second. destruct S2 as [->|(c1 & -> & Hc1)]; cbn [app] in E1; [|injection E1 as <- _; auto]. destruct d as [|d0 d]; cbn [app] in E1.
        * destruct (tail2_head _ H2 _ _ E1) as [Q|[Q|[Q|[Q _]]]]; auto 10.
        * injection E1 as <- _. inversion Fd; subst. auto.
  Qed.
  (** how the canonical rest may begin *)
  Definition begins (T : pystr) : Prop := forall c r, T = c :: r -> c = 43 \/ vc_space C c = true \/ exists r', T = lit ".post" ++ r' \/ T = lit ".dev" ++ r'.
  Lemma pre_unique (o : option (pystr * pystr)) T s1 t s2 d T' : if_any (fun p => In (fst p) [lit "a"; lit "b"; lit "rc"] /\ is_number (snd p)) o -> begins T -> tail1 T -> tail1 T' -> sepo s1 -> one_of C pre_words t -> sepo s2 -> Forall is_digit d ->
    text_if (fun p => fst p ++ snd p) o ++ T = s1 ++ t ++ s2 ++ d ++ T' -> exists n, o = Some (t, n) /\ s1 = [] /\ s2 = [] /\ d = n /\ T' = T.
  Proof.
    intros Ho HB H1 H1' S1 (w & Hw0 & Hw) S2 Fd E. change pre_words with [[97]; [98]; [99]; [114; 99]; [97; 108; 112; 104; 97]; [98; 101; 116; 97]; [112; 114; 101]; [112; 114; 101; 118; 105; 101; 119]] in Hw0. destruct o as [[k n]|]; cbn [text_if if_any fst snd] in *.
    - destruct Ho as [Hk Hn]. rewrite <- app_assoc in E. destruct Hn as [Nn Fn]. destruct n as [|n0 n]; [congruence|]. inversion Fn as [|? ? D0 _]; subst.
      assert (K : In k [[97]; [98]; [114; 99]]) by exact Hk. clear Hk.
      assert (Bh : forall X, (n0 :: n) ++ T = X -> X = s2 ++ d ++ T' -> s2 = [] /\ d = n0 :: n /\ T = T') by (intros X <- E'; exact (behind (n0 :: n) T s2 d T' (conj Nn Fn) (tail1_quiet _ H1) (tail1_quiet _ H1') S2 Fd E')).
      destruct K as [<-|[<-|[<-|[]]]]; destruct Hw0 as [<-|[<-|[<-|[<-|[<-|[<-|[<-|[<-|[]]]]]]]]]; peel; (destruct S1 as [->|(c0 & -> & H0)]; cbn [app] in E; injection E as; subst); try bad; try sep_bad.
      all: destruct (Bh _ eq_refl ltac:(cbn [app]; assumption)) as (-> & -> & ->); exists (n0 :: n); auto 10.
    - exfalso. cbn [app] in E. destruct T as [|c T]; [destruct Hw0 as [<-|[<-|[<-|[<-|[<-|[<-|[<-|[<-|[]]]]]]]]]; peel; destruct s1; discriminate E|].
      destruct (HB c T eq_refl) as [Q|[Q|(r' & [Q|Q])]].
      + destruct Hw0 as [<-|[<-|[<-|[<-|[<-|[<-|[<-|[<-|[]]]]]]]]]; peel; (destruct S1 as [->|(c0 & -> & H0)]; cbn [app] in E; injection E as; subst; try bad; try sep_bad).
      + destruct Hw0 as [<-|[<-|[<-|[<-|[<-|[<-|[<-|[<-|[]]]]]]]]]; peel; (destruct S1 as [->|(c0 & -> & H0)]; cbn [app] in E; injection E as; subst; try bad; destruct (space_not _ Q) as (_ & _ & N & _); apply N; cbn in H0 |- *; lia).
      + rewrite Q in E. change (lit ".post") with [46; 112; 111; 115; 116] in E. destruct Hw0 as [<-|[<-|[<-|[<-|[<-|[<-|[<-|[<-|[]]]]]]]]]; peel; (destruct S1 as [->|(c0 & -> & H0)]; cbn [app] in E; injection E as; subst; bad).
      + rewrite Q in E. change (lit ".dev") with [46; 100; 101; 118] in E. destruct Hw0 as [<-|[<-|[<-|[<-|[<-|[<-|[<-|[<-|[]]]]]]]]]; peel; (destruct S1 as [->|(c0 & -> & H0)]; cbn [app] in E; injection E as; subst; bad).
  Qed.
  (** nor is a pre-release the beginning of what follows *)
  Lemma pre_none k n T T' : In k [lit "a"; lit "b"; lit "rc"] -> is_number n -> tail1 T' -> k ++ n ++ T = T' -> False.
  Proof.
    intros Hk [Nn Fn] H1 E. symmetry in E. destruct n as [|n0 n]; [congruence|]. pose proof (Forall_inv Fn) as D0. assert (K : In k [[97]; [98]; [114; 99]]) by exact Hk. clear Hk.
    destruct K as [<-|[<-|[<-|[]]]]; cbn [app] in E; destruct (tail1_head _ H1 _ _ E) as [Q|[Q|[Q|[Q|[Q|[Q Q2]]]]]]; try discriminate Q; try bad; try sep_bad; try (destruct (space_not _ Q) as (_ & N & _); apply N; is_let).
    destruct (Q2 _ _ eq_refl) as [X|[X|[X|[X|[X|X]]]]]; try bad; try sep_bad; try discriminate X; [unfold is_digit in X; lia|destruct (space_not _ X) as (_ & N & _); apply N; is_let].
  Qed.
  Lemma post_none n T T' : tail2 T' -> lit ".post" ++ n ++ T = T' -> False.
  Proof.
    intros H2 E. symmetry in E. change (lit ".post") with [46; 112; 111; 115; 116] in E. cbn [app] in E. destruct (tail2_head _ H2 _ _ E) as [Q|[Q|[Q|[_ (y & r' & E2 & Q)]]]]; [discriminate Q|destruct (space_not _ Q) as (_ & _ & N & _); apply N; left; reflexivity|bad|]. injection E2 as <- _. bad.
  Qed.
End Parse.
