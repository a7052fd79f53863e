(** Facts for OntQuery.v. *)
From Verif Require Import SpecOntQuery.
Section Ind.
  Variables (Pe : expr -> Prop) (Po : operand -> Prop) (Pp : primary -> Prop).
  Hypotheses (He : forall u rest, Po u -> Forall (fun x => Po (snd x)) rest -> Pe (Expr u rest)) (Ho : forall n p q, Pp p -> Po (Operand n p q)) (Hi : forall i, Pp (PEntity i)) (Hs : forall e, Pe e -> Pp (PSub e)).
  Fixpoint ind_e (e : expr) : Pe e := match e with Expr u rest => He u rest (ind_o u) ((fix go (l : list (bin * nat * operand)) : Forall (fun x => Po (snd x)) l := match l with [] => Forall_nil _ | x :: r => Forall_cons x (ind_o (snd x)) (go r) end) rest) end
  with ind_o (u : operand) : Po u := match u with Operand n p q => Ho n p q (ind_p p) end
  with ind_p (p : primary) : Pp p := match p with PEntity i => Hi i | PSub e => Hs e (ind_e e) end.
End Ind.
Notation ystate := (list atom * list (oper * nat))%type.
Definition ops_out (l : list (oper * nat)) : list atom := map (fun o => AOper (fst o) (snd o)) l.
Definition yards (ts : list token) (st : ystate) : ystate := fold_left (fun st t => yard_token t st) ts st.
Lemma yards_app a b st : yards (a ++ b) st = yards b (yards a st). Proof. apply fold_left_app. Qed.
Lemma yard_query ts st : yard_token (TQuery ts) st = (fst st ++ shunting_yard ts, snd st).
Proof.
  assert (G : forall ts s, (fix go (ts : list token) (st : ystate) := match ts with [] => st | x :: r => go r (yard_token x st) end) ts s = yards ts s) by (clear; induction ts as [|x ts IH]; intros s; [reflexivity|exact (IH (yard_token x s))]).
  cbn [yard_token]. rewrite G. reflexivity.
Qed.
Definition reads (l : list atom) (st : option (list meaning)) : option (list meaning) := fold_left read1 l st.
Lemma reads_app a b st : reads (a ++ b) st = reads b (reads a st). Proof. apply fold_left_app. Qed.
(** an operand in place: its text, whatever stands before *)
Definition prim_ok (p : primary) : Prop := exists ya m, (forall st, yards (toks_p p) st = (fst st ++ ya, snd st)) /\ (forall B, reads ya (Some B) = Some (m :: B)) /\ leaves m = ents_p p /\ (even_p p -> m = mean_p p).
Definition expr_ok (e : expr) : Prop := exists m, (forall B, reads (shunting_yard (toks_e e)) (Some B) = Some (m :: B)) /\ leaves m = ents_e e /\ (even_e e -> m = mean_e e).
(** operators waiting: they make of the value on top, over rest, the value f x over B *)
Definition ctx (ops : list (oper * nat)) (rest B : list meaning) (f : meaning -> meaning) : Prop := forall x, reads (ops_out ops) (Some (x :: rest)) = Some (f x :: B).
Definition adds (f : meaning -> meaning) (P : list nat) : Prop := forall x, leaves (f x) = P ++ leaves x.
Lemma ctx_nil B : ctx [] B B (fun x => x). Proof. intros x. reflexivity. Qed.
Lemma ctx_bin b i ops x rest B f : ctx ops rest B f -> ctx ((oper_of b, i) :: ops) (x :: rest) B (fun y => f (Binary (oper_of b) i x y)).
Proof. intros H y. cbn [ops_out map fst snd]. unfold reads. cbn [fold_left]. destruct b; exact (H (Binary _ i x y)). Qed.
Lemma ctx_un k i ops rest B f : k = ONot \/ k = OQuantifier -> ctx ops rest B f -> ctx ((k, i) :: ops) rest B (fun y => f (Unary k i y)).
Proof. intros K H y. cbn [ops_out map fst snd]. unfold reads. cbn [fold_left]. destruct K as [->| ->]; destruct rest; [exact (H (Unary ONot i y))|exact (H (Unary ONot i y))|exact (H (Unary OQuantifier i y))|exact (H (Unary OQuantifier i y))]. Qed.
(** what lies under an operand: nothing or a binary operator *)
Definition open_top (ops : list (oper * nat)) : Prop := match ops with [] => True | o :: _ => precedence (fst o) < 2 end.
Definition un_ops (n q : option nat) : list (oper * nat) := match q with Some i => [(OQuantifier, i)] | None => match n with Some i => [(ONot, i)] | None => [] end end.
Lemma push_un k i st : k = ONot \/ k = OQuantifier -> open_top (snd st) -> push_oper k i st = (fst st, (k, i) :: snd st).
Proof. intros K O. unfold push_oper. destruct (snd st) as [|t r]; [reflexivity|]. cbn in O. destruct (Z.leb_spec (precedence k) (precedence (fst t))) as [H|H]; [destruct K; subst; cbn in H; lia|reflexivity]. Qed.
(** an operand, behind a state whose output leaves rest and whose operators await a value over rest *)
Lemma operand_step n p q st rest B f P : prim_ok p -> open_top (snd st) -> reads (fst st) (Some B) = Some rest -> ctx (snd st) rest B f -> adds f P ->
  exists st' x rest' f', yards (toks_o (Operand n p q)) st = st' /\ reads (fst st') (Some B) = Some (x :: rest') /\ ctx (snd st') rest' B f' /\ leaves (f' x) = P ++ ents_p p /\ (exists P', adds f' P') /\
    (even_o (Operand n p q) -> f' x = f (mean_o (Operand n p q)) /\ snd st' = un_ops n q ++ snd st).
Proof.
  intros (ya & m & Ey & Er & Lm & Ev) O R C A. cbn [toks_o]. rewrite !yards_app.
  assert (S1 : exists st1 f1, yards (opt_tok ONot n) st = st1 /\ fst st1 = fst st /\ snd st1 = un_ops n None ++ snd st /\ ctx (snd st1) rest B f1 /\ adds f1 P /\ forall x, f1 x = f (opt_un ONot n x)).
  { destruct n as [i|]; cbn [opt_tok]; [|exists st, f; repeat split; auto]. exists (push_oper ONot i st), (fun y => f (Unary ONot i y)). rewrite push_un by auto. cbn [fst snd un_ops]. split; [unfold yards; cbn [fold_left yard_token]; apply push_un; auto|]. split; [reflexivity|]. split; [reflexivity|]. split; [apply ctx_un; auto|]. split; [intros x; rewrite A; reflexivity|reflexivity]. }
  destruct S1 as (st1 & f1 & E1 & Eo & Es & C1 & A1 & Ef). rewrite E1, Ey. clear E1.
  assert (R2 : reads (fst st1 ++ ya) (Some B) = Some (m :: rest)) by (rewrite reads_app, Eo, R; apply Er).
  destruct q as [j|]; cbn [opt_tok].
  - unfold yards. cbn [fold_left yard_token]. destruct n as [i|]; cbn [un_ops app] in Es.
    + eexists (fst st1 ++ ya ++ ops_out (snd st1), [(OQuantifier, j)]), (f1 m), B, (fun y => Unary OQuantifier j y). split; [unfold push_oper; cbn [fst snd]; rewrite Es; cbn; rewrite <- app_assoc; reflexivity|]. cbn [fst snd]. split; [rewrite app_assoc, reads_app, R2; apply C1|]. split; [apply (ctx_un OQuantifier j [] B B (fun x => x)); [auto|apply ctx_nil]|]. split; [cbn [leaves]; rewrite A1, Lm; reflexivity|]. split; [exists []; intros x; reflexivity|]. intros [[H|H] _]; discriminate H.
    + cbn [un_ops app] in Es. eexists (fst st1 ++ ya, (OQuantifier, j) :: snd st1), m, rest, (fun y => f1 (Unary OQuantifier j y)). split; [apply (push_un OQuantifier j (fst st1 ++ ya, snd st1)); [auto|cbn [snd]; rewrite Es; exact O]|]. cbn [fst snd]. split; [exact R2|]. split; [apply ctx_un; auto|]. split; [rewrite A1; cbn [leaves]; rewrite Lm; reflexivity|]. split; [exists P; intros x; rewrite A1; reflexivity|]. intros [_ Hp]. rewrite Ef, (Ev Hp), Es. cbn. auto.
  - exists (fst st1 ++ ya, snd st1), m, rest, f1. split; [reflexivity|]. cbn [fst snd]. split; [exact R2|]. split; [exact C1|]. split; [rewrite A1, Lm; reflexivity|]. split; [exists P; exact A1|]. intros [_ Hp]. rewrite Ef, (Ev Hp), Es. auto.
Qed.
(** the state behind an operand *)
Definition ready (st : ystate) (B : list meaning) (m : meaning) : Prop := exists x rest f P, reads (fst st) (Some B) = Some (x :: rest) /\ ctx (snd st) rest B f /\ adds f P /\ f x = m.
Definition opd_ok (u : operand) : Prop := match u with Operand _ p _ => prim_ok p end.
Lemma push_bin b i st B m : ready st B m -> exists rest f P, let st' := push_oper (oper_of b) i st in open_top (snd st') /\ reads (fst st') (Some B) = Some rest /\ ctx (snd st') rest B f /\ adds f P /\ P = leaves m /\
  ((forall t r, snd st = t :: r -> precedence (oper_of b) <= precedence (fst t)) -> snd st' = [(oper_of b, i)] /\ forall x, f x = Binary (oper_of b) i m x).
Proof.
  intros (x & rest & f & P & R & C & A & E). assert (O : precedence (oper_of b) < 2) by (destruct b; cbn; lia).
  assert (Fl : forall out', reads out' (Some B) = Some (m :: B) -> exists rest f P, let st' := (out', [(oper_of b, i)]) in open_top (snd st') /\ reads (fst st') (Some B) = Some rest /\ ctx (snd st') rest B f /\ adds f P /\ P = leaves m /\ (snd st' = [(oper_of b, i)] /\ forall x, f x = Binary (oper_of b) i m x)).
  { intros out' H. exists (m :: B), (fun y => Binary (oper_of b) i m y), (leaves m). cbn [fst snd]. split; [exact O|]. split; [exact H|]. split; [apply (ctx_bin b i [] m B B (fun x => x)), ctx_nil|]. split; [intros y; reflexivity|]. auto. }
  unfold push_oper. destruct (snd st) as [|t r] eqn:Es.
  - destruct (Fl (fst st)) as (a & b' & c & H1 & H2 & H3 & H4 & H5 & H6); [rewrite R; specialize (C x); cbn in C; congruence|]. exists a, b', c. cbv zeta in *. auto 10.
  - destruct (Z.leb_spec (precedence (oper_of b)) (precedence (fst t))) as [Q|Q].
    + destruct (Fl (fst st ++ ops_out (snd st))) as (a & b' & c & H1 & H2 & H3 & H4 & H5 & H6); [rewrite reads_app, R, Es, C; congruence|]. exists a, b', c. cbv zeta in *. rewrite Es in *. auto 10.
    + exists (x :: rest), (fun y => f (Binary (oper_of b) i x y)), (P ++ leaves x). cbn [fst snd]. split; [exact O|]. split; [exact R|]. split; [apply ctx_bin; exact C|]. split; [intros y; rewrite A; cbn [leaves]; rewrite app_assoc; reflexivity|]. split; [rewrite <- E, A; reflexivity|]. intros H. specialize (H t r eq_refl). lia.
Qed.
Lemma reads_none l : reads l None = None. Proof. induction l as [|a l IH]; [reflexivity|exact IH]. Qed.
Lemma reads_frame B : forall l A A', reads l (Some A) = Some A' -> reads l (Some (A ++ B)) = Some (A' ++ B).
Proof.
  assert (S1 : forall a A A', read1 (Some A) a = Some A' -> read1 (Some (A ++ B)) a = Some (A' ++ B)).
  { intros [i|k i] A A' H; [destruct A as [|x [|y A]]; cbn in H; injection H as <-; try reflexivity; destruct B as [|z [|w B]]; reflexivity|]. destruct k, A as [|x [|y A]]; cbn in H; try discriminate H; injection H as <-; try reflexivity; destruct B as [|z [|w B]]; reflexivity. }
  induction l as [|a l IH]; intros A A' H; [injection H as <-; reflexivity|]. change (reads l (read1 (Some A) a) = Some A') in H. change (reads l (read1 (Some (A ++ B)) a) = Some (A' ++ B)). destruct (read1 (Some A) a) as [A1|] eqn:E; [|rewrite reads_none in H; discriminate H]. rewrite (S1 a A A1 E). apply IH. exact H.
Qed.
Definition toks_r (l : list (bin * nat * operand)) : list token := flat_map (fun x => TOper (oper_of (fst (fst x))) (snd (fst x)) :: toks_o (snd x)) l.
Definition joined (m : meaning) (l : list (bin * nat * operand)) : meaning := fold_left (fun m x => Binary (oper_of (fst (fst x))) (snd (fst x)) m (mean_o (snd x))) l m.
Definition tops (pr : Z) (ops : list (oper * nat)) : Prop := forall t r, ops = t :: r -> pr <= precedence (fst t).
Lemma un_tops n q ops pr : pr <= 2 -> tops pr ops -> tops pr (un_ops n q ++ ops).
Proof. intros L T t r E. destruct q as [j|]; [injection E as <- _; cbn; lia|]. destruct n as [j|]; [injection E as <- _; cbn; lia|]. exact (T t r E). Qed.
Lemma rest_step pr : pr <= 2 -> forall l st B m, ready st B m -> Forall (fun x => opd_ok (snd x)) l -> exists m', ready (yards (toks_r l) st) B m' /\ leaves m' = leaves m ++ flat_map (fun x => ents_o (snd x)) l /\
  (Forall (fun x => precedence (oper_of (fst (fst x))) = pr) l -> Forall (fun x => even_o (snd x)) l -> tops pr (snd st) -> m' = joined m l /\ tops pr (snd (yards (toks_r l) st))).
Proof.
  intros Lp. induction l as [|[[b i] u] l IH]; intros st B m R F; [exists m; cbn; rewrite app_nil_r; auto|]. inversion F as [|? ? Hu F']; subst. cbn [snd] in Hu. destruct u as [n p q]. cbn [opd_ok] in Hu.
  destruct (push_bin b i st B m R) as (rest & f & P & O & R1 & C1 & A1 & EP & Ex). cbv zeta in *. destruct (operand_step n p q _ rest B f P Hu O R1 C1 A1) as (st' & x & rest' & f' & Es & R2 & C2 & L2 & (P' & A2) & Ev2).
  assert (Rd : ready st' B (f' x)) by (exists x, rest', f', P'; auto). destruct (IH st' B (f' x) Rd F') as (m' & R3 & L3 & Ev3).
  assert (Et : yards (toks_r ((b, i, Operand n p q) :: l)) st = yards (toks_r l) st').
  { unfold toks_r at 1. cbn [flat_map fst snd]. rewrite yards_app. f_equal. change (yards (toks_o (Operand n p q)) (push_oper (oper_of b) i st) = st'). exact Es. }
  exists m'. rewrite Et. split; [exact R3|]. split; [cbn [flat_map snd ents_o]; rewrite L3, L2, EP, <- app_assoc; reflexivity|].
  intros Fp Fe T. pose proof (Forall_inv Fp) as Pb. pose proof (Forall_inv_tail Fp) as Fp'. pose proof (Forall_inv Fe) as Eu. pose proof (Forall_inv_tail Fe) as Fe'. cbn [fst snd] in Pb, Eu. destruct (Ev2 Eu) as [E3 E4]. destruct (Ex (fun t r Q => eq_ind_r (fun z => z <= precedence (fst t)) (T t r Q) Pb)) as [E5 E6].
  destruct (Ev3 Fp' Fe') as [E7 T7]; [rewrite E4, E5; apply un_tops; [exact Lp|]; intros t r [= <- _]; cbn [fst]; lia|]. split; [rewrite E7; unfold joined; cbn [fold_left fst snd]; rewrite E3, E6; reflexivity|exact T7].
Qed.
Lemma climb_and : forall l m, Forall (fun x => fst (fst x) = BAnd) l -> fold_left climb (map (fun x => (fst x, mean_o (snd x))) l) (None, m) = (None, joined m l).
Proof. induction l as [|[[b i] u] l IH]; intros m F; [reflexivity|]. inversion F as [|? ? E F']; subst. cbn [fst snd] in E. subst b. cbn [map fold_left fst snd]. unfold climb at 2. cbn [fst snd]. rewrite IH by exact F'. reflexivity. Qed.
Lemma climb_or : forall l st, Forall (fun x => fst (fst x) <> BAnd) l -> let r := fold_left climb (map (fun x => (fst x, mean_o (snd x))) l) st in finish (fst r) (snd r) = joined (finish (fst st) (snd st)) l.
Proof. induction l as [|[[b i] u] l IH]; intros st F; [reflexivity|]. inversion F as [|? ? E F']; subst. cbn [fst snd] in E. cbn [map fold_left fst snd]. cbv zeta in *. rewrite IH by exact F'. destruct b; [reflexivity|reflexivity|congruence]. Qed.
Lemma even_rest l : fold_right (fun (x : bin * nat * operand) P => even_o (snd x) /\ P) True l -> Forall (fun x => even_o (snd x)) l.
Proof. induction l as [|x l IH]; intros H; constructor; [exact (proj1 H)|exact (IH (proj2 H))]. Qed.
Lemma split_ands l : ands_first l \/ ~ ands_first l.
Proof.
  unfold ands_first. induction l as [|[[b i] u] l IH]; [left; exists [], []; repeat split; constructor|].
  assert (D : b = BAnd \/ b <> BAnd) by (destruct b; [right; discriminate|right; discriminate|left; reflexivity]). destruct D as [->|Nb].
  - destruct IH as [(a & o & -> & Fa & Fo)|N]; [left; exists ((BAnd, i, u) :: a), o; split; [reflexivity|]; split; [constructor; [reflexivity|exact Fa]|exact Fo]|]. right. intros (a & o & E & Fa & Fo). apply N. destruct a as [|x a]; cbn [app] in E; [subst o; inversion Fo; contradiction|]. injection E as <- E. exists a, o. inversion Fa. auto.
  - assert (Da : Forall (fun x => fst (fst x) <> BAnd) l \/ ~ Forall (fun x : bin * nat * operand => fst (fst x) <> BAnd) l).
    { clear IH. induction l as [|[[b' i'] u'] l IH]; [left; constructor|]. destruct IH as [IH|IH]; [|right; intros X; inversion X; contradiction]. destruct b'; [left; constructor; [discriminate|exact IH]|left; constructor; [discriminate|exact IH]|right; intros X; inversion X as [|? ? Y _]; apply Y; reflexivity]. }
    destruct Da as [Da|Da]; [left; exists [], ((b, i, u) :: l); split; [reflexivity|]; split; [constructor|constructor; assumption]|]. right. intros (a & o & E & Fa & Fo). destruct a as [|x a]; cbn [app] in E; [subst o; inversion Fo; contradiction|]. injection E as <- E. inversion Fa as [|? ? X _]. apply Nb. exact X.
Qed.
Lemma all_ok e : expr_ok e.
Proof.
  apply (ind_e expr_ok opd_ok prim_ok); clear e.
  - intros u rest Hu F. destruct u as [n p q]. cbn [opd_ok] in Hu.
    destruct (operand_step n p q ([], []) [] [] (fun x => x) [] Hu Logic.I eq_refl (ctx_nil []) (fun x => eq_refl)) as (st & x & rest' & f & Es & R & C & L & (P & A) & Ev). cbn [app] in L. rewrite app_nil_r in Ev.
    assert (Rd : ready st [] (f x)) by (exists x, rest', f, P; auto).
    assert (Rs : exists m, ready (yards (toks_r rest) st) [] m /\ leaves m = leaves (f x) ++ flat_map (fun x => ents_o (snd x)) rest /\ (ands_first rest -> Forall (fun x => even_o (snd x)) rest -> tops 1 (snd st) -> m = let r := fold_left climb (map (fun x => (fst x, mean_o (snd x))) rest) (None, f x) in finish (fst r) (snd r))).
    { destruct (split_ands rest) as [(a & o & -> & Fa & Fo)|N].
      - apply Forall_app in F. destruct F as [F1 F2]. destruct (rest_step 1 ltac:(lia) a st [] (f x) Rd F1) as (m1 & R1 & L1 & E1). destruct (rest_step 0 ltac:(lia) o _ [] m1 R1 F2) as (m2 & R2 & L2 & E2).
        exists m2. unfold toks_r in *. rewrite flat_map_app, yards_app. split; [exact R2|]. split; [rewrite L2, L1, flat_map_app, <- app_assoc; reflexivity|]. intros _ Fe T. apply Forall_app in Fe. destruct Fe as [Fe1 Fe2].
        assert (Pa : Forall (fun x : bin * nat * operand => precedence (oper_of (fst (fst x))) = 1) a) by (eapply Forall_impl; [|exact Fa]; cbn beta; intros w Hw; rewrite Hw; reflexivity).
        assert (Po : Forall (fun x : bin * nat * operand => precedence (oper_of (fst (fst x))) = 0) o) by (eapply Forall_impl; [|exact Fo]; cbn beta; intros w Hw; destruct (fst (fst w)); [reflexivity|reflexivity|congruence]).
        destruct (E1 Pa Fe1 T) as [Q1 T1]. assert (T0 : tops 0 (snd (yards (toks_r a) st))) by (intros t r X; specialize (T1 t r X); lia). destruct (E2 Po Fe2 T0) as [Q2 _].
        rewrite map_app, fold_left_app, (climb_and a (f x) Fa). pose proof (climb_or o (None, joined (f x) a) Fo) as Cl. cbv zeta in *. rewrite Cl. cbn [fst snd finish]. rewrite Q2, Q1. reflexivity.
      - destruct (rest_step 0 ltac:(lia) rest st [] (f x) Rd F) as (m & R1 & L1 & _). exists m. split; [exact R1|]. split; [exact L1|]. intros H. contradiction. }
    destruct Rs as (m & (y & ry & g & Pg & R2 & C2 & _ & Em) & Lm & Evm). exists m.
    assert (Q : reads (shunting_yard (toks_e (Expr (Operand n p q) rest))) (Some []) = Some [m]).
    { unfold shunting_yard. cbv zeta. change (fold_left (fun st t => yard_token t st) (toks_e (Expr (Operand n p q) rest)) ([], [])) with (yards (toks_o (Operand n p q) ++ toks_r rest) ([], [])). rewrite yards_app, Es. change (map (fun o : oper * nat => AOper (fst o) (snd o))) with ops_out. rewrite reads_app, R2, <- Em. apply C2. }
    split; [intros B; exact (reads_frame B _ _ _ Q)|]. split; [rewrite Lm, L; reflexivity|]. intros (Lv & Eu & Er). destruct (Ev Eu) as [E1 E2]. apply even_rest in Er. cbn [mean_e]. rewrite E1 in Evm. apply Evm; [exact Lv|exact Er|]. rewrite E2, <- (app_nil_r (un_ops n q)). apply un_tops; [lia|]. intros t r X. discriminate X.
  - intros n p q H. exact H.
  - intros i. exists [AEntity i], (Leaf i). split; [reflexivity|]. split; [intros [|? [|? ?]]; reflexivity|]. split; [reflexivity|]. intros _. reflexivity.
  - intros e (m & R & L & Ev). exists (shunting_yard (toks_e e)), m. split; [intros st; exact (yard_query (toks_e e) st)|]. auto.
Qed.
