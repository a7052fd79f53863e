(** Parentheses: the loop removes the last group, and the whole expression is
    evaluated to its outcome. *)
From Verif Require Export QueryFacts3.

Definition no_open {A} (l : list (item A)) : Prop := forall c, In c (chars_of l) -> c <> c_open.
Lemma no_open_dec {A} (l : list (item A)) : no_open l \/ In c_open (chars_of l).
Proof. destruct (in_dec Z.eq_dec c_open (chars_of l)) as [X|X]; [right; exact X|left; intros c Hc ->; contradiction]. Qed.
Lemma rendS_count {A} n k (e : expr A) l : rendS n k e l -> count_char c_open (chars_of l) = count_char c_close (chars_of l).
Proof.
  induction 1; cbn [chars_of]; rewrite ?chars_app; cbn [chars_of]; rewrite ?count_char_app; cbn [count_char] in *; unfold count_char in *; cbn [filter] in *; try exact IHrendS.
  - reflexivity.
  - change (c_open =? c_open) with true. change (c_close =? c_open) with false. cbn [length]. rewrite filter_app, app_length. cbn [filter length]. rewrite filter_app, app_length. cbn.
    rewrite IHrendS. lia.
  - cbn. lia.
  - cbn. lia.
  - cbn. lia.
  - cbn. lia.
Qed.
Lemma count_zero c s : count_char c s = 0%nat <-> ~ In c s.
Proof.
  unfold count_char. split.
  - intros E X. assert (In c (filter (Z.eqb c) s)) as Y by (apply filter_In; split; [exact X|apply Z.eqb_refl]). destruct (filter (Z.eqb c) s); [destruct Y|discriminate].
  - intros N. destruct (filter (Z.eqb c) s) as [|x r] eqn:E; [reflexivity|]. exfalso. apply N. assert (In x (filter (Z.eqb c) s)) as Y by (rewrite E; left; reflexivity). apply filter_In in Y. destruct Y as [Y1 Y2]. apply Z.eqb_eq in Y2. subst. exact Y1.
Qed.
Lemma rendS_no_open {A} n k (e : expr A) l : rendS n k e l -> no_open l -> no_par l.
Proof.
  intros R N c Hc. split; [apply N; exact Hc|]. intros ->. assert (count_char c_close (chars_of l) = 0%nat) as E.
  { rewrite <- (rendS_count _ _ _ _ R). apply count_zero. intros X. exact (N c_open X eq_refl). }
  apply count_zero in E. contradiction.
Qed.
Lemma rendS_atoms {A} n k (e : expr A) l : rendS n k e l -> (if k then 2 else 1) <= zlen (atoms l).
Proof.
  assert (B : forall k : bool, 1 <= if k then 2 else 1) by (intros []; lia).
  unfold zlen. induction 1; cbn [atoms]; rewrite ?atoms_app; cbn [atoms]; rewrite ?app_length; cbn [length]; try lia; try (specialize (B k); lia); try (pose proof (B k1); pose proof (B k2); lia).
Qed.

(** the last group of parentheses *)
Lemma last_group n k (e : expr ecf) l : rendS n k e l -> In c_open (chars_of l) ->
  exists A B C eb nb, l = A ++ IC c_open :: B ++ IC c_close :: C /\ rendS nb true eb B /\ no_par B /\ no_open C /\
    forall f : ecf, (forall h r ec, f h r ec = outcome (fun g : ecf => g h r ec) eb) ->
      exists e', rendS n k e' (A ++ IF f :: C) /\ forall h r ec, outcome (fun g : ecf => g h r ec) e' = outcome (fun g : ecf => g h r ec) e.
Proof.
  assert (Bin : forall (b : bop) (mk : expr ecf -> expr ecf -> expr ecf) nn k1 k2 e1 e2 l1 l2,
    (forall v x y, outcome v (mk x y) = do p <- outcome v x; do q <- outcome v y; Ok (bop_fun b p q)) ->
    (forall k1 k2 x y m1 m2, rendS nn k1 x m1 -> rendS nn k2 y m2 -> rendS nn true (mk x y) (m1 ++ IC (bop_char b) :: m2)) ->
    rendS nn k1 e1 l1 -> rendS nn k2 e2 l2 ->
    (In c_open (chars_of l1) -> exists A B C eb nb, l1 = A ++ IC c_open :: B ++ IC c_close :: C /\ rendS nb true eb B /\ no_par B /\ no_open C /\
      forall f : ecf, (forall h r ec, f h r ec = outcome (fun g : ecf => g h r ec) eb) ->
        exists e', rendS nn k1 e' (A ++ IF f :: C) /\ forall h r ec, outcome (fun g : ecf => g h r ec) e' = outcome (fun g : ecf => g h r ec) e1) ->
    (In c_open (chars_of l2) -> exists A B C eb nb, l2 = A ++ IC c_open :: B ++ IC c_close :: C /\ rendS nb true eb B /\ no_par B /\ no_open C /\
      forall f : ecf, (forall h r ec, f h r ec = outcome (fun g : ecf => g h r ec) eb) ->
        exists e', rendS nn k2 e' (A ++ IF f :: C) /\ forall h r ec, outcome (fun g : ecf => g h r ec) e' = outcome (fun g : ecf => g h r ec) e2) ->
    In c_open (chars_of (l1 ++ IC (bop_char b) :: l2)) ->
    exists A B C eb nb, l1 ++ IC (bop_char b) :: l2 = A ++ IC c_open :: B ++ IC c_close :: C /\ rendS nb true eb B /\ no_par B /\ no_open C /\
      forall f : ecf, (forall h r ec, f h r ec = outcome (fun g : ecf => g h r ec) eb) ->
        exists e', rendS nn true e' (A ++ IF f :: C) /\ forall h r ec, outcome (fun g : ecf => g h r ec) e' = outcome (fun g : ecf => g h r ec) (mk e1 e2)).
  { intros b mk nn k1 k2 e1 e2 l1 l2 Hv Hc R1 R2 H1 H2 Hi. destruct (no_open_dec l2) as [N2|I2].
    - assert (I1 : In c_open (chars_of l1)).
      { rewrite chars_app in Hi. cbn [chars_of] in Hi. apply in_app_or in Hi. destruct Hi as [X|[X|X]]; [exact X|destruct b; discriminate|exfalso; exact (N2 _ X eq_refl)]. }
      destruct (H1 I1) as (A & B & C & eb & nb & -> & Rb & Pb & Oc & K). exists A, B, (C ++ IC (bop_char b) :: l2), eb, nb.
      split; [rewrite <- app_assoc; cbn; rewrite <- app_assoc; reflexivity|]. split; [exact Rb|]. split; [exact Pb|]. split.
      + intros c Hin. rewrite chars_app in Hin. cbn [chars_of] in Hin. apply in_app_or in Hin. destruct Hin as [X|[X|X]]; [apply Oc; exact X|subst; destruct b; discriminate|apply N2; exact X].
      + intros f Hf. destruct (K f Hf) as (e' & R' & V'). exists (mk e' e2). split.
        * replace (A ++ IF f :: C ++ IC (bop_char b) :: l2) with ((A ++ IF f :: C) ++ IC (bop_char b) :: l2) by (rewrite <- app_assoc; reflexivity). exact (Hc _ _ _ _ _ _ R' R2).
        * intros h r ec. rewrite !Hv, V'. reflexivity.
    - destruct (H2 I2) as (A & B & C & eb & nb & -> & Rb & Pb & Oc & K). exists (l1 ++ IC (bop_char b) :: A), B, C, eb, nb.
      split; [rewrite <- app_assoc; reflexivity|]. split; [exact Rb|]. split; [exact Pb|]. split; [exact Oc|].
      intros f Hf. destruct (K f Hf) as (e' & R' & V'). exists (mk e1 e'). split.
      + rewrite <- app_assoc. cbn [app]. exact (Hc _ _ _ _ _ _ R1 R').
      + intros h r ec. rewrite !Hv, V'. reflexivity. }
  induction 1 as [a|k e l R IH|n e l R IH|k1 k2 e1 e2 l1 l2 R1 IH1 R2 IH2|k1 k2 e1 e2 l1 l2 R1 IH1 R2 IH2|k1 k2 e1 e2 l1 l2 R1 IH1 R2 IH2|n k e l R IH|n k e l R IH|n k e l R IH]; intros Hi.
  - destruct Hi.
  - destruct Hi as [X|Hi]; [discriminate|]. destruct (IH Hi) as (A & B & C & eb & nb & -> & Rb & Pb & Oc & K). exists (IC c_not :: A), B, C, eb, nb.
    split; [reflexivity|]. split; [exact Rb|]. split; [exact Pb|]. split; [exact Oc|]. intros f Hf. destruct (K f Hf) as (e' & R' & V'). exists (ENot e'). split; [eapply s_not; exact R'|].
    intros h r ec. cbn [outcome]. rewrite V'. reflexivity.
  - destruct (no_open_dec l) as [N|I].
    + exists [], l, [], e, n. split; [reflexivity|]. split; [exact R|]. split; [exact (rendS_no_open _ _ _ _ R N)|]. split; [intros c []|].
      intros f Hf. exists (EAtom f). split; [constructor|exact Hf].
    + destruct (IH I) as (A & B & C & eb & nb & -> & Rb & Pb & Oc & K). exists (IC c_open :: A), B, (C ++ [IC c_close]), eb, nb.
      split; [cbn; rewrite <- !app_assoc; cbn; rewrite <- app_assoc; reflexivity|]. split; [exact Rb|]. split; [exact Pb|]. split.
      * intros c Hin. rewrite chars_app in Hin. apply in_app_or in Hin. destruct Hin as [X|[<-|[]]]; [apply Oc; exact X|discriminate].
      * intros f Hf. destruct (K f Hf) as (e' & R' & V'). exists e'. split; [|exact V'].
        replace ((IC c_open :: A) ++ IF f :: C ++ [IC c_close]) with (IC c_open :: (A ++ IF f :: C) ++ [IC c_close]) by (cbn; rewrite <- !app_assoc; reflexivity). eapply s_paren. exact R'.
  - exact (Bin BAnd EAnd 2%nat k1 k2 e1 e2 l1 l2 (fun _ _ _ => eq_refl) (fun _ _ _ _ _ _ X Y => s_and _ _ _ _ _ _ X Y) R1 R2 IH1 IH2 Hi).
  - exact (Bin BXor EXor 1%nat k1 k2 e1 e2 l1 l2 (fun _ _ _ => eq_refl) (fun _ _ _ _ _ _ X Y => s_xor _ _ _ _ _ _ X Y) R1 R2 IH1 IH2 Hi).
  - exact (Bin BOr EOr 0%nat k1 k2 e1 e2 l1 l2 (fun _ _ _ => eq_refl) (fun _ _ _ _ _ _ X Y => s_or _ _ _ _ _ _ X Y) R1 R2 IH1 IH2 Hi).
  - destruct (IH Hi) as (A & B & C & eb & nb & E & Rb & Pb & Oc & K). exists A, B, C, eb, nb. split; [exact E|]. split; [exact Rb|]. split; [exact Pb|]. split; [exact Oc|].
    intros f Hf. destruct (K f Hf) as (e' & R' & V'). exists e'. split; [apply s_up; exact R'|exact V'].
  - destruct Hi as [X|Hi]; [discriminate|]. destruct (IH Hi) as (A & B & C & eb & nb & -> & Rb & Pb & Oc & K). exists (IC 32 :: A), B, C, eb, nb.
    split; [reflexivity|]. split; [exact Rb|]. split; [exact Pb|]. split; [exact Oc|]. intros f Hf. destruct (K f Hf) as (e' & R' & V'). exists e'. split; [apply s_sp_l; exact R'|exact V'].
  - rewrite chars_app in Hi. apply in_app_or in Hi. destruct Hi as [Hi|[X|[]]]; [|discriminate]. destruct (IH Hi) as (A & B & C & eb & nb & -> & Rb & Pb & Oc & K). exists A, B, (C ++ [IC 32]), eb, nb.
    split; [rewrite <- app_assoc; cbn; rewrite <- app_assoc; reflexivity|]. split; [exact Rb|]. split; [exact Pb|]. split.
    + intros c Hin. rewrite chars_app in Hin. apply in_app_or in Hin. destruct Hin as [X|[<-|[]]]; [apply Oc; exact X|discriminate].
    + intros f Hf. destruct (K f Hf) as (e' & R' & V'). exists e'. split; [|exact V'].
      replace (A ++ IF f :: C ++ [IC 32]) with ((A ++ IF f :: C) ++ [IC 32]) by (rewrite <- app_assoc; reflexivity). apply s_sp_r. exact R'.
Qed.
