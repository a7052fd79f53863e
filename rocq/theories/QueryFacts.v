(** Operator expressions: the paren loop and the reduction compute the value. *)
From Verif Require Export SpecQuery.

(** ** lists *)
Lemma filter_app_inv {A} (f : A -> bool) l x y : filter f l = x ++ y -> exists l1 l2, l = l1 ++ l2 /\ filter f l1 = x /\ filter f l2 = y.
Proof.
  revert x. induction l as [|a l IH]; intros x E.
  - cbn in E. symmetry in E. apply app_eq_nil in E. destruct E; subst. exists [], []. auto.
  - destruct x as [|b x].
    + exists [], (a :: l). auto.
    + cbn [filter] in E. destruct (f a) eqn:F.
      * cbn in E. injection E as -> E. destruct (IH x E) as (l1 & l2 & -> & E1 & E2). exists (b :: l1), l2. cbn [filter app]. rewrite F, E1. auto.
      * destruct (IH (b :: x) E) as (l1 & l2 & -> & E1 & E2). exists (a :: l1), l2. cbn [filter app]. rewrite F. auto.
Qed.
Lemma filter_cons_inv {A} (f : A -> bool) l x y : filter f l = x :: y -> exists s l2, l = s ++ x :: l2 /\ filter f s = [] /\ filter f l2 = y.
Proof.
  induction l as [|a l IH]; cbn [filter]; [discriminate|]. destruct (f a) eqn:F.
  - intros [= -> <-]. exists [], l. auto.
  - intros E. destruct (IH E) as (s & l2 & -> & E1 & E2). exists (a :: s), l2. cbn [filter app]. rewrite F. auto.
Qed.

(** ** writing with spaces *)
Inductive rendS {A} : nat -> bool -> expr A -> list (item A) -> Prop :=
| s_atom a : rendS 3 false (EAtom a) [IF a]
| s_not k e l : rendS 3 k e l -> rendS 3 false (ENot e) (IC c_not :: l)
| s_paren n e l : rendS n true e l -> rendS 3 false e (IC c_open :: l ++ [IC c_close])
| s_and k1 k2 e1 e2 l1 l2 : rendS 2 k1 e1 l1 -> rendS 2 k2 e2 l2 -> rendS 2 true (EAnd e1 e2) (l1 ++ IC c_and :: l2)
| s_xor k1 k2 e1 e2 l1 l2 : rendS 1 k1 e1 l1 -> rendS 1 k2 e2 l2 -> rendS 1 true (EXor e1 e2) (l1 ++ IC c_xor :: l2)
| s_or k1 k2 e1 e2 l1 l2 : rendS 0 k1 e1 l1 -> rendS 0 k2 e2 l2 -> rendS 0 true (EOr e1 e2) (l1 ++ IC c_or :: l2)
| s_up n k e l : rendS (S n) k e l -> rendS n k e l
| s_sp_l n k e l : rendS n k e l -> rendS n k e (IC 32 :: l)
| s_sp_r n k e l : rendS n k e l -> rendS n k e (l ++ [IC 32]).

Lemma spaces_only {A} (s : list (item A)) : despace s = [] -> Forall (fun x => x = IC 32) s.
Proof.
  induction s as [|x s IH]; [constructor|]. unfold despace. cbn [filter]. destruct x as [c|a]; cbn; [|discriminate].
  destruct (Z.eqb_spec c 32) as [->|N]; cbn; [|discriminate]. intros E. constructor; [reflexivity|apply IH; exact E].
Qed.
Lemma rendS_pad_l {A} n k (e : expr A) s l : despace s = [] -> rendS n k e l -> rendS n k e (s ++ l).
Proof. intros D R. apply spaces_only in D. induction D as [|x s -> F IH]; [exact R|]. apply s_sp_l. exact IH. Qed.
Lemma rendS_pad_r {A} n k (e : expr A) s l : despace s = [] -> rendS n k e l -> rendS n k e (l ++ s).
Proof.
  intros D R. apply spaces_only in D. revert l R. induction D as [|x s -> F IH]; intros l R; [rewrite app_nil_r; exact R|].
  change (IC 32 :: s) with ([IC 32] ++ s). rewrite app_assoc. apply IH. apply s_sp_r. exact R.
Qed.
Lemma rendS_of {A} n k (e : expr A) l0 : renders n k e l0 -> forall l, despace l = l0 -> rendS n k e l.
Proof.
  induction 1; intros L D; unfold despace in *.
  - apply filter_cons_inv in D. destruct D as (s & l2 & -> & D1 & D2). apply rendS_pad_l; [exact D1|]. change (IF a :: l2) with ([IF a] ++ l2). apply rendS_pad_r; [exact D2|]. constructor.
  - apply filter_cons_inv in D. destruct D as (s & l2 & -> & D1 & D2). apply rendS_pad_l; [exact D1|]. eapply s_not. apply IHrenders. exact D2.
  - apply filter_cons_inv in D. destruct D as (s & l2 & -> & D1 & D2). apply rendS_pad_l; [exact D1|].
    apply filter_app_inv in D2. destruct D2 as (l3 & l4 & -> & D3 & D4). apply filter_cons_inv in D4. destruct D4 as (s' & l5 & -> & D5 & D6).
    replace (IC c_open :: l3 ++ s' ++ IC c_close :: l5) with ((IC c_open :: (l3 ++ s') ++ [IC c_close]) ++ l5) by (cbn; rewrite <- !app_assoc; reflexivity).
    apply rendS_pad_r; [exact D6|]. eapply s_paren. apply rendS_pad_r; [exact D5|]. apply IHrenders. exact D3.
  - apply filter_app_inv in D. destruct D as (l3 & l4 & -> & D3 & D4). apply filter_cons_inv in D4. destruct D4 as (s' & l5 & -> & D5 & D6).
    rewrite app_assoc. eapply s_and; [apply rendS_pad_r; [exact D5|]; apply IHrenders1; exact D3|apply IHrenders2; exact D6].
  - apply filter_app_inv in D. destruct D as (l3 & l4 & -> & D3 & D4). apply filter_cons_inv in D4. destruct D4 as (s' & l5 & -> & D5 & D6).
    rewrite app_assoc. eapply s_xor; [apply rendS_pad_r; [exact D5|]; apply IHrenders1; exact D3|apply IHrenders2; exact D6].
  - apply filter_app_inv in D. destruct D as (l3 & l4 & -> & D3 & D4). apply filter_cons_inv in D4. destruct D4 as (s' & l5 & -> & D5 & D6).
    rewrite app_assoc. eapply s_or; [apply rendS_pad_r; [exact D5|]; apply IHrenders1; exact D3|apply IHrenders2; exact D6].
  - apply s_up. apply IHrenders. exact D.
Qed.

(** ** atoms and operands *)
Lemma atoms_app {A} (l m : list (item A)) : atoms (l ++ m) = atoms l ++ atoms m.
Proof. induction l as [|[c|a] l IH]; cbn; [reflexivity|exact IH|f_equal; exact IH]. Qed.
Lemma operands_ne {A} (l : list (item A)) : exists o os, operands l = o :: os.
Proof. destruct l as [|[c|a] l]; cbn; eauto. destruct (operands l); eauto. Qed.
Lemma operands_app {A} (l m : list (item A)) i la h t : operands l = i ++ [la] -> operands m = h :: t -> operands (l ++ m) = i ++ (la ++ h) :: t.
Proof.
  revert i la. induction l as [|[c|a] l IH]; intros i la E F.
  - cbn in E. destruct i as [|? [|? ?]]; cbn in E; try discriminate. injection E as <-. exact F.
  - cbn [operands app] in *. destruct (operands_ne l) as (o & os & El). rewrite El in E. destruct i as [|i0 i].
    + injection E as E1 E2. subst. rewrite (IH [] o) with (1 := El) by assumption. cbn. reflexivity.
    + cbn in E. injection E as E1 E2. subst. rewrite (IH (o :: i) la) by assumption. reflexivity.
  - cbn [operands app] in *. destruct i as [|i0 i]; cbn in E; injection E as E1 E2; subst.
    + destruct (operands_ne l) as (o & os & El). congruence.
    + rewrite (IH i la) by assumption. reflexivity.
Qed.
Lemma operands_last {A} (l : list (item A)) : exists i la, operands l = i ++ [la].
Proof. destruct (operands_ne l) as (o & os & E). destruct (exists_last (l := operands l)) as (i & la & E'); [rewrite E; discriminate|]. eauto. Qed.
Lemma operands_len {A} (l : list (item A)) : length (operands l) = S (length (atoms l)).
Proof. induction l as [|[c|a] l IH]; cbn [operands atoms]; [reflexivity| |cbn; f_equal; exact IH]. destruct (operands_ne l) as (o & os & E). rewrite E in *. exact IH. Qed.
(** the characters of an item list *)
Fixpoint chars_of {A} (l : list (item A)) : pystr :=
  match l with [] => [] | IC c :: r => c :: chars_of r | IF _ :: r => chars_of r end.
Lemma chars_app {A} (l m : list (item A)) : chars_of (l ++ m) = chars_of l ++ chars_of m.
Proof. induction l as [|[c|a] l IH]; cbn; [reflexivity|f_equal; exact IH|exact IH]. Qed.
Lemma operands_chars {A} (l : list (item A)) : concat (operands l) = chars_of l.
Proof. induction l as [|[c|a] l IH]; cbn [operands chars_of]; [reflexivity| |exact IH]. destruct (operands_ne l) as (o & os & E). rewrite E in *. cbn in *. f_equal. exact IH. Qed.
