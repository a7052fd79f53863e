(** Property theorem C113: infix operators. *)
From Verif Require Import Infix.

(** an operand that is no infix operator itself and does not know what to do with one *)
Definition ordinary (E : ienv) (a : val) : Prop := (forall f, a <> VInfix f) /\ forall f, own_or E a (VInfix f) = None /\ own_shl E a (VInfix f) = None.

(** ** C113 a |op| b, a <<op>> b and op(a, b) are the function applied to a and b, the right operand being anything.
    Proved for ordinary left operands. *)
Theorem C113_same_partial : forall E k a b, ordinary E a ->
  bars E a (VInfix (UserFun k)) b = user_fun E k [a; b] /\ arrows E a (VInfix (UserFun k)) b = user_fun E k [a; b] /\
  infix_call E (UserFun k) a b = user_fun E k [a; b].
Proof.
  intros E k a b [N O]. destruct (O (UserFun k)) as [O1 O2]. unfold bars, arrows, py_or, py_shl, infix_call. destruct a as [|n|f]; [| |contradiction (N f eq_refl)]; rewrite O1, O2; auto.
Qed.
(** chains group to the left *)
Theorem C113_chain_partial : forall E k a b c v, ordinary E a -> ordinary E v -> user_fun E k [a; b] = Ok v ->
  (do x <- bars E a (VInfix (UserFun k)) b; bars E x (VInfix (UserFun k)) c) = user_fun E k [v; c] /\
  (do x <- arrows E a (VInfix (UserFun k)) b; arrows E x (VInfix (UserFun k)) c) = user_fun E k [v; c].
Proof.
  intros E k a b c v A V H. destruct (C113_same_partial E k a b A) as (-> & -> & _). rewrite H. cbn. destruct (C113_same_partial E k v c V) as (-> & -> & _). auto.
Qed.
(** x |nuco| y is x, unless that is None *)
Theorem C113_nuco_partial : forall E k a b, user_fun E k = nuco_fun -> ordinary E a ->
  bars E a (VInfix (UserFun k)) b = Ok (match a with VNone => b | _ => a end).
Proof. intros E k a b U A. destruct (C113_same_partial E k a b A) as (-> & _). rewrite U. reflexivity. Qed.
Print Assumptions C113_nuco_partial.
(** a left operand that is an infix operator takes the middle one as its own argument: with f(a, b) the pair of its
    arguments, f |g| b fails although g(f, b) does not *)
Theorem C113_operator_refuted : forall own1 own2,
  let E := IEnv (fun k l => match l with [x; y] => Ok (VObj k) | _ => Err TypeError end) own1 own2 in
  let f := VInfix (UserFun 1) in let g := UserFun 2 in
  bars E f (VInfix g) VNone = Err TypeError /\ arrows E f (VInfix g) VNone = Err TypeError /\ infix_call E g f VNone = Ok (VObj 2).
Proof. intros. auto. Qed.
Print Assumptions C113_operator_refuted.
Example C113_case : let E := IEnv (fun _ => nuco_fun) (fun _ _ => None) (fun _ _ => None) in
  ordinary E VNone /\ ordinary E (VObj 3) /\ bars E VNone (VInfix (UserFun 0)) (VObj 4) = Ok (VObj 4) /\ arrows E (VObj 3) (VInfix (UserFun 0)) (VObj 4) = Ok (VObj 3).
Proof. cbv zeta. repeat split; discriminate. Qed.
