(** Specification vocabulary for Api.v. *)
From Verif Require Export Api SpecFormat SpecCombin.

(** ** value functions: which function each Ito of a history has *)
Definition put {A} (i : nat) (x : A) (l : list A) : list A := firstn i l ++ [x] ++ skipn (S i) l.
Definition func_of (fs : list (option nat)) (i : nat) : option nat := nth i fs None.
Fixpoint funcs (fs : list (option nat)) (l : list vop) : list (option nat) :=
  match l with
  | [] => fs
  | VNew :: r => funcs (fs ++ [None]) r
  | VSet i f :: r => funcs (put i f fs) r
  | VClone i :: r => funcs (fs ++ [func_of fs i]) r
  | VLoad _ :: r => funcs (fs ++ [None]) r
  end.
(** the operations of a history speak about Itos that exist: n at its begin *)
Fixpoint existing (n : nat) (l : list vop) : Prop :=
  match l with
  | [] => True
  | VNew :: r => existing (S n) r
  | VSet i _ :: r => (i < n)%nat /\ existing n r
  | VClone i :: r | VLoad i :: r => (i < n)%nat /\ existing (S n) r
  end.
(** what value() gives for an Ito that has the function f: str(ito), or the function applied to this Ito *)
Definition value_with (f : option nat) (i : nat) : vresult := match f with None => VText i | Some g => VCall g i end.
