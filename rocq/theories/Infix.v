(** Model of pawpaw/infix.py and of nuco (pawpaw/ito.py). *)
From Verif Require Export Py.

(** Python values as far as infix.py sees them: None, other objects (by identity), Infix objects.  The function an
    Infix holds is one the user gave (by number) or a lambda of infix.py with what it captured. *)
Inductive val := VNone | VObj (n : nat) | VInfix (f : ifun)
with ifun :=
| UserFun (k : nat)
| OrFun (f : ifun) (x : val)       (* infix.py:15  lambda x: self.function(other, x) *)
| ShiftFun (f : ifun) (x : val).   (* infix.py:21  lambda x, self=self, other=other: self.function(other, x) *)
(** what the user's functions do with arguments; how other objects react to | and << with an Infix on their right
    (None: NotImplemented, as for all objects that do not know Infix) *)
Record ienv := IEnv { user_fun : nat -> list val -> res val; own_or : val -> val -> option (res val); own_shl : val -> val -> option (res val) }.

(** f(args): the lambda of infix.py:15 takes one argument.  That of infix.py:21 takes up to three; Python code reaches
    it with one through |, >> and with two only by calling the half-applied x<<op, which is not modelled (the model says
    TypeError) *)
Fixpoint icall (E : ienv) (f : ifun) (args : list val) : res val :=
  match f with
  | UserFun k => user_fun E k args
  | OrFun g x => match args with [y] => icall E g [x; y] | _ => Err TypeError end
  | ShiftFun g x =>
    match args with
    | [y] => icall E g [x; y]
    | _ => Err TypeError
    end
  end.
(** infix.py:26-27  __call__ *)
Definition infix_call (E : ienv) (f : ifun) (a b : val) : res val := icall E f [a; b].
(** a | b  (infix.py:14-18): Python asks the left operand first *)
Definition py_or (E : ienv) (a b : val) : res val :=
  match a with
  | VInfix f => icall E f [b]                                                   (* __or__ *)
  | _ => match own_or E a b with
         | Some r => r
         | None => match b with VInfix f => Ok (VInfix (OrFun f a)) | _ => Err TypeError end   (* __ror__ *)
         end
  end.
(** a << b  (infix.py:20-21); Infix has no __lshift__, and Python does not ask a right operand of the same type *)
Definition py_shl (E : ienv) (a b : val) : res val :=
  match a with
  | VInfix _ => Err TypeError
  | _ => match own_shl E a b with
         | Some r => r
         | None => match b with VInfix f => Ok (VInfix (ShiftFun f a)) | _ => Err TypeError end
         end
  end.
(** a >> b  (infix.py:23-24), for an Infix a *)
Definition py_shr (E : ienv) (a b : val) : res val := match a with VInfix f => icall E f [b] | _ => Err TypeError end.
(** a |op| b and a <<op>> b: | and the shifts are left-associative *)
Definition bars (E : ienv) (a op b : val) : res val := do x <- py_or E a op; py_or E x b.
Definition arrows (E : ienv) (a op b : val) : res val := do x <- py_shl E a op; py_shr E x b.
(** ito.py:17  nuco *)
Definition nuco_fun (args : list val) : res val :=
  match args with [x; y] => Ok (match x with VNone => y | _ => x end) | _ => Err TypeError end.
