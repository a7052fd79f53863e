(** Model of pawpaw/_type_magic.py: the run-time type tests behind every
    constructor of pawpaw that takes a function, and invoke_func. *)
From Verif Require Export Py.

(** A class object; typing.Any is the class 0 (from Python 3.11 on, typing.Any
    is a class, and issubclass(X, typing.Any) is False for any other X). *)
Notation pycls := Z (only parsing).
Definition any_cls : pycls := 0.

(** What may stand in a type hint, as far as the code tells apart:
    - [TCls c]        a class                        (typing.get_origin: None)
    - [TGen o args]   a parameterized type like list[int]         (origin: o)
    - [TUnion ts]     X | Y                    (origin: types.UnionType)
    - [TOld ts]       typing.Union[..], typing.Optional[..]
                      (origin: typing.Union, which is not a class)
    Not modelled: type variables, Literal, Annotated and other special forms. *)
Inductive ty :=
| TCls (c : pycls)
| TGen (o : pycls) (args : list ty)
| TUnion (ts : list ty)
| TOld (ts : list ty).

(** pawpaw/_type_magic.py:61-70 unpack *)
Fixpoint unpack (t : ty) : list ty :=
  match t with
  | TUnion ts => concat (map unpack ts)
  | _ => [t]
  end.

(** issubclass(c, o) where o is what get_origin returned, or the class itself:
    None stands for typing.Union, for which issubclass raises TypeError. *)
Definition origin (t : ty) : option pycls :=
  match t with
  | TCls c => Some c
  | TGen o _ => Some o
  | TUnion _ => None
  | TOld _ => None
  end.
Definition py_issubclass (sub : pycls -> pycls -> bool) (c o : option pycls) : res bool :=
  match c, o with
  | Some c, Some o => Ok (sub c o)
  | _, _ => Err TypeError
  end.

(** any(f(x) for x in l), evaluated from the left, stopping at the first True *)
Fixpoint any_res {A} (f : A -> res bool) (l : list A) : res bool :=
  match l with
  | [] => Ok false
  | x :: r => do b <- f x; if b then Ok true else any_res f r
  end.

(** pawpaw/_type_magic.py:73-88 isinstance_ex: [c] is type(obj).  isinstance
    and issubclass(type(obj), .) are taken to agree: objects that lie about
    their __class__ are not modelled. *)
Definition isinstance_ex (sub : pycls -> pycls -> bool) (c : pycls) (t : ty) : res bool :=
  any_res (fun u => py_issubclass sub (Some c) (origin u)) (unpack t).

(** pawpaw/_type_magic.py:91-97 issubclass_ex *)
Definition issubclass_ex (sub : pycls -> pycls -> bool) (a t : ty) : res bool :=
  let cls_types := map origin (unpack a) in
  let tou_types := map origin (unpack t) in
  any_res (fun x => any_res (fun y => py_issubclass sub x y) tou_types) cls_types.

(** The parameters of a Python function. *)
Inductive pkind := KPos | KOnly | KArgs | KKwargs.
Record param := Par { p_name : pystr; p_kind : pkind; p_hint : option ty; p_dflt : bool }.

(** A function object.  The hint of a parameter or of the result is the
    resolved annotation (None: no annotation): _type_magic.py:104-118 prefers
    the raw annotation if it is a class or a union and takes the resolved one
    of typing.get_type_hints otherwise, and the two agree whenever the former
    is used.  [f_self]: a bound method, whose first parameter
    inspect.signature hides and inspect.getfullargspec does not. *)
Record func := Fun { f_lambda : bool; f_self : bool; f_params : list param; f_ret : option ty }.

(** The objects a user may pass where a function is expected: a function
    (def, lambda, method, builtin), a callable object of another class (such as
    functools.partial), typing.Callable[..] itself, anything else. *)
Inductive pobj := OFun (f : func) | OCallable | OAlias | OOther.

(** The second argument of functoid_isinstance: typing.Callable,
    typing.Callable[..., r], typing.Callable[[ps], r], anything else. *)
Inductive sigty := SBare | SDots (r : ty) | SSig (ps : list ty) (r : ty) | SNot.

(** pawpaw/_type_magic.py:11-15 is_callable_type_or_generic, of the second argument *)
Definition is_callable_type (s : sigty) : bool := match s with SNot => false | _ => true end.

(** pawpaw/_type_magic.py:18-34 is_functoid *)
Definition is_functoid (o : pobj) : bool :=
  match o with OFun _ | OCallable => true | OAlias | OOther => false end.

(** pawpaw/_type_magic.py:104-118 _annotation_or_type_hint_matches_type *)
Definition is_any (t : ty) : bool := match t with TCls c => c =? any_cls | _ => false end.
Definition hint_matches (sub : pycls -> pycls -> bool) (h : option ty) (want : ty) : res bool :=
  match h with
  | None => Ok true
  | Some t => if is_any want then Ok true else issubclass_ex sub t want
  end.

(** pawpaw/_type_magic.py:148-151, the loop over the parameters *)
Fixpoint all_match (sub : pycls -> pycls -> bool) (l : list (param * ty)) : res bool :=
  match l with
  | [] => Ok true
  | (p, t) :: r => do b <- hint_matches sub (p_hint p) t; if b then all_match sub r else Ok false
  end.

(** pawpaw/_type_magic.py:121-153 functoid_isinstance.  typing.get_type_hints
    raises TypeError for a callable object that is no function; unpacking
    get_args of a bare typing.Callable raises ValueError; len(...) raises
    TypeError.  inspect.signature is taken not to fail (it does for some
    builtins). *)
Definition functoid_isinstance (sub : pycls -> pycls -> bool) (o : pobj) (s : sigty) : res bool :=
  if negb (is_callable_type s) then Err TypeError
  else if negb (is_functoid o) then Ok false
  else match o with
       | OFun f =>
           match s with
           | SBare => Err ValueError
           | SDots r => do b <- hint_matches sub (f_ret f) r; if b then Err TypeError else Ok false
           | SSig ps r =>
               do b <- hint_matches sub (f_ret f) r;
               if negb b then Ok false
               else if negb (zlen (f_params f) =? zlen ps) then Ok false
               else all_match sub (combine (f_params f) ps)
           | SNot => Err TypeError
           end
       | _ => Err TypeError
       end.

(** invoke_func: values have an identity, an equality and a class. *)
Record penv (V : Type) := PEnv {
  v_is : V -> V -> bool;      (* a is b *)
  v_eq : V -> V -> bool;      (* a == b *)
  v_type : V -> pycls;        (* type(a) *)
  v_sub : pycls -> pycls -> bool }.
Arguments PEnv {V}. Arguments v_is {V}. Arguments v_eq {V}. Arguments v_type {V}. Arguments v_sub {V}.

(** list.remove(x): the first element that is x, or equals x *)
Fixpoint py_remove {V} (E : penv V) (x : V) (l : list V) : list V :=
  match l with
  | [] => []
  | y :: r => if v_is E y x || v_eq E y x then r else y :: py_remove E x r
  end.

(** pawpaw/_type_magic.py:175-180 and 184-189, the inner loop: the first value
    still unpaired whose class fits the annotation of the parameter; reading a
    missing annotation raises KeyError, but only once there is a value to test *)
Fixpoint pick {V} (E : penv V) (h : option ty) (l : list V) : res (option V) :=
  match l with
  | [] => Ok None
  | v :: r =>
      match h with
      | None => Err KeyError
      | Some t => do b <- issubclass_ex (v_sub E) (TCls (v_type E v)) t; if b then Ok (Some v) else pick E h r
      end
  end.

(** pawpaw/_type_magic.py:174-180 and 183-189, the outer loops: the pairs made, what is left *)
Fixpoint pair_up {V} (E : penv V) (ps : list param) (l : list V) : res (list (param * V) * list V) :=
  match ps with
  | [] => Ok ([], l)
  | p :: r =>
      do o <- pick E (p_hint p) l;
      match o with
      | None => pair_up E r l
      | Some v => do (m, rest) <- pair_up E r (py_remove E v l); Ok ((p, v) :: m, rest)
      end
  end.

Definition is_kind (k : pkind) (p : param) : bool :=
  match k, p_kind p with
  | KPos, KPos | KOnly, KOnly | KArgs, KArgs | KKwargs, KKwargs => true
  | _, _ => false
  end.

(** What a call hands to the body of the function: for each positional or
    keyword-only parameter the value it got (None: its default), and the
    values that went to the star parameter. *)
Record call V := Call { c_args : list (pystr * option V); c_star : list V }.
Arguments Call {V}. Arguments c_args {V}. Arguments c_star {V}.

(** The binding of arguments in a Python call func(pos.., name=value..):
    positional values go to the positional parameters in order, the surplus to
    the star parameter; TypeError if there is a surplus and no star parameter,
    or if a parameter without default gets nothing. *)
Fixpoint bind_pos {V} (ps : list param) (l : list V) : res (list (pystr * option V) * list V) :=
  match ps with
  | [] => Ok ([], l)
  | p :: r =>
      match l with
      | v :: l' => do (m, rest) <- bind_pos r l'; Ok ((p_name p, Some v) :: m, rest)
      | [] => if p_dflt p then do (m, rest) <- bind_pos r []; Ok ((p_name p, None) :: m, rest) else Err TypeError
      end
  end.
Fixpoint lookup_name {V} (n : pystr) (l : list (param * V)) : option V :=
  match l with
  | [] => None
  | (p, v) :: r => if eqb_str (p_name p) n then Some v else lookup_name n r
  end.
Fixpoint bind_only {V} (ps : list param) (kw : list (param * V)) : res (list (pystr * option V)) :=
  match ps with
  | [] => Ok []
  | p :: r =>
      match lookup_name (p_name p) kw with
      | Some v => do m <- bind_only r kw; Ok ((p_name p, Some v) :: m)
      | None => if p_dflt p then do m <- bind_only r kw; Ok ((p_name p, None) :: m) else Err TypeError
      end
  end.
Definition py_call {V} (f : func) (pos : list V) (kw : list (param * V)) : res (call V) :=
  do (a, rest) <- bind_pos (filter (is_kind KPos) (f_params f)) pos;
  match rest, filter (is_kind KArgs) (f_params f) with
  | _ :: _, [] => Err TypeError
  | _, _ => do b <- bind_only (filter (is_kind KOnly) (f_params f)) kw; Ok (Call (a ++ b) rest)
  end.

(** inspect.getfullargspec(func).args: bound methods keep their first parameter *)
Definition spec_args (f : func) : list param :=
  (if f_self f then [Par (lit "self") KPos None false] else []) ++ filter (is_kind KPos) (f_params f).

(** pawpaw/_type_magic.py:156-195 invoke_func.  Deleting the missing key
    'return' raises KeyError; p_vargs is a list, so that storing under a
    name raises TypeError. *)
Definition invoke_func {V} (E : penv V) (f : func) (vals : list V) : res (call V) :=
  if f_lambda f then py_call f vals []
  else match f_ret f with
       | None => Err KeyError
       | Some _ =>
           do (pa, l1) <- pair_up E (spec_args f) vals;
           do (pk, l2) <- pair_up E (filter (is_kind KOnly) (f_params f)) l1;
           match l2, filter (is_kind KArgs) (f_params f) with
           | _ :: _, _ :: _ => Err TypeError
           | _, _ => py_call f (map snd pa) pk
           end
       end.
