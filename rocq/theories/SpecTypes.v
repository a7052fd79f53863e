(** What the type tests of pawpaw/_type_magic.py should mean. *)
From Verif Require Export TypeMagic.

(** An object of class [c] is of type [t], parameters of generic types aside:
    [sub] is the subclass relation. *)
Inductive member (sub : pycls -> pycls -> bool) (c : pycls) : ty -> Prop :=
| mem_cls k : sub c k = true -> member sub c (TCls k)
| mem_gen o args : sub c o = true -> member sub c (TGen o args)
| mem_union t ts : In t ts -> member sub c t -> member sub c (TUnion ts)
| mem_old t ts : In t ts -> member sub c t -> member sub c (TOld ts).

(** Every object of type [a] is of type [b]. *)
Definition narrower (sub : pycls -> pycls -> bool) (a b : ty) : Prop := forall c, member sub c a -> member sub c b.
(** Some class is named by [t]: [t] itself, its origin, or a member of the union. *)
Inductive named : ty -> pycls -> Prop :=
| nm_cls k : named (TCls k) k
| nm_gen o args : named (TGen o args) o
| nm_union t ts k : In t ts -> named t k -> named (TUnion ts) k.
(** The type is written without typing.Union / typing.Optional. *)
Inductive modern : ty -> Prop :=
| md_cls k : modern (TCls k)
| md_gen o args : modern (TGen o args)
| md_union ts : (forall t, In t ts -> modern t) -> modern (TUnion ts).
(** A single class, with or without parameters. *)
Definition single (t : ty) : Prop := match t with TCls _ | TGen _ _ => True | _ => False end.
Definition hint_ok (P : ty -> Prop) (h : option ty) : Prop := match h with None => True | Some t => P t end.

Definition subclassing (sub : pycls -> pycls -> bool) : Prop :=
  (forall c, sub c c = true) /\ (forall a b c, sub a b = true -> sub b c = true -> sub a c = true).

(** [f] can be called with one argument of each of the types [ps], and the
    result is an [r], as far as its hints tell. *)
Definition serves (sub : pycls -> pycls -> bool) (f : func) (ps : list ty) (r : ty) : Prop :=
  Forall2 (fun p t => hint_ok (narrower sub t) (p_hint p)) (f_params f) ps
  /\ (r = TCls any_cls \/ hint_ok (fun t => narrower sub t r) (f_ret f)).

(** invoke_func: the value [v] suits the parameter [p] *)
Definition suits {V} (E : penv V) (p : param) (v : V) : Prop :=
  exists t, p_hint p = Some t /\ member (v_sub E) (v_type E v) t.
(** Each parameter, in order, takes the first value not yet taken that suits
    it; [m] are the pairs so made, [rest] the values nobody took. *)
Inductive wired {V} (E : penv V) : list param -> list V -> list (param * V) -> list V -> Prop :=
| w_nil l : wired E [] l [] l
| w_take p ps a v b m rest :
    Forall (fun u => ~ suits E p u) a -> suits E p v -> wired E ps (a ++ b) m rest ->
    wired E (p :: ps) (a ++ v :: b) ((p, v) :: m) rest
| w_skip p ps l m rest :
    Forall (fun u => ~ suits E p u) l -> wired E ps l m rest -> wired E (p :: ps) l m rest.

(** What parameter [p] is handed, given the pairs made *)
Definition handed {V} (m : list (param * V)) (p : param) (nv : pystr * option V) : Prop :=
  fst nv = p_name p /\
  match snd nv with
  | Some v => In (p, v) m
  | None => p_dflt p = true /\ forall v, ~ In (p, v) m
  end.
Definition positional (f : func) : list param := filter (is_kind KPos) (f_params f).
Definition keyword_only (f : func) : list param := filter (is_kind KOnly) (f_params f).
Definition star (f : func) : list param := filter (is_kind KArgs) (f_params f).

(** Different values are neither identical nor equal *)
Definition unequal {V} (E : penv V) (l : list V) : Prop :=
  (forall v, v_is E v v = true) /\
  forall a x b y c, l = a ++ x :: b ++ y :: c -> v_is E x y || v_eq E x y = false.
