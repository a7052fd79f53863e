(** Which arguments the constructors of arborform are documented to take. *)
From Verif Require Export SpecTypes SpecArbor Ctors.

(** [f] may be passed where a function of parameters and result [S] is asked for: it has as many parameters, and every
    hint, if there is one, names a class of the type asked for. *)
Definition hinted (sub : pycls -> pycls -> bool) (t : ty) (h : option ty) : Prop :=
  t = TCls any_cls \/ hint_ok (fun h => exists k, named h k /\ member sub k t) h.
Definition answers (sub : pycls -> pycls -> bool) (S : list ty * ty) (f : func) : Prop :=
  Forall2 (fun p t => hinted sub t (p_hint p)) (f_params f) (fst S) /\ hinted sub (snd S) (f_ret f).
(** the argument is such a function, and [m] is what calling it does *)
Inductive plays (sub : pycls -> pycls -> bool) (S : list ty * ty) : arg -> meaning -> Prop :=
| plays_i f m : answers sub S f -> plays sub S (AFun f m) m.
(** no hint of the function is a typing.Union or typing.Optional *)
Definition plain (a : arg) : Prop :=
  match a with AFun f _ => Forall (fun p => hint_ok modern (p_hint p)) (f_params f) /\ hint_ok modern (f_ret f) | _ => True end.

(** str | None *)
Inductive text_or_none : arg -> option pystr -> Prop := ton_none : text_or_none ANone None | ton_str s : text_or_none (AStr s) (Some s).
Definition tagged (a : arg) : Prop := exists d, text_or_none a d.
(** int (True and False are ints), int | None *)
Inductive whole : arg -> Z -> Prop := wh_int z : whole (AInt z) z | wh_true : whole (ABool true) 1 | wh_false : whole (ABool false) 0.
Inductive limit_arg : arg -> option Z -> Prop := la_none : limit_arg ANone None | la_int a z : whole a z -> limit_arg a (Some z).

(** the outcome of a constructor: what is made is as described, and when it raises, then it raises TypeError and nothing is described *)
Definition makes {A} (r : res A) (R : A -> Prop) : Prop :=
  match r with Ok x => R x | Err e => e = TypeError /\ forall x, ~ R x end.

(** Types.P_ITO | str | None, as the predicate of a connector *)
Inductive connector_pred (sub : pycls -> pycls -> bool) : arg -> (heap -> nat -> res bool) -> Prop :=
| cp_fun a m : plays sub P_ITO a m -> connector_pred sub a (as_pred m)
| cp_desc s p : (forall h i, exists b, p h i = Ok b /\ (b = true <-> f_desc (n_f (nd h i)) = Some s)) -> connector_pred sub (AStr s) p
| cp_none p : (forall h i, exists b, p h i = Ok b /\ (b = true <-> f_desc (n_f (nd h i)) = None)) -> connector_pred sub ANone p.
Inductive connector (sub : pycls -> pycls -> bool) (k : ckind) (itor pred : arg) : conn -> Prop :=
| cn t p : itor = AItor t -> connector_pred sub pred (eval_pred p) -> connector sub k itor pred (Con k p t).
(** Types.F_ITO_2_IT_ITOS; Types.F_ITOS_2_ITOS; str | Types.F_ITO_2_DESC; Types.F_ITO_2_VAL | None; Types.P_ITO *)
Inductive wrapped_itor sub (f tag : arg) : transform -> Prop := wi m : plays sub F_ITO_2_IT_ITOS f m -> tagged tag -> wrapped_itor sub f tag (TWrap (as_itor m)).
Inductive wrapped_post sub (f tag : arg) : postor -> Prop := wp m : plays sub F_ITOS_2_ITOS f m -> tagged tag -> wrapped_post sub f tag (PostWrap (as_post m)).
Inductive desc_made sub (d tag : arg) : transform -> Prop :=
| dm_str s : d = AStr s -> tagged tag -> desc_made sub d tag (TDesc (fun _ _ => Ok (Some s)))
| dm_fun m : plays sub F_ITO_2_DESC d m -> tagged tag -> desc_made sub d tag (TDesc (as_desc m)).
Inductive value_made sub (f tag : arg) : transform -> Prop :=
| vm_none : f = ANone -> tagged tag -> value_made sub f tag (TValueFunc None)
| vm_fun m : plays sub F_ITO_2_VAL f m -> tagged tag -> value_made sub f tag (TValueFunc (Some (as_val m))).
Inductive filter_made sub (f tag : arg) : transform -> Prop := fm_fun m : plays sub P_ITO f m -> tagged tag -> filter_made sub f tag (TFilter (as_pred m)).
(** Itorator | regex.Pattern, int | None, BoundaryRetention, bool, str | None *)
Inductive split_made (splitter limit keep zero desc tag : arg) : splitting -> Prop :=
| sm_itor t n r b d : splitter = AItor t -> limit_arg limit n -> keep = ARet r -> zero = ABool b -> text_or_none desc d -> tagged tag ->
    split_made splitter limit keep zero desc tag (Splitting (inl t) n r b d)
| sm_re re fi n r b d : splitter = APat re fi -> limit_arg limit n -> keep = ARet r -> zero = ABool b -> text_or_none desc d -> tagged tag ->
    split_made splitter limit keep zero desc tag (Splitting (inr (it_tr (regex_itor re fi))) n r b d).
(** F_SQ_ITOS_2_ITO, P_SQ_ITOS_ITO, P_SQ_ITOS_ITO | None *)
Inductive stack_made sub (reduce push pop tag : arg) : postor -> Prop :=
| st_two r p : plays sub F_SQ_ITOS_2_ITO reduce r -> plays sub P_SQ_ITOS_ITO push p -> pop = ANone -> tagged tag ->
    stack_made sub reduce push pop tag (PostStack (as_reduce r) (as_spred p) None)
| st_three r p q : plays sub F_SQ_ITOS_2_ITO reduce r -> plays sub P_SQ_ITOS_ITO push p -> plays sub P_SQ_ITOS_ITO pop q -> tagged tag ->
    stack_made sub reduce push pop tag (PostStack (as_reduce r) (as_spred p) (Some (as_spred q))).
(** a collection of keys of groups of the pattern, none twice (a str is the collection of its letters), or a P_M_GK *)
Inductive filter_arg sub (re : pattern) : arg -> gfilter -> Prop :=
| fa_keys l gs : Forall2 (denotes re) l gs -> NoDup gs -> filter_arg sub re (AKeys l) (GFKeys l)
| fa_text s gs : Forall2 (denotes re) (map (fun c => KStr [c]) s) gs -> NoDup gs -> filter_arg sub re (AStr s) (GFKeys (map (fun c => KStr [c]) s))
| fa_fun a m : plays sub P_M_GK a m -> filter_arg sub re a (GFPred (as_gpred m)).
(** str | F_M_GK_2_DESC, as the desc of an Extract *)
Inductive gdesc_arg sub : arg -> (rmatch -> gkey -> option pystr) -> Prop :=
| ga_str s : gdesc_arg sub (AStr s) (fun _ _ => Some s)
| ga_fun a m : plays sub F_M_GK_2_DESC a m -> gdesc_arg sub a (as_gdesc m).
(** the window size, the predicate and the class of a WindowedJoin: int, F_SQ_ITOS_2_B, a subclass of Ito, str | None *)
Inductive window_made sub (size pred cls desc tag : arg) : window -> Prop :=
| wn z m c d : whole size z -> 2 <= z -> plays sub F_SQ_ITOS_2_B pred m -> cls = AClass c -> sub c k_ito = true -> text_or_none desc d -> tagged tag ->
    window_made sub size pred cls desc tag (Window z (as_wpred m) c desc).
(** a compiled pattern, int | None, str | F_M_GK_2_DESC, the group filter *)
Inductive extract_made sub (re limit desc gf tag : arg) : transform -> Prop :=
| xm r fi n d g : re = APat r fi -> limit_arg limit n -> gdesc_arg sub desc d -> filter_arg sub r gf g -> tagged tag ->
    extract_made sub re limit desc gf tag (TExtract r fi n (Some d) g).
(** Postorator | F_ITOS_2_ITOS | None *)
Inductive post_made sub (val : arg) : postor -> Prop :=
| pm_none : val = ANone -> post_made sub val PostNone
| pm_post q : val = APost q -> post_made sub val q
| pm_fun m : plays sub F_ITOS_2_ITOS val m -> post_made sub val (PostWrap (as_post m)).
