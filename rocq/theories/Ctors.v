(** Model of the constructors and setters of pawpaw/arborform: which arguments they take, and what they make of them. *)
From Verif Require Export TypeMagic RegexItor Arbor.

(** The classes named in the hints of pawpaw/ito.py:1629-1654: Ito, bool, str, int, regex.Match, typing.Iterable, typing.Sequence.
    (typing.Any is the class 0.) *)
Definition k_ito : pycls := 1. Definition k_bool : pycls := 2. Definition k_str : pycls := 3. Definition k_int : pycls := 4.
Definition k_match : pycls := 5. Definition k_iter : pycls := 6. Definition k_seq : pycls := 7.
(** pawpaw/ito.py:1629-1630 *)
Definition t_itos_sq : ty := TGen k_seq [TCls k_ito].
Definition t_itos_it : ty := TGen k_iter [TCls k_ito].
(** pawpaw/ito.py:1638-1654, windowed_join.py:8, stacked_reduce.py:8-9: the parameters and the result of the functions asked for *)
Definition P_ITO : list ty * ty := ([TCls k_ito], TCls k_bool).
Definition F_ITO_2_VAL : list ty * ty := ([TCls k_ito], TCls any_cls).
Definition F_ITO_2_DESC : list ty * ty := ([TCls k_ito], TCls k_str).
Definition F_ITO_2_IT_ITOS : list ty * ty := ([TCls k_ito], t_itos_it).
Definition F_ITOS_2_ITOS : list ty * ty := ([t_itos_it], t_itos_it).
Definition P_M_GK : list ty * ty := ([TCls k_match; TUnion [TCls k_int; TCls k_str]], TCls k_bool).
Definition F_M_GK_2_DESC : list ty * ty := ([TCls k_match; TUnion [TCls k_int; TCls k_str]], TCls k_str).
Definition F_SQ_ITOS_2_B : list ty * ty := ([t_itos_sq], TCls k_bool).
Definition F_SQ_ITOS_2_ITO : list ty * ty := ([t_itos_sq], TCls k_ito).
Definition P_SQ_ITOS_ITO : list ty * ty := ([t_itos_sq; TCls k_ito], TCls k_bool).

(** What calling a function does, for the kinds of call pawpaw makes. *)
Record meaning := Mean {
  as_pred : heap -> nat -> res bool;
  as_desc : heap -> nat -> res (option pystr);
  as_val : Z;
  as_itor : nat -> strm;
  as_post : strm -> strm;
  as_gpred : rmatch -> gkey -> bool;
  as_gdesc : rmatch -> gkey -> option pystr;
  as_wpred : heap -> list nat -> res bool;
  as_reduce : list nat -> heap -> out nat;
  as_spred : heap -> list nat -> nat -> res bool }.

(** The objects a user may pass: None, a str, a bool, an int, a list of group keys, a compiled pattern with its matches,
    an Itorator, a Postorator, a BoundaryRetention, a function, a callable object of another class, typing.Callable[..],
    a class, anything else.  Not modelled: other containers as group filters, and classes passed where a function is expected.
    Where Errors.parameter_invalid_type is raised, the model gives TypeError; for a callable without a signature (a builtin class) see C122_refuted. *)
Inductive arg :=
| ANone | AStr (s : pystr) | ABool (b : bool) | AInt (z : Z) | AKeys (l : list gkey)
| APat (re : pattern) (fi : pystr -> Z -> Z -> list rmatch) | AItor (t : nat) | APost (q : postor) | ARet (r : retention)
| AFun (f : func) (m : meaning) | ACallable | AAlias | AClass (c : pycls) | AOther.

(** how the object looks to _type_magic: Itorators and Postorators are callable objects *)
Definition as_pobj (a : arg) : pobj :=
  match a with AFun f _ => OFun f | ACallable | AItor _ | APost _ => OCallable | AAlias => OAlias | _ => OOther end.
(** type_magic.functoid_isinstance(a, S), followed by the use of a as a function *)
Definition fun_of (sub : pycls -> pycls -> bool) (a : arg) (S : list ty * ty) : res (option meaning) :=
  do b <- functoid_isinstance sub (as_pobj a) (SSig (fst S) (snd S));
  Ok (if b then match a with AFun _ m => Some m | _ => None end else None).
(** isinstance(a, int): bool is a subclass of int *)
Definition int_of (a : arg) : option Z := match a with AInt z => Some z | ABool b => Some (if b then 1 else 0) | _ => None end.

(** itorator.py:93-96 and postorator.py:15-18: the tag *)
Definition check_tag (tag : arg) : res unit := match tag with ANone | AStr _ => Ok tt | _ => Err TypeError end.
(** limit: int | None (extract.py:20-21, split.py:74-75), desc: str | None (split.py:86-87) *)
Definition limit_of (a : arg) : res (option Z) :=
  match a with ANone => Ok None | _ => match int_of a with Some z => Ok (Some z) | None => Err TypeError end end.
Definition desc_of (a : arg) : res (option pystr) := match a with ANone => Ok None | AStr s => Ok (Some s) | _ => Err TypeError end.

(** itorator.py:12-24 Connector: the itorator and the predicate stored *)
Definition new_connector (sub : pycls -> pycls -> bool) (k : ckind) (itor pred : arg) : res conn :=
  match itor with
  | AItor t =>
      do m <- fun_of sub pred P_ITO;
      match m with
      | Some m => Ok (Con k (PFun (as_pred m)) t)
      | None => match pred with AStr s => Ok (Con k (PDesc s) t) | ANone => Ok (Con k PNoDesc t) | _ => Err TypeError end
      end
  | _ => Err TypeError
  end.
(** itorator.py:85-91 Itorator.wrap *)
Definition new_wrapped (sub : pycls -> pycls -> bool) (src tag : arg) : res transform :=
  do m <- fun_of sub src F_ITO_2_IT_ITOS;
  match m with Some m => do _ <- check_tag tag; Ok (TWrap (as_itor m)) | None => Err TypeError end.
(** itorator.py:111-117 itor.postorator = val *)
Definition set_postorator (val : arg) : res postor :=
  match val with ANone => Ok PostNone | APost q => Ok q | _ => Err TypeError end.
(** postorator.py:7-13 Postorator.wrap *)
Definition new_wrapped_post (sub : pycls -> pycls -> bool) (f tag : arg) : res postor :=
  do m <- fun_of sub f F_ITOS_2_ITOS;
  match m with Some m => do _ <- check_tag tag; Ok (PostWrap (as_post m)) | None => Err TypeError end.
(** reflect.py:8-9 *)
Definition new_reflect (tag : arg) : res transform := do _ <- check_tag tag; Ok TReflect.
(** desc.py:8-15 *)
Definition new_desc (sub : pycls -> pycls -> bool) (desc tag : arg) : res transform :=
  do _ <- check_tag tag;
  match desc with
  | AStr s => Ok (TDesc (fun _ _ => Ok (Some s)))
  | _ => do m <- fun_of sub desc F_ITO_2_DESC; match m with Some m => Ok (TDesc (as_desc m)) | None => Err TypeError end
  end.
(** value_func.py:8-12 *)
Definition new_value_func (sub : pycls -> pycls -> bool) (f tag : arg) : res transform :=
  do _ <- check_tag tag;
  match f with
  | ANone => Ok (TValueFunc None)
  | _ => do m <- fun_of sub f F_ITO_2_VAL; match m with Some m => Ok (TValueFunc (Some (as_val m))) | None => Err TypeError end
  end.
(** filter.py:8-12: None is stored as it is; calling it (filter.py:18) raises TypeError *)
Definition new_filter (sub : pycls -> pycls -> bool) (f tag : arg) : res transform :=
  do _ <- check_tag tag;
  match f with
  | ANone => Ok (TFilter (fun _ _ => Err TypeError))
  | _ => do m <- fun_of sub f P_ITO; match m with Some m => Ok (TFilter (as_pred m)) | None => Err TypeError end
  end.
(** regex_itorator.py:38-47 the group filter: a str is a container of one-letter keys *)
Definition filter_of (sub : pycls -> pycls -> bool) (re : pattern) (gf : arg) : res gfilter :=
  match gf with
  | AKeys l => do _ <- gk_validate re l; Ok (GFKeys l)
  | AStr s => do _ <- gk_validate re (map (fun c => KStr [c]) s); Ok (GFKeys (map (fun c => KStr [c]) s))
  | _ => do m <- fun_of sub gf P_M_GK; match m with Some m => Ok (GFPred (as_gpred m)) | None => Err TypeError end
  end.
(** extract.py:11-30 with regex_itorator.py:13-22 *)
Definition new_extract (sub : pycls -> pycls -> bool) (re limit desc gf tag : arg) : res transform :=
  do _ <- check_tag tag;
  match re with
  | APat re fi =>
      do g <- filter_of sub re gf;
      do n <- limit_of limit;
      match desc with
      | AStr _ => Ok (TExtract re fi n None g)
      | _ => do m <- fun_of sub desc F_M_GK_2_DESC; match m with Some m => Ok (TExtract re fi n (Some (as_gdesc m)) g) | None => Err TypeError end
      end
  | _ => Err TypeError
  end.
(** split.py:19-89: the splitter (the itorator given, or the Extract made for the pattern) and the settings *)
Record splitting := Splitting { sp_by : nat + transform; sp_limit : option Z; sp_keep : retention; sp_zero : bool; sp_desc : option pystr }.
Definition new_split (splitter limit keep zero desc tag : arg) : res splitting :=
  do _ <- check_tag tag;
  do by_ <- match splitter with
            | AItor t => Ok (inl t)
            | APat re fi => Ok (inr (TExtract re fi None (Some (fun _ _ => None)) (GFPred (fun _ k => match k with KInt 0 => true | _ => false end))))
            | _ => Err TypeError
            end;
  do n <- limit_of limit;
  match keep with
  | ARet r => match zero with ABool b => do d <- desc_of desc; Ok (Splitting by_ n r b d) | _ => Err TypeError end
  | _ => Err TypeError
  end.
(** invert.py:8-15, nuco.py:8-10: nothing is tested but the tag *)
Definition new_invert (itor desc tag : arg) : res (arg * arg) := do _ <- check_tag tag; Ok (itor, desc).
Definition new_nuco (itors : list arg) (tag : arg) : res (list arg) := do _ <- check_tag tag; Ok itors.
(** windowed_join.py:10-34: the size, the predicate, the class and the desc stored; the desc is not tested.
    issubclass raises TypeError for what is no class. *)
Record window := Window { w_size : Z; w_pred : heap -> list nat -> res bool; w_class : pycls; w_desc : arg }.
Definition new_window (sub : pycls -> pycls -> bool) (size pred cls desc tag : arg) : res window :=
  do _ <- check_tag tag;
  match int_of size with
  | None => Err TypeError
  | Some n =>
      if n <? 2 then Err ValueError
      else do m <- fun_of sub pred F_SQ_ITOS_2_B;
           match m with
           | None => Err TypeError
           | Some m => match cls with AClass c => if sub c k_ito then Ok (Window n (as_wpred m) c desc) else Err ValueError | _ => Err TypeError end
           end
  end.
(** stacked_reduce.py:11-30 *)
Definition new_stack (sub : pycls -> pycls -> bool) (reduce push pop tag : arg) : res postor :=
  do _ <- check_tag tag;
  do r <- fun_of sub reduce F_SQ_ITOS_2_ITO;
  match r with
  | None => Err TypeError
  | Some r =>
      do p <- fun_of sub push P_SQ_ITOS_ITO;
      match p with
      | None => Err TypeError
      | Some p =>
          match pop with
          | ANone => Ok (PostStack (as_reduce r) (as_spred p) None)
          | _ => do q <- fun_of sub pop P_SQ_ITOS_ITO; match q with Some q => Ok (PostStack (as_reduce r) (as_spred p) (Some (as_spred q))) | None => Err TypeError end
          end
      end
  end.
