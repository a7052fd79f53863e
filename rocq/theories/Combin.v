(** Model of the constructors and combinators of pawpaw/ito.py that build Itos
    from Itos, regex matches and spans, of GroupKeys, and of == / hash. *)
From Verif Require Export Util AddHier.

(** -- partition -------------------------------------------------------------- *)

(** ito.py:1139-1151  str_partition; [sep = None] is the argument None.  The
    find method searches in the text of self (ItoStr.str_find). *)
Definition str_partition (h : heap) (i : nat) (sep : option pystr) : out (nat * nat * nat) :=
  match sep with
  | None | Some [] => (h, Err ValueError)
  | Some sp =>
    match str_find (n_f (nd h i)) sp None None with
    | Err e => (h, Err e)
    | Ok k =>
      if k <? 0
      then obind (clone_h (depth_fuel h) h i (Some (h_stop h i)) None None true) (fun h1 b =>
           obind (clone_h (depth_fuel h1) h1 i (Some (h_stop h1 i)) None None true) (fun h2 c =>
           (h2, Ok (i, b, c))))
      else let j := k + h_start h i in
           let k2 := j + zlen sp in
           obind (clone_h (depth_fuel h) h i None (Some j) None false) (fun h1 a =>
           obind (clone_h (depth_fuel h1) h1 i (Some j) (Some k2) None false) (fun h2 b =>
           obind (clone_h (depth_fuel h2) h2 i (Some k2) None None false) (fun h3 c =>
           (h3, Ok (a, b, c)))))
    end
  end.
(** ito.py:1153-1165  str_rpartition *)
Definition str_rpartition (h : heap) (i : nat) (sep : option pystr) : out (nat * nat * nat) :=
  match sep with
  | None | Some [] => (h, Err ValueError)
  | Some sp =>
    match str_rfind (n_f (nd h i)) sp None None with
    | Err e => (h, Err e)
    | Ok k =>
      if k <? 0
      then obind (clone_h (depth_fuel h) h i (Some (h_stop h i)) None None true) (fun h1 b =>
           obind (clone_h (depth_fuel h1) h1 i (Some (h_stop h1 i)) None None true) (fun h2 c =>
           (h2, Ok (b, c, i))))
      else let j := k + h_start h i in
           let k2 := j + zlen sp in
           obind (clone_h (depth_fuel h) h i None (Some j) None false) (fun h1 a =>
           obind (clone_h (depth_fuel h1) h1 i (Some j) (Some k2) None false) (fun h2 b =>
           obind (clone_h (depth_fuel h2) h2 i (Some k2) None None false) (fun h3 c =>
           (h3, Ok (a, b, c)))))
    end
  end.

(** -- gaps --------------------------------------------------------------------- *)

(** the elements of non_gaps: Span | Ito *)
Inductive nongap := NSpan (s : span) | NIto (f : fito).
(** ito.py:230-243  next_ng_span for one element *)
Definition ng_span (basis : pystr) (off : Z) (n : nongap) : res span :=
  match n with
  | NSpan s => offset s off
  | NIto f => if eqb_str (f_str f) basis then Ok (f_start f, f_stop f) else Err ValueError
  end.
(** ito.py:253-269  the while loop and what follows it; [last] is the current span *)
Fixpoint gaps_loop (basis : pystr) (off endd : Z) (desc : option pystr) (zw : bool) (last : span) (ngs : list nongap) : gen fito :=
  let finish := if snd last <? endd then ([ito_of_str basis (Some (snd last)) (Some endd) desc], None) else ([], None) in
  if snd last <? endd then
    match ngs with
    | [] => finish
    | ng :: r =>
      match ng_span basis off ng with
      | Err e => graise e
      | Ok cur =>
        if fst cur <? fst last then graise ValueError
        else if fst cur <? snd last then gaps_loop basis off endd desc zw cur r
        else if fst cur =? snd last then
          if zw then gyield (ito_of_str basis (Some (snd last)) (Some (fst cur)) desc) (gaps_loop basis off endd desc zw cur r)
          else gaps_loop basis off endd desc zw cur r
        else if endd <=? fst cur then finish
        else gyield (ito_of_str basis (Some (snd last)) (Some (fst cur)) desc) (gaps_loop basis off endd desc zw cur r)
      end
    end
  else finish.
(** ito.py:196-269  from_gaps.  src is a str or an Ito (lines 216-226). *)
Definition from_gaps (src : usrc) (ngs : list nongap) (desc : option pystr) (zw : bool) : gen fito :=
  let basis := u_string src in
  let start := u_offset src in
  let endd := u_offset src + u_len src in
  match ngs with
  | [] => if start <? endd then ([ito_of_str basis (Some start) (Some endd) desc], None) else ([], None)
  | ng :: r =>
    match ng_span basis (u_offset src) ng with
    | Err e => graise e
    | Ok last =>
      let rest := gaps_loop basis (u_offset src) endd desc zw last r in
      if start <? fst last
      then gyield (ito_of_str basis (Some start) (Some (Z.min (fst last) endd)) desc) rest
      else rest
    end
  end.

(** new objects for data, in order (a generator of Itos unpacked by add) *)
Definition new_nodes (h : heap) (fs : list fito) : heap * list nat :=
  (h ++ map (fun f => Nd f None []) fs, seq (length h) (length fs)).
(** ito.py:817-841  invert_children *)
Definition invert_children (h : heap) (i : nat) (desc : option pystr) : out nat :=
  obind (clone_h (depth_fuel h) h i None None None false) (fun h1 rv =>
    if ito_len (n_f (nd h1 i)) =? 0 then (h1, Ok rv)
    else match from_gaps (UIto (n_f (nd h1 rv))) (map (fun c => NIto (n_f (nd h1 c))) (n_kids (nd h1 i))) desc false with
         | (_, Some e) => (h1, Err e)
         | (gs, None) => let (h2, cs) := new_nodes h1 gs in
                         obind (kids_add h2 rv cs) (fun h3 _ => (h3, Ok rv))
         end).
(** ito.py:803-815  strip_to_children: the identity returned may be i itself *)
Definition strip_to_children (h : heap) (i : nat) : out nat :=
  match n_kids (nd h i) with
  | [] => (h, Ok i)
  | c0 :: ks => let start := h_start h c0 in
               let stop := h_stop h (last (c0 :: ks) c0) in
               if (h_start h i <? start) || (stop <? h_stop h i)
               then clone_h (depth_fuel h) h i (Some start) (Some stop) None true
               else (h, Ok i)
  end.

(** -- join / adopt --------------------------------------------------------------- *)

(** ito.py:786-800  the loop of join (and of adopt, 741-757) *)
Fixpoint extent (s : pystr) (start stop : Z) (itos : list fito) : res (Z * Z) :=
  match itos with
  | [] => Ok (start, stop)
  | x :: r => if eqb_str s (f_str x)
              then extent s (Z.min start (f_start x)) (Z.max stop (f_stop x)) r
              else Err ValueError
  end.
(** ito.py:766-801  join *)
Definition ito_join (itos : list fito) (desc : option pystr) : res fito :=
  match itos with
  | [] => Err ValueError
  | x :: r => do e <- extent (f_str x) (f_start x) (f_stop x) r;
              Ok (ito_of_str (f_str x) (Some (fst e)) (Some (snd e)) desc)
  end.
(** ito.py:721-764  adopt.  [cached] is the iteration order of the Python set built
    from itos (line 743): any list with the same elements up to ==, without
    ==-duplicates; see SpecCombin.set_order.  Clones are trees as values. *)
Definition ito_adopt (itos : list tree) (cached : list tree) (desc : option pystr) : res tree :=
  do r <- ito_join (map t_f itos) desc;
  do ks <- add_hierarchical_all None r [] cached;
  Ok (T r ks).

(** -- group keys and matches ------------------------------------------------------- *)

(** a group key: int | str *)
Inductive gkey := KInt (i : Z) | KStr (s : pystr).
(** the part of a compiled pattern the code looks at: .groups and .groupindex *)
Record pattern := RE { re_groups : nat; re_index : list (pystr * nat) }.
Fixpoint list_set {A} (l : list A) (i : nat) (x : A) : list A :=
  match l, i with
  | [], _ => []
  | _ :: l', O => x :: l'
  | y :: l', S i' => y :: list_set l' i' x
  end.
(** ito.py:22-29  GroupKeys.preferred *)
Definition gk_preferred (re : pattern) : list gkey :=
  fold_left (fun rv ni => list_set rv (snd ni) (KStr (fst ni))) (re_index re)
            (map (fun i => KInt (Z.of_nat i)) (seq 0 (S (re_groups re)))).
(** ito.py:31-44  GroupKeys.from_filter; the filter is a predicate on keys (the
    match is fixed) *)
Definition gk_from_filter (pref : list gkey) (filt : gkey -> bool) : list gkey :=
  flat_map (fun igk => if filt (snd igk) then [snd igk]
                       else if filt (KInt (Z.of_nat (fst igk))) then [KInt (Z.of_nat (fst igk))] else [])
           (combine (seq 0 (length pref)) pref).
Definition assoc_name (n : pystr) (l : list (pystr * nat)) : option nat :=
  match find (fun e => eqb_str (fst e) n) l with Some e => Some (snd e) | None => None end.
(** ito.py:46-65  GroupKeys.validate *)
Fixpoint gk_validate_loop (re : pattern) (tmp : list (option gkey)) (gks : list gkey) : res unit :=
  match gks with
  | [] => Ok tt
  | gk :: r =>
    do i <- match gk with
            | KStr s => match assoc_name s (re_index re) with Some i => Ok i | None => Err ValueError end
            | KInt z => if (0 <=? z) && (z <? zlen tmp) then Ok (Z.to_nat z) else Err ValueError
            end;
    match nth i tmp None with
    | Some _ => Err ValueError
    | None => gk_validate_loop re (list_set tmp i (Some gk)) r
    end
  end.
Definition gk_validate (re : pattern) (gks : list gkey) : res unit :=
  gk_validate_loop re (repeat None (S (re_groups re))) gks.

(** a regex match, as far as the code looks: .string and .spans(gk) *)
Record rmatch := RM { rm_string : pystr; rm_spans : gkey -> list span }.
(** the sort key of ito.py:117: (start, -stop) *)
Definition cap_le (x y : span) : bool :=
  (fst x <? fst y) || ((fst x =? fst y) && (snd y <=? snd x)).
(** sorted(): a stable sort (insertion from the right keeps equal keys in order) *)
Fixpoint insert_cap (x : span * gkey) (l : list (span * gkey)) : list (span * gkey) :=
  match l with
  | [] => [x]
  | y :: r => if cap_le (fst x) (fst y) then x :: l else y :: insert_cap x r
  end.
Definition sort_caps (l : list (span * gkey)) : list (span * gkey) := fold_right insert_cap [] l.
(** ito.py:116  span_gks *)
Definition captures (m : rmatch) (gks : list gkey) : list (span * gkey) :=
  flat_map (fun gk => map (fun s => (s, gk)) (rm_spans m gk)) gks.
(** ito.py:119-120  pop while the top does not contain the new Ito (top first) *)
Fixpoint pop_until (h : heap) (c : nat) (stack : list nat) : list nat :=
  match stack with
  | [] => []
  | p :: r => if (h_start h c <? h_start h p) || (h_stop h p <? h_stop h c) then pop_until h c r else stack
  end.
(** ito.py:117-127  the loop of from_match *)
Fixpoint fm_loop (h : heap) (s : pystr) (df : gkey -> option pystr) (stack roots : list nat) (caps : list (span * gkey)) : out (list nat) :=
  match caps with
  | [] => (h, Ok roots)
  | (sp, gk) :: r =>
    obind (new_str h s (Some (fst sp)) (Some (snd sp)) (df gk)) (fun h1 c =>
      match pop_until h1 c stack with
      | [] => fm_loop h1 s df [c] (roots ++ [c]) r
      | p :: st => obind (kids_add h1 p [c]) (fun h2 _ => fm_loop h2 s df (c :: p :: st) roots r)
      end)
  end.
(** ito.py:98-129  from_match; desc_func(match, gk) is [df gk] (the match is
    fixed); group_keys given as a list *)
Definition from_match (h : heap) (m : rmatch) (df : gkey -> option pystr) (gks : list gkey) : out (list nat) :=
  fm_loop h (rm_string m) df [] [] (sort_caps (captures m gks)).

(** ito.py:139, 151-160  group_filter: a container of keys or a predicate *)
Inductive gfilter := GFKeys (l : list gkey) | GFPred (p : rmatch -> gkey -> bool).
(** ito.py:170-174  the loop of from_re over the matches finditer yields; also
    returns how many matches were taken from the iterator *)
Fixpoint fr_loop (h : heap) (keys : rmatch -> list gkey) (df : rmatch -> gkey -> option pystr) (limit : option Z) (rv : list nat) (n : nat) (ms : list rmatch) : out (list nat * nat) :=
  match ms with
  | [] => (h, Ok (rv, n))
  | m :: r =>
    obind (from_match h m (df m) (keys m)) (fun h1 l =>
      let rv' := rv ++ l in
      match limit with
      | Some k => if k <=? zlen rv' then (h1, Ok (rv', S n)) else fr_loop h1 keys df limit rv' (S n) r
      | None => fr_loop h1 keys df limit rv' (S n) r
      end)
  end.
(** ito.py:131-180  from_re; [ms] are the matches of re in src *)
Definition from_re (h : heap) (re : pattern) (gf : gfilter) (df : rmatch -> gkey -> option pystr) (limit : option Z) (ms : list rmatch) : out (list nat * nat) :=
  match (match gf with GFKeys l => gk_validate re l | GFPred _ => Ok tt end) with
  | Err e => (h, Err e)
  | Ok _ =>
    let keys m := match gf with GFKeys l => l | GFPred p => gk_from_filter (gk_preferred re) (p m) end in
    obind (fr_loop h keys df limit [] 0 ms) (fun h1 r =>
      (h1, Ok (match limit with
               | None => fst r
               | Some k => if 0 <? k then firstn (Z.to_nat k) (fst r) else []
               end, snd r)))
  end.

(** -- equality ------------------------------------------------------------------------ *)

(** an Ito with its class (a number) and identity *)
Record cito := CI { c_id : nat; c_cls : nat; c_f : fito }.
(** ito.py:520-526  __key: (span, value_func, desc, string); functions compare by identity *)
Definition ito_key (f : fito) : (Z * Z) * option Z * option pystr * pystr :=
  ((f_start f, f_stop f), f_vf f, f_desc f, f_str f).
(** equality of keys, as == on tuples *)
Definition eqb_ostr (a b : option pystr) : bool :=
  match a, b with None, None => true | Some x, Some y => eqb_str x y | _, _ => false end.
Definition eqb_oz (a b : option Z) : bool :=
  match a, b with None, None => true | Some x, Some y => x =? y | _, _ => false end.
Definition key_eqb (f g : fito) : bool :=
  (f_start f =? f_start g) && (f_stop f =? f_stop g) && eqb_oz (f_vf f) (f_vf g) &&
  eqb_ostr (f_desc f) (f_desc g) && eqb_str (f_str f) (f_str g).
(** ito.py:531-553  __eq__; [sub x y]: class x is y or derives from y *)
Definition ito_eq (sub : nat -> nat -> bool) (a b : cito) : bool :=
  if (c_id a =? c_id b)%nat then true
  else if negb (sub (c_cls b) (c_cls a)) then false
  else key_eqb (c_f a) (c_f b).
(** the == operator: CPython do_richcompare asks the right operand first when its
    class is a proper subclass of the left one's *)
Definition op_eq (sub : nat -> nat -> bool) (a b : cito) : bool :=
  if negb (c_cls a =? c_cls b)%nat && sub (c_cls b) (c_cls a) then ito_eq sub b a else ito_eq sub a b.
(** ito.py:528-529  __hash__; [hash] is the hash of key tuples, any function *)
Definition ito_hash (hash : (Z * Z) * option Z * option pystr * pystr -> Z) (a : cito) : Z := hash (ito_key (c_f a)).
