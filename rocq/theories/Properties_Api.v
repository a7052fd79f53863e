(** Property theorems about smaller parts of the API of Ito. *)
From Verif Require Import SpecApi PyFacts SpecPlace ItoStrFacts PlaceFacts ApiFacts Properties_Str Properties_Format Properties_Combin.

(** ** C105 from_spans *)
(** one Ito per span, in the order given, with the text the slice has, with the descriptor given *)
Theorem C105_of_str : forall src spans desc,
  Forall2 (fun s x => fwf x /\ f_str x = src /\ f_desc x = desc /\ ito_str x = py_slice src (fst s) (snd s)) spans (from_spans_str src spans desc).
Proof. exact spans_str. Qed.
(** within an Ito: slices of its text, Itos over its string within its span; never an exception *)
Theorem C105_of_ito : forall src spans desc, fwf src -> exists l, from_spans_ito src spans desc = (l, None) /\
  Forall2 (fun s x => fwf x /\ within x src /\ f_desc x = desc /\ ito_str x = py_slice (ito_str src) (fst s) (snd s)) spans l.
Proof. exact spans_ito. Qed.
(** spans inside the basis are kept as they are, relative to its start; they may overlap and come in any order *)
Theorem C105_spans : forall src spans desc, fwf src -> Forall (fun s => 0 <= fst s <= snd s /\ snd s <= ito_len src) spans ->
  from_spans_ito src (map (fun s => (Some (fst s), Some (snd s))) spans) desc = (map (fun s => FI (f_str src) (f_start src + fst s) (f_start src + snd s) desc None) spans, None).
Proof.
  intros src spans desc W F. induction F as [|s r H F IH]; [reflexivity|]. cbn [map from_spans_ito]. rewrite IH. cbn [fst snd].
  assert (E : ito_of_ito src (Some (fst s)) (Some (snd s)) desc = Ok (FI (f_str src) (f_start src + fst s) (f_start src + snd s) desc None)).
  { unfold ito_of_ito. assert (Ei : from_indices (ito_len src) (Some (fst s)) (Some (snd s)) = (fst s, snd s)).
    { unfold from_indices. destruct (Z.leb_spec 0 (fst s)); [|lia]. destruct (Z.leb_spec 0 (snd s)); [|lia]. f_equal; lia. }
    rewrite Ei. destruct W as [W1 W2]. rewrite offset_nonneg by (cbn [fst snd]; lia). cbn [bind fst snd]. f_equal. f_equal; lia. }
  rewrite E. reflexivity.
Qed.
(** every span, in any form: exactly where the slice of the basis stands *)
Theorem C105_place : forall src spans desc,
  (fwf src -> from_spans_ito src spans desc =
    (map (fun s => let a := clipped (ito_len src) 0 (fst s) in let b := clipped (ito_len src) (ito_len src) (snd s) in
                   FI (f_str src) (f_start src + a) (f_start src + Z.max a b) desc None) spans, None)) /\
  (forall t, from_spans_str t spans desc =
    map (fun s => let a := clipped (zlen t) 0 (fst s) in let b := clipped (zlen t) (zlen t) (snd s) in FI t a (Z.max a b) desc None) spans).
Proof.
  intros src spans desc. split.
  - intros H. induction spans as [|s r IH]; [reflexivity|]. cbn [from_spans_ito map]. rewrite (ito_of_ito_ok src (fst s) (snd s) desc H), IH.
    rewrite from_indices_clipped by (apply ito_len_nonneg; exact H). reflexivity.
  - intros t. apply map_ext. intros s. unfold ito_of_str. rewrite from_indices_clipped by apply zlen_nonneg. reflexivity.
Qed.
Print Assumptions C105_of_str.
Print Assumptions C105_place.
Print Assumptions C105_of_ito.
Print Assumptions C105_spans.
Example C105_case : fwf ex1 /\ map ito_str (fst (from_spans_ito ex1 [(Some 1, Some 3); (None, None); (Some (-2), Some (-1))] (Some (lit "x")))) = [lit "bc"; lit "abc"; lit "b"] /\
  map ito_str (from_spans_str (lit "abcdef") [(Some 4, None); (Some 0, Some 2); (Some 1, Some 9)] None) = [lit "ef"; lit "ab"; lit "bcdef"].
Proof. unfold fwf. vm_compute. intuition discriminate. Qed.

(** ** C106 repr *)
(** the class, the span, repr of the descriptor (of the empty string if there is none), repr of the text *)
Theorem C106_repr : forall E cls i a b, fmt_env_ok E -> fwf i -> fe_int E (f_start i) [] = Ok a -> fe_int E (f_stop i) [] = Ok b ->
  ito_repr E cls i = Ok (cls ++ lit "(span=(" ++ a ++ lit ", " ++ b ++ lit "), desc=" ++ fe_repr E (match f_desc i with Some d => d | None => [] end) ++
    lit ", substr=" ++ fe_repr E (zsub (f_str i) (f_start i) (f_stop i)) ++ lit ")").
Proof. exact repr_text. Qed.
Print Assumptions C106_repr.
Example C106_case : fmt_env_ok ascii_fmt /\ fwf fdemo /\ ito_repr ascii_fmt (lit "Ito") fdemo = Ok (lit "Ito(span=(3, 10), desc='word', substr='example')").
Proof. split; [exact ascii_fmt_ok|]. split; [exact fdemo_wf|]. vm_compute. reflexivity. Qed.

(** ** C107 value *)
(** whatever is created, assigned, cloned or loaded: no assignment fails, and value() of each Ito is its text if it has no
    value function, else that function applied to this very Ito; it has the function assigned last, a clone at first that
    of its original, other new Itos none *)
Theorem C107_value : forall l, existing 0 l -> exists o, vrun [] l = (o, Ok tt) /\ length o = length (funcs [] l) /\
  forall i, (i < length o)%nat -> value o i = value_with (func_of (funcs [] l) i) i /\ vo_func (vo o i) = func_of (funcs [] l) i.
Proof. exact value_history. Qed.
Print Assumptions C107_value.
Definition vdemo : list vop := [VNew; VSet 0 (Some 7%nat); VClone 0; VSet 0 None; VSet 0 None; VLoad 1; VNew; VSet 3 (Some 8%nat); VSet 3 (Some 9%nat); VClone 3; VSet 3 None].
Example C107_case : existing 0 vdemo /\ map (value (fst (vrun [] vdemo))) [0; 1; 2; 3; 4]%nat = [VText 0; VCall 7 1; VText 2; VText 3; VCall 9 4].
Proof. split; [vm_compute; repeat split; lia|reflexivity]. Qed.

(** ** C108 splitting and joining *)
(** the pieces of an Ito, put together by Ito.join, are a span of the same text at the same place *)
Theorem C108_split : forall self ms m desc desc', fwf self -> m <= 0 -> match_seq (f_start self) (f_stop self) ms ->
  ito_join (split_iter self ms m true desc) desc' = Ok (FI (f_str self) (f_start self) (f_stop self) desc' None).
Proof.
  intros self ms m desc desc' W Hm H. destruct (C15_keep_seps_tile self ms m desc W Hm H) as [T _]. destruct W as [W1 W2]. apply join_tiles; [lia|lia| |exact T].
  intros N. destruct (C15_split_iter_partial self ms m true desc (conj W1 W2) Hm H) as [E _]. rewrite N in E. destruct ms; discriminate E.
Qed.
(** and so the characters *)
Theorem C108_chars : forall self desc, fwf self -> 0 < ito_len self ->
  ito_join (map (deref self) (ito_iter self)) desc = Ok (FI (f_str self) (f_start self) (f_stop self) desc None).
Proof.
  intros self desc W L. pose proof (C04_iter_tiles self W) as T. pose proof W as [W1 W2]. apply join_tiles; [lia|lia| |exact T].
  intros N. rewrite N in T. cbn [tiles] in T. unfold ito_len in L. lia.
Qed.
(** any pieces that tile a span *)
Theorem C108_join : forall s a b l desc, 0 <= a -> b <= zlen s -> l <> [] -> tiles s a b l -> ito_join l desc = Ok (FI s a b desc None).
Proof. exact join_tiles. Qed.
Print Assumptions C108_split.
Print Assumptions C108_chars.
Print Assumptions C108_join.
Example C108_case : fwf ex2 /\ match_seq (f_start ex2) (f_stop ex2) [(2, 2); (3, 5); (7, 8)] /\ ito_join (split_iter ex2 [(2, 2); (3, 5); (7, 8)] 0 true None) (Some (lit "x")) = Ok (FI (f_str ex2) (f_start ex2) (f_stop ex2) (Some (lit "x")) None).
Proof. unfold fwf, match_seq. vm_compute. intuition discriminate. Qed.
