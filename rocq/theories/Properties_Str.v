(** Property theorems C01 - C09, C11 - C16 and C32: Span and the text of one
    Ito.  Only statements, closed by [exact], with non-vacuity examples. *)
From Verif Require Import ItoStrFacts5.
Ltac by_compute := unfold fwf; vm_compute; repeat split; first [discriminate | reflexivity | (intros; discriminate) | idtac].

(** ** C01 Span.from_indices normalises like Python slicing *)
Theorem C01_from_indices : forall n a b, 0 <= n ->
  let s := fst (from_indices n a b) in let e := snd (from_indices n a b) in
  0 <= s <= e /\ e <= n /\
  (forall A (x : list A), zlen x = n -> py_slice x (Some s) (Some e) = py_slice x a b) /\
  from_indices n (Some s) (Some e) = (s, e).
Proof. exact span_slice. Qed.
Print Assumptions C01_from_indices.
Example C01_case : from_indices 5 (Some (-3)) (Some 100) = (2, 5) /\ from_indices 5 (Some 4) (Some 1) = (4, 4)
  /\ py_slice (lit "hello") (Some (-3)) (Some 100) = lit "llo".
Proof. vm_compute. auto. Qed.

(** ** C02 Span.offset is a checked translation *)
Theorem C02_offset_value : forall s k r, offset s k = Ok r -> r = (fst s + k, snd s + k).
Proof. exact offset_ok. Qed.
Theorem C02_offset_raises : forall s k,
  (exists e, offset s k = Err e) <-> (k <> 0 /\ (fst s + k < 0 \/ snd s + k < 0)).
Proof. exact offset_err. Qed.
Theorem C02_offset_raises_ValueError : forall s k e, offset s k = Err e -> e = ValueError.
Proof. exact offset_err_kind. Qed.
Theorem C02_offset_compose : forall s j k r t,
  offset s j = Ok r -> offset r k = Ok t -> offset s (j + k) = Ok t.
Proof. exact offset_compose. Qed.
Print Assumptions C02_offset_compose.
Example C02_case : offset (2, 5) (-2) = Ok (0, 3) /\ offset (0, 3) 7 = Ok (7, 10) /\ offset (2, 5) (-3) = Err ValueError.
Proof. vm_compute. auto. Qed.

(** ** C03 construction *)
Theorem C03_of_str : forall s a b d,
  fwf (ito_of_str s a b d) /\ f_str (ito_of_str s a b d) = s /\ f_desc (ito_of_str s a b d) = d /\
  ito_str (ito_of_str s a b d) = py_slice s a b.
Proof. exact (fun s a b d => conj (ito_of_str_wf s a b d) (conj eq_refl (conj eq_refl (ito_of_str_text s a b d)))). Qed.
Theorem C03_of_ito : forall i a b d, fwf i ->
  exists j, ito_of_ito i a b d = Ok j /\ fwf j /\ within j i /\
    ito_str j = py_slice (ito_str i) a b /\ f_desc j = d.
Proof. exact ito_of_ito_facts. Qed.
Print Assumptions C03_of_ito.
Example C03_case : fwf (ito_of_str (lit "__abc__") (Some 2) (Some (-2)) None) /\
  (exists j, ito_of_ito (ito_of_str (lit "__abc__") (Some 2) (Some (-2)) None) (Some (-2)) None None = Ok j /\ ito_str j = lit "bc").
Proof. split; [apply ito_of_str_wf|]. eexists. vm_compute. auto. Qed.

(** ** C04 len, slicing, iteration *)
Theorem C04_len : forall i, fwf i -> ito_len i = zlen (ito_str i).
Proof. exact (fun i H => eq_sym (ito_str_len i H)). Qed.
Theorem C04_slice : forall i a b, fwf i ->
  exists r, getitem_slice i a b None = Ok r /\ within (deref i r) i /\
    ito_str (deref i r) = py_slice (ito_str i) a b /\
    (r = RSelf <-> from_indices (ito_len i) a b = (0, ito_len i)).
Proof. exact getitem_slice_facts. Qed.
(** a step of 1 changes nothing, any other step is rejected *)
Theorem C04_slice_step : forall i a b k,
  getitem_slice i a b (Some k) = if k =? 1 then getitem_slice i a b None else Err IndexError.
Proof. exact getitem_slice_step. Qed.
Theorem C04_slice_identity : forall i a b r, fwf i -> getitem_slice i a b None = Ok r ->
  (r = RSelf <-> (f_start (deref i r) = f_start i /\ f_stop (deref i r) = f_stop i)).
Proof. exact getitem_slice_self. Qed.
Theorem C04_iter_texts : forall i, fwf i -> texts i (ito_iter i) = map (fun c => [c]) (ito_str i).
Proof. exact ito_iter_texts. Qed.
Theorem C04_iter_tiles : forall i, fwf i -> tiles (f_str i) (f_start i) (f_stop i) (map (deref i) (ito_iter i)).
Proof. exact ito_iter_tiles. Qed.
Print Assumptions C04_iter_tiles.
Definition ex1 : fito := FI (lit "__abc__") 2 5 None None.
Example C04_case : fwf ex1 /\ texts ex1 (ito_iter ex1) = [lit "a"; lit "b"; lit "c"] /\
  getitem_slice ex1 (Some 0) None None = Ok RSelf /\ getitem_slice ex1 (Some 1) (Some (-1)) None = Ok (RNew (FI (lit "__abc__") 3 4 None None)).
Proof. by_compute. Qed.

(** ** C05 integer indexing: holds for nonnegative and out-of-range indices *)
Theorem C05_index_nonneg_partial : forall i k, fwf i -> 0 <= k < ito_len i ->
  exists r c, getitem_int i k = Ok r /\ within (deref i r) i /\
    py_index (ito_str i) k = Ok c /\ ito_str (deref i r) = [c].
Proof. exact getitem_int_nonneg. Qed.
Theorem C05_index_out_of_range : forall i k, fwf i -> (k < - ito_len i \/ ito_len i <= k) ->
  getitem_int i k = Err IndexError /\ py_index (ito_str i) k = Err IndexError.
Proof. exact getitem_int_range. Qed.
(** for a negative index the right segment is returned exactly when start = 1 *)
Theorem C05_index_negative_exact : forall i k, fwf i -> - ito_len i <= k < 0 ->
  exists r, getitem_int i k = Ok r /\ within (deref i r) i /\
    ((f_start (deref i r) = f_stop i + k /\ f_stop (deref i r) = f_stop i + k + 1) <-> f_start i = 1).
Proof. exact getitem_int_neg_exact. Qed.
Theorem C05_index_negative_start1 : forall i k, fwf i -> - ito_len i <= k < 0 -> f_start i = 1 ->
  exists r c, getitem_int i k = Ok r /\ py_index (ito_str i) k = Ok c /\ ito_str (deref i r) = [c].
Proof. exact getitem_int_neg_ok. Qed.
(** Ito('abc')[-1] is 'b' *)
Theorem C05_index_refuted : exists i k r, fwf i /\ - ito_len i <= k < 0 /\ getitem_int i k = Ok r /\
  py_index (ito_str i) k = Ok 99 /\ ito_str (deref i r) = [98].
Proof. exists (FI (lit "abc") 0 3 None None), (-1), (RNew (FI (lit "abc") 1 2 None None)). by_compute. Qed.
Print Assumptions C05_index_negative_exact.
Example C05_case : fwf ex1 /\ 0 <= 2 < ito_len ex1 /\ (exists r, getitem_int ex1 2 = Ok r /\ ito_str (deref ex1 r) = lit "c").
Proof. split; [by_compute|]. split; [by_compute|]. eexists. vm_compute. auto. Qed.

(** ** C06 search methods.  The Python side (first / last occurrence) is
    characterised declaratively: *)
Theorem C06_python_find_is_leftmost : forall s sub a b,
  let i := adj_start (zlen s) a in let j := adj_end (zlen s) b in
  (py_find s sub a b = -1 /\ forall k, i <= k -> k + zlen sub <= j -> ~ occ sub s k) \/
  (i <= py_find s sub a b /\ py_find s sub a b + zlen sub <= j /\ occ sub s (py_find s sub a b)
   /\ forall k, i <= k -> k + zlen sub <= j -> occ sub s k -> py_find s sub a b <= k).
Proof. exact py_find_char. Qed.
Theorem C06_python_rfind_is_rightmost : forall s sub a b,
  let i := adj_start (zlen s) a in let j := adj_end (zlen s) b in
  (py_rfind s sub a b = -1 /\ forall k, i <= k -> k + zlen sub <= j -> ~ occ sub s k) \/
  (i <= py_rfind s sub a b /\ py_rfind s sub a b + zlen sub <= j /\ occ sub s (py_rfind s sub a b)
   /\ forall k, i <= k -> k + zlen sub <= j -> occ sub s k -> k <= py_rfind s sub a b).
Proof. exact py_rfind_char. Qed.
(** [search_ok]: sub is nonempty, or the normalised start is not beyond the
    normalised end.  Outside it the code differs (next theorem). *)
Theorem C06_find_partial : forall i sub a b, fwf i -> search_ok i sub a b ->
  str_find i sub a b = Ok (py_find (ito_str i) sub a b).
Proof. exact str_find_eq. Qed.
Theorem C06_rfind_partial : forall i sub a b, fwf i -> search_ok i sub a b ->
  str_rfind i sub a b = Ok (py_rfind (ito_str i) sub a b).
Proof. exact str_rfind_eq. Qed.
Theorem C06_index_partial : forall i sub a b, fwf i -> search_ok i sub a b ->
  str_index i sub a b = py_index_of (ito_str i) sub a b.
Proof. exact str_index_eq. Qed.
Theorem C06_rindex_partial : forall i sub a b, fwf i -> search_ok i sub a b ->
  str_rindex i sub a b = py_rindex_of (ito_str i) sub a b.
Proof. exact str_rindex_eq. Qed.
Theorem C06_count_partial : forall i sub a b, fwf i -> search_ok i sub a b ->
  str_count i sub a b = Ok (py_count (ito_str i) sub a b).
Proof. exact str_count_eq. Qed.
(** exactness of the domain: the complement of search_ok is refuted throughout *)
Theorem C06_search_refuted : forall i a b, fwf i -> adj_end (ito_len i) b < adj_start (ito_len i) a ->
  str_find i [] a b <> Ok (py_find (ito_str i) [] a b) /\
  str_rfind i [] a b <> Ok (py_rfind (ito_str i) [] a b) /\
  str_count i [] a b <> Ok (py_count (ito_str i) [] a b).
Proof. exact str_find_differs. Qed.
Print Assumptions C06_find_partial.
Print Assumptions C06_count_partial.
Print Assumptions C06_search_refuted.
Definition ex2 : fito := FI (lit "xxabcabcx") 2 8 None None.
Example C06_case : fwf ex2 /\ search_ok ex2 (lit "bc") (Some 2) None /\ str_find ex2 (lit "bc") (Some 2) None = Ok 4
  /\ str_rfind ex2 (lit "abc") None (Some (-1)) = Ok 0 /\ str_count ex2 (lit "c") None None = Ok 2
  /\ str_index ex2 (lit "xx") None None = Err ValueError.
Proof. split; [by_compute|]. split; [left; discriminate|]. vm_compute. auto. Qed.
Example C06_refuted_case : fwf ex2 /\ adj_end (ito_len ex2) (Some 2) < adj_start (ito_len ex2) (Some 3).
Proof. by_compute. Qed.

(** ** C07 startswith / endswith / str_eq.  [end_ok]: no affix is empty, or end
    is absent or >= -len *)
Theorem C07_startswith_partial : forall i p a b, fwf i -> end_ok i p b ->
  str_startswith i p a b = Ok (py_startswith (ito_str i) p a b).
Proof. exact str_startswith_eq. Qed.
Theorem C07_endswith_partial : forall i p a b, fwf i -> end_ok i p b ->
  str_endswith i p a b = Ok (py_endswith (ito_str i) p a b).
Proof. exact str_endswith_eq. Qed.
Theorem C07_str_eq : forall i v, fwf i -> str_eq i v = Ok (eqb_str (ito_str i) v).
Proof. exact str_eq_eq. Qed.
Theorem C07_eqb_str_is_equality : forall a b, eqb_str a b = true <-> a = b.
Proof. exact eqb_str_eq. Qed.
Theorem C07_refuted : exists i a b, fwf i /\ str_startswith i (AStr []) a b = Ok false /\ py_startswith (ito_str i) (AStr []) a b = true
   /\ str_endswith i (AStr []) a b = Ok false /\ py_endswith (ito_str i) (AStr []) a b = true.
Proof. exists (FI (lit "abc") 0 3 None None), (Some (-3)), (Some (-4)). by_compute. Qed.
Print Assumptions C07_startswith_partial.
Print Assumptions C07_str_eq.
Example C07_case : fwf ex2 /\ end_ok ex2 (ATuple [lit "zz"; lit "bc"]) (Some (-1)) /\
  str_startswith ex2 (ATuple [lit "zz"; lit "bc"]) (Some 1) (Some (-1)) = Ok true /\ str_endswith ex2 (AStr (lit "cx")) None None = Ok false.
Proof. split; [by_compute|]. split; [left; reflexivity|]. vm_compute. auto. Qed.

(** ** C08 predicates, for every character class *)
Theorem C08_class : forall cls i, fwf i -> str_is_class cls i = py_all_class cls (ito_str i).
Proof. exact str_is_class_eq. Qed.
Theorem C08_isascii : forall cls i, fwf i -> str_isascii cls i = py_all_class_e cls (ito_str i).
Proof. exact str_isascii_eq. Qed.
(** isprintable: true equality only when all characters agree *)
Theorem C08_isprintable_partial : forall cls i v, fwf i -> (forall c, In c (ito_str i) -> cls c = v) ->
  str_isprintable cls i = py_all_class_e cls (ito_str i).
Proof. exact str_isprintable_eq. Qed.
Theorem C08_isprintable_is_any : forall cls i, fwf i ->
  str_isprintable cls i = match ito_str i with [] => true | s => existsb cls s end.
Proof. exact str_isprintable_char. Qed.
Theorem C08_isprintable_refuted : exists cls i, fwf i /\ str_isprintable cls i = true /\ py_all_class_e cls (ito_str i) = false.
Proof. exists (fun c => negb (c =? 10)), (FI [97; 10] 0 2 None None). by_compute. Qed.
(** islower / isupper: [case_agrees] says that in the text every alphabetic
    character is cased and conversely, and the three case classes are disjoint *)
Theorem C08_islower_isupper_partial : forall alpha low upper title i, fwf i ->
  case_agrees alpha low upper title (ito_str i) ->
  str_islower alpha low i = py_islower low upper title (ito_str i) /\
  str_isupper alpha upper i = py_isupper low upper title (ito_str i).
Proof. exact str_islower_eq. Qed.
(** 20013 (a CJK character) is alphabetic and uncased *)
Theorem C08_islower_refuted : exists alpha low upper title i, fwf i /\ alpha 20013 = true /\ low 20013 = false /\ upper 20013 = false /\ title 20013 = false /\
  str_islower alpha low i = false /\ py_islower low upper title (ito_str i) = true.
Proof. exists (fun c => (c =? 97) || (c =? 20013)), (fun c => c =? 97), (fun _ => false), (fun _ => false), (FI [97; 20013] 0 2 None None). by_compute. Qed.
Print Assumptions C08_class.
Print Assumptions C08_islower_isupper_partial.
Example C08_case : fwf (FI [65; 97; 48; 10] 1 3 None None) /\
  case_agrees (fun c => (c =? 65) || (c =? 97)) (fun c => c =? 97) (fun c => c =? 65) (fun _ => false) (ito_str (FI [65; 97; 48; 10] 1 3 None None)) /\
  str_islower (fun c => (c =? 65) || (c =? 97)) (fun c => c =? 97) (FI [65; 97; 48; 10] 1 3 None None) = true.
Proof.
  split; [by_compute|]. split; [|reflexivity].
  intros c Hc. vm_compute in Hc. destruct Hc as [<-|[<-|[]]]; by_compute.
Qed.

(** ** C09 strip.  [chars = Some []] (the empty str) is treated as white space by the code *)
Theorem C09_lstrip_partial : forall isspace i chars, fwf i -> chars <> Some [] ->
  within (deref i (str_lstrip isspace i chars)) i /\
  ito_str (deref i (str_lstrip isspace i chars)) = py_lstrip isspace (ito_str i) chars /\
  (str_lstrip isspace i chars = RSelf <-> py_lstrip isspace (ito_str i) chars = ito_str i).
Proof. exact lstrip_thm. Qed.
Theorem C09_rstrip_partial : forall isspace i chars, fwf i -> chars <> Some [] ->
  within (deref i (str_rstrip isspace i chars)) i /\
  ito_str (deref i (str_rstrip isspace i chars)) = py_rstrip isspace (ito_str i) chars /\
  (ito_len i > 0 -> (str_rstrip isspace i chars = RSelf <-> py_rstrip isspace (ito_str i) chars = ito_str i)).
Proof. exact rstrip_thm. Qed.
Theorem C09_strip_partial : forall isspace i chars, fwf i -> chars <> Some [] ->
  within (deref i (str_strip isspace i chars)) i /\
  ito_str (deref i (str_strip isspace i chars)) = py_strip isspace (ito_str i) chars /\
  (ito_len i > 0 -> (str_strip isspace i chars = RSelf <-> py_strip isspace (ito_str i) chars = ito_str i)).
Proof. exact strip_thm. Qed.
(** ' a'.lstrip('') is ' a'; Ito(' a').str_lstrip('') is 'a' *)
Theorem C09_empty_chars_refuted : exists isspace i, fwf i /\
  ito_str (deref i (str_lstrip isspace i (Some []))) = lit "a" /\ py_lstrip isspace (ito_str i) (Some []) = lit " a".
Proof. exists sp32, (FI (lit " a") 0 2 None None). by_compute. Qed.
(** Ito(' ', 1, 1).str_rstrip() strips nothing but is not self *)
Theorem C09_identity_refuted : exists isspace i j, fwf i /\ str_rstrip isspace i None = RNew j /\ j = i /\ ito_str j = ito_str i.
Proof. exists sp32, (FI (lit " ") 1 1 None None), (FI (lit " ") 1 1 None None). by_compute. Qed.
Print Assumptions C09_lstrip_partial.
Print Assumptions C09_rstrip_partial.
Print Assumptions C09_strip_partial.
Example C09_case : fwf (FI (lit " _ a b _ ") 1 8 None None) /\
  ito_str (deref (FI (lit " _ a b _ ") 1 8 None None) (str_strip sp32 (FI (lit " _ a b _ ") 1 8 None None) (Some (lit "_ ")))) = lit "a b".
Proof. by_compute. Qed.

(** ** C11 split on a separator *)
Theorem C11_split : forall self sep m, fwf self -> sep <> [] ->
  exists rs, str_split self sep m = Ok rs /\
    texts self rs = py_split (ito_str self) sep m /\
    laid_out (f_str self) sep (f_start self) (f_stop self) (map (deref self) rs).
Proof. exact str_split_eq. Qed.
Theorem C11_rsplit : forall self sep m, fwf self -> sep <> [] ->
  exists rs, str_rsplit self sep m = Ok rs /\
    texts self rs = py_rsplit (ito_str self) sep m /\
    laid_out (f_str self) sep (f_start self) (f_stop self) (map (deref self) rs).
Proof. exact str_rsplit_eq. Qed.
Theorem C11_empty_separator : forall self m, str_split self [] m = Err ValueError /\ str_rsplit self [] m = Err ValueError.
Proof. exact (fun self m => conj eq_refl eq_refl). Qed.
Print Assumptions C11_split.
Print Assumptions C11_rsplit.
Example C11_case : exists rs rs', str_split (FI (lit "<a,b,,c>") 1 7 None None) (lit ",") 2 = Ok rs /\
  texts (FI (lit "<a,b,,c>") 1 7 None None) rs = [lit "a"; lit "b"; lit ",c"] /\
  str_rsplit (FI (lit "<a,b,,c>") 1 7 None None) (lit ",") 2 = Ok rs' /\ texts (FI (lit "<a,b,,c>") 1 7 None None) rs' = [lit "a,b"; lit ""; lit "c"].
Proof. do 2 eexists. vm_compute. auto. Qed.

(** ** C12 split on white space: for Itos that start at 0 *)
Theorem C12_split_partial : forall isspace self m fuel, fwf self -> f_start self = 0 ->
  (Z.to_nat (ito_len self) < fuel)%nat ->
  exists rs, str_wsplit fuel isspace self m = Ok rs /\
    map ito_str rs = py_wsplit isspace (ito_str self) m /\ Forall (fun p => within p self) rs.
Proof. exact str_wsplit_eq. Qed.
Theorem C12_rsplit_partial : forall isspace self m fuel, fwf self -> f_start self = 0 ->
  (Z.to_nat (ito_len self) < fuel)%nat ->
  exists rs, str_rwsplit fuel isspace self m = Ok rs /\
    map ito_str rs = py_rwsplit isspace (ito_str self) m /\ Forall (fun p => within p self) rs.
Proof. exact str_rwsplit_eq. Qed.
(** Ito(' ab', 1).str_rsplit() never returns *)
Theorem C12_rsplit_diverges_refuted : fwf bad_rsplit /\ forall fuel, str_rwsplit fuel sp32 bad_rsplit (-1) = Err OutOfFuel.
Proof. split; [by_compute|]. exact bad_rsplit_diverges. Qed.
(** Ito('___a b', 3).str_rsplit() raises IndexError; Ito('___a b c', 3).str_split() misses pieces *)
Theorem C12_refuted :
  str_rwsplit 100 sp32 (FI (lit "___a b") 3 6 None None) (-1) = Err IndexError /\
  exists rs, str_wsplit 100 sp32 (FI (lit "___a b c") 3 8 None None) (-1) = Ok rs /\ map ito_str rs = [lit "a"; lit "c"] /\
    py_wsplit sp32 (ito_str (FI (lit "___a b c") 3 8 None None)) (-1) = [lit "a"; lit "b"; lit "c"].
Proof. split; [by_compute|]. exists [FI (lit "___a b c") 3 4 None None; FI (lit "___a b c") 7 8 None None]. by_compute. Qed.
Print Assumptions C12_split_partial.
Print Assumptions C12_rsplit_partial.
Print Assumptions C12_rsplit_diverges_refuted.
Example C12_case : exists rs, str_wsplit 100 sp32 (FI (lit "  a b  c |") 0 9 None None) 1 = Ok rs /\ map ito_str rs = [lit "a"; lit "b  c "].
Proof. eexists. vm_compute. auto. Qed.

(** ** C13 splitlines *)
Theorem C13_splitlines : forall self keep desc, fwf self ->
  map ito_str (str_splitlines self keep desc) = py_splitlines (ito_str self) keep.
Proof. exact str_splitlines_eq. Qed.
Theorem C13_splitlines_within : forall self keep desc, fwf self ->
  Forall (fun p => within p self /\ f_desc p = desc) (str_splitlines self keep desc).
Proof. exact str_splitlines_within. Qed.
Print Assumptions C13_splitlines.
Example C13_case : map ito_str (str_splitlines (FI [120; 13; 10; 97; 10; 10; 98; 13; 121] 1 8 None None) true None) = [[13; 10]; [97; 10]; [10]; [98; 13]].
Proof. reflexivity. Qed.

(** ** C14 removeprefix / removesuffix *)
Theorem C14_removeprefix : forall i p, fwf i ->
  exists r, str_removeprefix i p = Ok r /\ within (deref i r) i /\ ito_str (deref i r) = py_removeprefix (ito_str i) p.
Proof. exact str_removeprefix_eq. Qed.
Theorem C14_removesuffix_partial : forall i p, fwf i -> p <> [] ->
  exists r, str_removesuffix i p = Ok r /\ within (deref i r) i /\ ito_str (deref i r) = py_removesuffix (ito_str i) p.
Proof. exact str_removesuffix_eq. Qed.
(** removing the empty suffix empties the Ito, always *)
Theorem C14_removesuffix_empty_refuted : forall i, fwf i ->
  exists r, str_removesuffix i [] = Ok r /\ ito_str (deref i r) = [].
Proof. exact str_removesuffix_nil. Qed.
Print Assumptions C14_removeprefix.
Print Assumptions C14_removesuffix_partial.
Example C14_case : exists r r', str_removeprefix ex2 (lit "abc") = Ok r /\ ito_str (deref ex2 r) = lit "abc" /\
  str_removesuffix ex2 (lit "bc") = Ok r' /\ ito_str (deref ex2 r') = lit "abca".
Proof. do 2 eexists. vm_compute. auto. Qed.

(** ** C15 regex split: for any match sequence inside self *)
Theorem C15_split_iter_partial : forall self ms m keep desc, fwf self -> m <= 0 ->
  match_seq (f_start self) (f_stop self) ms ->
  spans_of (split_iter self ms m keep desc) =
    (if keep then up_to_and_with (f_start self) (f_stop self) ms else between (f_start self) (f_stop self) ms) /\
  Forall (fun p => within p self /\ f_desc p = desc) (split_iter self ms m keep desc).
Proof. exact split_iter_spec. Qed.
Theorem C15_keep_seps_tile : forall self ms m desc, fwf self -> m <= 0 -> match_seq (f_start self) (f_stop self) ms ->
  tiles (f_str self) (f_start self) (f_stop self) (split_iter self ms m true desc) /\
  concat (map ito_str (split_iter self ms m true desc)) = ito_str self.
Proof. exact split_iter_tiles. Qed.
(** a positive max_split performs no split at all, whatever its value *)
Theorem C15_max_split_refuted : forall self ms m keep desc, fwf self -> 0 < m -> ms <> [] ->
  split_iter self ms m keep desc = [clone_f self (Some (f_start self)) (Some (f_stop self)) (Some desc)].
Proof. exact split_iter_positive'. Qed.
Print Assumptions C15_split_iter_partial.
Print Assumptions C15_keep_seps_tile.
Example C15_case : fwf ex2 /\ match_seq (f_start ex2) (f_stop ex2) [(2, 2); (3, 5); (7, 8)] /\
  map ito_str (split_iter ex2 [(2, 2); (3, 5); (7, 8)] 0 true None) = [lit ""; lit "abc"; lit "abc"; lit ""] /\
  map ito_str (split_iter ex2 [(3, 5)] 1 false None) = [lit "abcabc"].
Proof. unfold fwf, match_seq. vm_compute. intuition discriminate. Qed.

(** ** C16 to_line_col *)
Theorem C16_to_line_col : forall i eol, fwf i -> eol <> [] -> no_self_overlap eol ->
  fst (to_line_col i eol) = 1 + zlen (occs_before eol (f_str i) (f_start i)) /\
  (forall k, occ eol (f_str i) k -> k + zlen eol <= f_start i ->
     (forall j, occ eol (f_str i) j -> j + zlen eol <= f_start i -> j <= k) ->
     snd (to_line_col i eol) = 1 + (f_start i - (k + zlen eol))) /\
  ((forall k, occ eol (f_str i) k -> ~ k + zlen eol <= f_start i) -> snd (to_line_col i eol) = 1 + f_start i).
Proof. exact to_line_col_eq. Qed.
Theorem C16_to_line_col_regex : forall i ms,
  fst (to_line_col_re i ms) = 1 + zlen ms /\
  (ms = [] -> snd (to_line_col_re i ms) = 1 + f_start i) /\
  (forall ms' m, ms = ms' ++ [m] -> snd (to_line_col_re i ms) = 1 + (f_start i - snd m)).
Proof. exact to_line_col_re_eq. Qed.
(** the hypothesis no_self_overlap is needed: for an eol that overlaps itself
    the overlapping occurrence is not counted *)
Example C16_self_overlap : to_line_col (FI (lit "axaxab") 5 6 None None) (lit "axa") = (2, 1) /\
  zlen (occs_before (lit "axa") (lit "axaxab") 5) = 2.
Proof. by_compute. Qed.
Print Assumptions C16_to_line_col.
Example C16_case : to_line_col (FI [97; 13; 10; 98; 13; 10; 99; 100] 7 8 None None) [13; 10] = (3, 2) /\ no_self_overlap [13; 10].
Proof. split; [reflexivity|]. intros k Hk. assert (k = 1) as -> by (change (zlen [13; 10]) with 2 in Hk; lia). vm_compute. discriminate. Qed.

(** ** C32 from_substrings *)
Theorem C32_from_substrings : forall s j desc subs i, 0 <= i -> i <= j -> j <= zlen s ->
  let r := from_substrings s i j subs desc in
  (snd r = None /\ leftmost_chain s i j subs (fst r)) \/
  (snd r = Some ValueError /\ exists sub rest done, subs = done ++ sub :: rest /\ leftmost_chain s i j done (fst r) /\
      let i' := match rev (fst r) with [] => i | x :: _ => f_stop x end in
      forall k, i' <= k -> k + zlen sub <= j -> ~ occ sub s k).
Proof. exact from_substrings_spec. Qed.
Print Assumptions C32_from_substrings.
(** each has the given descriptor, and no value function *)
Theorem C32_descriptor : forall s desc subs i j x, In x (fst (from_substrings s i j subs desc)) -> f_str x = s /\ f_desc x = desc /\ f_vf x = None.
Proof.
  intros s desc subs. induction subs as [|sub subs IH]; intros i j x; cbn [from_substrings]; [intros []|].
  destruct (py_index_of s sub (Some i) (Some j)); [|intros []]. cbn [fst]. intros [<-|I]; [repeat split|exact (IH _ _ _ I)].
Qed.
Print Assumptions C32_descriptor.
Example C32_case : exists l, from_substrings (lit "abcabc") 1 6 [lit "b"; lit "ab"; lit ""] None = (l, None) /\ spans_of l = [(1, 2); (3, 5); (5, 5)] /\
  snd (from_substrings (lit "abcabc") 1 6 [lit "b"; lit "zb"] None) = Some ValueError.
Proof. eexists. vm_compute. auto. Qed.
