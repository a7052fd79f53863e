(** Property theorems C38 - C40 and C62: the scanning utilities. *)
From Verif Require Import UtilFacts2.

(** ** C38 escape / descape *)
Theorem C38_round_trip : forall v, descape (escape v) = Ok v.
Proof. exact descape_escape. Qed.
(** descape drops each escape and keeps the next character; ValueError exactly for a dangling escape *)
Theorem C38_descape : forall v, (forall w, descape v = Ok w <-> unescapes 92 v w) /\
  (descape v = Err ValueError <-> forall w, ~ unescapes 92 v w).
Proof. exact descape_exact. Qed.
Print Assumptions C38_descape.
Theorem C38_no_unescaped : forall v,
  (forall k, ~ unescaped_at 92 (lit "\[]/,{}") (escape v) 0 k) /\ literal_after 92 (escape v).
Proof. exact escape_clean. Qed.
Theorem C38_list : forall vs, vs <> [] ->
  exists ps, split_unescaped (UStr (py_join [44] (map escape vs))) [44] [92] None None = (ps, None) /\
             map (fun p => descape (u_text p)) ps = map Ok vs.
Proof. exact escape_list_round. Qed.
Print Assumptions C38_list.
Example C38_case : escape (lit "a,b\[c") = lit "a\,b\\\[c" /\ descape (lit "a\") = Err ValueError /\
  split_unescaped (UStr (py_join [44] (map escape [lit "a,b"; lit "\"; []]))) [44] [92] None None =
    ([UStr (lit "a\,b"); UStr (lit "\\"); UStr []], None).
Proof. vm_compute. auto. Qed.

(** ** C39 find_unescaped / split_unescaped *)
Theorem C39_find_unescaped : forall u chars e a b, u_wf u -> chars <> [] ->
  let t := u_text u in
  let x := fst (from_indices (zlen t) a b) in
  let y := snd (from_indices (zlen t) a b) in
  let r := find_unescaped u chars [e] a b in
  positions (unescaped_at e chars t x) x y (fst r) /\
  (snd r = None \/ snd r = Some ValueError) /\
  (snd r = None <-> literal_after e (py_slice t a b)).
Proof. exact find_unescaped_spec. Qed.
Theorem C39_split_pieces : forall u c e a b, u_wf u ->
  let t := u_text u in
  let ys := fst (find_unescaped u [c] [e] a b) in
  let r := split_unescaped u [c] [e] a b in
  (literal_after e (py_slice t a b) -> snd r = None /\ map u_text (fst r) = cut t 0 ys) /\
  (~ literal_after e (py_slice t a b) -> snd r = Some ValueError) /\
  (literal_after e (py_slice t a b) -> Forall (fun p => u_part p u) (fst r)).
Proof. exact split_unescaped_pieces. Qed.
Theorem C39_split_join : forall u c e a b, u_wf u -> literal_after e (py_slice (u_text u) a b) ->
  py_join [c] (map u_text (fst (split_unescaped u [c] [e] a b))) = u_text u.
Proof. exact split_unescaped_join. Qed.
Theorem C39_split_no_unescaped : forall u c e, u_wf u -> literal_after e (u_text u) ->
  Forall (fun p => forall k, ~ unescaped_at e [c] (u_text p) 0 k) (fst (split_unescaped u [c] [e] None None)).
Proof. exact split_unescaped_clean. Qed.
Print Assumptions C39_split_no_unescaped.
Example C39_case : let i := UIto (ito_of_str (lit "__a,b\,c,d") (Some 2) None None) in
  u_wf i /\ literal_after 92 (u_text i) /\ find_unescaped i [44] [92] None None = ([1; 6], None) /\
  map u_text (fst (split_unescaped i [44] [92] None None)) = [lit "a"; lit "b\,c"; lit "d"] /\
  find_unescaped (UStr (lit "a,b\")) [44] [92] None None = ([1], Some ValueError).
Proof. vm_compute. repeat split; discriminate. Qed.

(** ** C40 find_balanced *)
Theorem C40_find_balanced : forall u l r e a b, u_wf u -> l <> r ->
  let t := u_text u in
  let x := fst (from_indices (zlen t) a b) in
  let y := snd (from_indices (zlen t) a b) in
  let res := find_balanced u [l] [r] [e] a b in
  exists items, delimiters e l r t x y items /\
    (snd res = None \/ snd res = Some ValueError) /\
    (snd res = None <-> literal_after e (py_slice t a b) /\ exists segs, outermost items segs) /\
    (forall segs, snd res = None -> outermost items segs ->
       map u_text (fst res) = map (fun s => zsub t (fst s) (snd s + 1)) segs /\
       Forall (fun p => u_part p u) (fst res) /\
       Forall (fun s => fst s < snd s /\ zget t (fst s) = Some l /\ zget t (snd s) = Some r) segs /\
       StronglySorted (fun s1 s2 => snd s1 < fst s2) segs).
Proof. exact find_balanced_spec. Qed.
Theorem C40_find_balanced_same : forall u l e a b, u_wf u ->
  let t := u_text u in
  let x := fst (from_indices (zlen t) a b) in
  let y := snd (from_indices (zlen t) a b) in
  let res := find_balanced u [l] [l] [e] a b in
  exists ys, positions (unescaped_at e [l] t x) x y ys /\
    (snd res = None \/ snd res = Some ValueError) /\
    (snd res = None <-> literal_after e (py_slice t a b) /\ exists segs, paired ys segs) /\
    (forall segs, snd res = None -> paired ys segs ->
       map u_text (fst res) = map (fun s => zsub t (fst s) (snd s + 1)) segs /\
       Forall (fun p => u_part p u) (fst res) /\
       Forall (fun s => fst s < snd s /\ zget t (fst s) = Some l /\ zget t (snd s) = Some l) segs /\
       StronglySorted (fun s1 s2 => snd s1 < fst s2) segs).
Proof. exact find_balanced_same. Qed.
Print Assumptions C40_find_balanced.
Print Assumptions C40_find_balanced_same.
Example C40_case : let i := UIto (ito_of_str (lit "__(a(b)\))c(d)") (Some 2) None None) in
  u_wf i /\ map u_text (fst (find_balanced i [40] [41] [92] None None)) = [lit "(a(b)\))"; lit "(d)"] /\
  snd (find_balanced (UStr (lit "(()")) [40] [41] [92] None None) = Some ValueError /\
  outermost [(0, true); (2, true); (4, false); (7, false); (9, true); (11, false)] [(0, 7); (9, 11)].
Proof.
  split; [vm_compute; repeat split; discriminate|]. split; [reflexivity|]. split; [reflexivity|].
  apply (out_cons 0 [(2, true); (4, false)] 7 [(9, true); (11, false)]).
  - apply (bal_wrap 2 [] 4 []); constructor.
  - apply (out_cons 9 [] 11 []); constructor.
Qed.

(** ** C62 find_escapes.  The positions are given in the coordinates of the
    underlying string (find_unescaped gives them relative to src). *)
Theorem C62_find_escapes : forall u e a b, u_wf u ->
  let x := fst (from_indices (zlen (u_text u)) a b) in
  let y := snd (from_indices (zlen (u_text u)) a b) in
  exists ys, find_escapes u [e] a b = (map (fun k => k + u_offset u) ys, None) /\
             positions (lone_escape e (u_text u) x y) x y ys.
Proof. exact find_escapes_spec. Qed.
Print Assumptions C62_find_escapes.
Example C62_case : u_wf (UIto (ito_of_str (lit "__\a\\b\\\c\") (Some 2) None None)) /\
  find_escapes (UIto (ito_of_str (lit "__\a\\b\\\c\") (Some 2) None None)) [92] None None = ([2; 9], None) /\
  find_escapes (UStr (lit "\a\\b\\\c\")) [92] None None = ([0; 7], None).
Proof. vm_compute. repeat split; discriminate. Qed.
