(** Property theorems C10, C27 - C31, C33, C34, C37: partition, construction from
    matches and gaps, join / adopt, equality.  Only statements, closed by [exact],
    with examples. *)
From Verif Require Import CombinFacts CombinFacts2 CombinFacts3 CombinFacts4 HierHeap6 Properties_Heap Properties_Hier.

(** ** C10 partition *)
(** separator present: the texts of str.partition; three fresh parentless childless Itos that tile i *)
Theorem C10_partition_found_partial : forall h i sp, hwf h -> (i < length h)%nat -> sp <> [] -> find_in sp (ito_str (n_f (nd h i))) <> None ->
  exists h' a b c, str_partition h i (Some sp) = (h', Ok (a, b, c)) /\
    extends h h' /\ hwf h' /\ fresh_leaf h h' a /\ fresh_leaf h h' b /\ fresh_leaf h h' c /\
    (ito_str (n_f (nd h' a)), ito_str (n_f (nd h' b)), ito_str (n_f (nd h' c))) = py_partition (ito_str (n_f (nd h i))) sp /\
    h_start h' a = h_start h i /\ h_stop h' a = h_start h' b /\ h_stop h' b = h_start h' c /\ h_stop h' c = h_stop h i /\
    Forall (fun x => f_str (n_f (nd h' x)) = h_string h i /\ f_desc (n_f (nd h' x)) = f_desc (n_f (nd h i)) /\ f_vf (n_f (nd h' x)) = f_vf (n_f (nd h i))) [a; b; c].
Proof. exact (partition_found false). Qed.
Theorem C10_rpartition_found_partial : forall h i sp, hwf h -> (i < length h)%nat -> sp <> [] -> rfind_in sp (ito_str (n_f (nd h i))) <> None ->
  exists h' a b c, str_rpartition h i (Some sp) = (h', Ok (a, b, c)) /\
    extends h h' /\ hwf h' /\ fresh_leaf h h' a /\ fresh_leaf h h' b /\ fresh_leaf h h' c /\
    (ito_str (n_f (nd h' a)), ito_str (n_f (nd h' b)), ito_str (n_f (nd h' c))) = py_rpartition (ito_str (n_f (nd h i))) sp /\
    h_start h' a = h_start h i /\ h_stop h' a = h_start h' b /\ h_stop h' b = h_start h' c /\ h_stop h' c = h_stop h i /\
    Forall (fun x => f_str (n_f (nd h' x)) = h_string h i /\ f_desc (n_f (nd h' x)) = f_desc (n_f (nd h i)) /\ f_vf (n_f (nd h' x)) = f_vf (n_f (nd h i))) [a; b; c].
Proof. exact (partition_found true). Qed.
(** separator absent, no children: i itself and two empty Itos at its end *)
Theorem C10_partition_absent_partial : forall h i sp, hwf h -> (i < length h)%nat -> sp <> [] -> n_kids (nd h i) = [] ->
  find_in sp (ito_str (n_f (nd h i))) = None ->
  exists h' a b c, str_partition h i (Some sp) = (h', Ok (a, b, c)) /\
    extends h h' /\ hwf h' /\ (a = i /\ fresh_leaf h h' b /\ fresh_leaf h h' c) /\
    (ito_str (n_f (nd h' a)), ito_str (n_f (nd h' b)), ito_str (n_f (nd h' c))) = py_partition (ito_str (n_f (nd h i))) sp /\
    (h_start h' a = h_start h i /\ h_stop h' a = h_start h' b /\ h_stop h' b = h_start h' c /\ h_stop h' c = h_stop h i) /\
    Forall (fun x => f_str (n_f (nd h' x)) = h_string h i /\ f_desc (n_f (nd h' x)) = f_desc (n_f (nd h i)) /\ f_vf (n_f (nd h' x)) = f_vf (n_f (nd h i))) [a; b; c].
Proof. exact (partition_absent false). Qed.
(** rpartition: the texts are right, but the two empty Itos sit at the END of i, so they tile i only if i is empty *)
Theorem C10_rpartition_absent_partial : forall h i sp, hwf h -> (i < length h)%nat -> sp <> [] -> n_kids (nd h i) = [] ->
  rfind_in sp (ito_str (n_f (nd h i))) = None ->
  exists h' a b c, str_rpartition h i (Some sp) = (h', Ok (a, b, c)) /\
    extends h h' /\ hwf h' /\ (c = i /\ fresh_leaf h h' a /\ fresh_leaf h h' b) /\
    (ito_str (n_f (nd h' a)), ito_str (n_f (nd h' b)), ito_str (n_f (nd h' c))) = py_rpartition (ito_str (n_f (nd h i))) sp /\
    (h_start h' a = h_stop h i /\ h_start h' b = h_stop h i) /\
    Forall (fun x => f_str (n_f (nd h' x)) = h_string h i /\ f_desc (n_f (nd h' x)) = f_desc (n_f (nd h i)) /\ f_vf (n_f (nd h' x)) = f_vf (n_f (nd h i))) [a; b; c].
Proof. exact (partition_absent true). Qed.
Theorem C10_bad_separator : forall h i, str_partition h i None = (h, Err ValueError) /\ str_partition h i (Some []) = (h, Err ValueError) /\
  str_rpartition h i None = (h, Err ValueError) /\ str_rpartition h i (Some []) = (h, Err ValueError).
Proof. exact (fun h i => conj eq_refl (conj eq_refl (conj eq_refl eq_refl))). Qed.
(** refuted: an Ito with a child (starting before its end) raises when the separator is absent *)
Theorem C10_children_refuted : forall (right : bool) h i sp c, hwf h -> acyclic h -> (i < length h)%nat -> sp <> [] ->
  In c (n_kids (nd h i)) -> h_start h c < h_stop h i ->
  (if right then rfind_in sp (ito_str (n_f (nd h i))) else find_in sp (ito_str (n_f (nd h i)))) = None ->
  snd ((if right then str_rpartition else str_partition) h i (Some sp)) = Err ValueError.
Proof. exact partition_children. Qed.
Print Assumptions C10_partition_found_partial.
Example C10_case : let r := str_partition demo 1 (Some (lit "b")) in snd r = Ok (5, 6, 7)%nat /\
  map (fun j => ito_str (n_f (nd (fst r) j))) [5; 6; 7]%nat = [lit "a"; lit "b"; lit "c"] /\
  snd (str_partition demo 1 (Some (lit "z"))) = Err ValueError /\ snd (str_rpartition demo 3 (Some (lit "z"))) = Ok (5, 6, 3)%nat.
Proof. by_vm. Qed.

(** ** C27 from_match *)
(** object base+j is the j-th capture in sorted order *)
Theorem C27_from_match : forall h m df gks, hwf h -> acyclic h ->
  Forall (cap_valid (rm_string m)) (map fst (captures m gks)) ->
  (forall x y, In x (map fst (captures m gks)) -> In y (map fst (captures m gks)) -> ~ cap_cross x y) ->
  let all := sort_caps (captures m gks) in let base := length h in
  exists h' roots, from_match h m df gks = (h', Ok roots) /\ extends h h' /\ hwf h' /\ acyclic h' /\ length h' = (base + length all)%nat /\
    (forall j, (j < length all)%nat -> n_f (nd h' (base + j)) =
       FI (rm_string m) (fst (fst (nth j all ((0, 0), KInt 0)))) (snd (fst (nth j all ((0, 0), KInt 0)))) (df (snd (nth j all ((0, 0), KInt 0)))) None) /\
    (forall j, (j < length all)%nat ->
       (forall i, n_par (nd h' (base + j)) = Some (base + i)%nat <-> nearest_container (map fst all) i j) /\
       (n_par (nd h' (base + j)) = None <-> no_container (map fst all) j)) /\
    roots = filter (is_root h') (seq base (length all)) /\
    flat_map (preorder_of h') roots = seq base (length all).
Proof. exact from_match_spec. Qed.
(** the sort: a stable sort by (start, -stop) of exactly the captures *)
Theorem C27_sorted : forall l, Permutation (sort_caps l) l /\ StronglySorted cap2_order (sort_caps l) /\
  forall s, filter (fun c => eqb_span (fst c) s) (sort_caps l) = filter (fun c => eqb_span (fst c) s) l.
Proof. exact sort_caps_spec. Qed.
(** the captures are all spans the match has for each key, in the order of the keys
    and of the spans of a key *)
Inductive every_capture (m : rmatch) : list gkey -> list (span * gkey) -> Prop :=
| ec_none : every_capture m [] []
| ec_key gk gks tagged rest : Forall2 (fun sp c => c = (sp, gk)) (rm_spans m gk) tagged -> every_capture m gks rest -> every_capture m (gk :: gks) (tagged ++ rest).
Theorem C27_captures : forall m gks, every_capture m gks (captures m gks).
Proof.
  intros m gks. induction gks as [|gk gks IH]; [constructor|]. unfold captures. cbn [flat_map]. fold (captures m gks). constructor; [|exact IH].
  induction (rm_spans m gk) as [|sp l IHl]; cbn [map]; constructor; [reflexivity|exact IHl].
Qed.
Print Assumptions C27_captures.
Print Assumptions C27_from_match.
(** 'abcd' with group 0 = [0:4], 'x' captured at [0:2] and [2:4], 'y' at [2:2], [1:2] *)
Definition mdemo : rmatch := RM (lit "abcd") (fun k => match k with KInt _ => [(0, 4)] | KStr [120] => [(0, 2); (2, 4)] | KStr _ => [(2, 2); (1, 2)] end).
Definition mkeys : list gkey := [KInt 0; KStr (lit "x"); KStr (lit "y")].
Example C27_case : Forall (cap_valid (rm_string mdemo)) (map fst (captures mdemo mkeys)) /\
  (forall x y, In x (map fst (captures mdemo mkeys)) -> In y (map fst (captures mdemo mkeys)) -> ~ cap_cross x y) /\
  snd (from_match [] mdemo (fun _ => None) mkeys) = Ok [0]%nat /\
  map n_par (fst (from_match [] mdemo (fun _ => None) mkeys)) = [None; Some 0; Some 1; Some 0; Some 3]%nat.
Proof.
  replace (map fst (captures mdemo mkeys)) with [(0, 4); (0, 2); (2, 4); (2, 2); (1, 2)] by (vm_compute; reflexivity).
  split; [repeat constructor; vm_compute; discriminate|]. split; [|by_vm].
  intros x y Hx Hy. cbn [In] in Hx, Hy. unfold cap_cross.
  repeat match goal with H : _ \/ _ |- _ => destruct H as [H|H] | H : False |- _ => destruct H end; subst; cbn [fst snd]; lia.
Qed.

(** ** C28 from_re *)
Theorem C28_no_limit : forall h re gf df ms, gf_valid re gf ->
  from_re h re gf df None ms = match run_matches h (re_keys re gf) df ms with
                               | (h', Ok ls) => (h', Ok (concat ls, length ms))
                               | (h', Err e) => (h', Err e)
                               end.
Proof. exact from_re_nolimit. Qed.
(** the limited result is the beginning of the unlimited one *)
Theorem C28_limit_prefix : forall h re gf df k ms h' all n, from_re h re gf df None ms = (h', Ok (all, n)) ->
  exists h'' m, from_re h re gf df (Some k) ms = (h'', Ok (take_limit k all, m)).
Proof. exact from_re_prefix. Qed.
(** m matches are looked at: fewer (but at least one) do not reach the limit, these do unless there are no more *)
Theorem C28_limit_lazy : forall h re gf df k ms, gf_valid re gf ->
  exists m, (m <= length ms)%nat /\
  from_re h re gf df (Some k) ms = match run_matches h (re_keys re gf) df (firstn m ms) with
                               | (h', Ok ls) => (h', Ok (take_limit k (concat ls), m))
                               | (h', Err e) => (h', Err e)
                               end /\
  (forall j c, (0 < j < m)%nat -> prefix_count h (re_keys re gf) df ms j = Some c -> c < k) /\
  ((m < length ms)%nat -> forall c, prefix_count h (re_keys re gf) df ms m = Some c -> k <= c).
Proof. exact from_re_limit. Qed.
Theorem C28_limit_none : forall A k (l : list A), k <= 0 -> take_limit k l = [].
Proof. exact take_limit_none. Qed.
Print Assumptions C28_limit_lazy.
Example C28_case : let re := RE 2 [(lit "x", 1%nat); (lit "y", 2%nat)] in
  from_re [] re (GFKeys [KStr (lit "x")]) (fun _ _ => None) (Some 3) [mdemo; mdemo; mdemo] =
    (fst (run_matches [] (fun _ => [KStr (lit "x")]) (fun _ _ => None) [mdemo; mdemo]), Ok ([0; 1; 2]%nat, 2%nat)).
Proof. by_vm. Qed.

(** ** C29 group keys *)
Theorem C29_preferred : forall re, re_ok re ->
  length (gk_preferred re) = S (re_groups re) /\
  forall g, (g <= re_groups re)%nat -> preferred_key re g (nth g (gk_preferred re) (KInt 0)).
Proof. exact preferred_spec. Qed.
Theorem C29_validate : forall re gks, re_ok re ->
  ((exists gs, Forall2 (denotes re) gks gs /\ NoDup gs) /\ gk_validate re gks = Ok tt) \/
  (~ (exists gs, Forall2 (denotes re) gks gs /\ NoDup gs) /\ gk_validate re gks = Err ValueError).
Proof. exact validate_spec. Qed.
Theorem C29_from_filter : forall re filt, re_ok re ->
  let accepted g := filt (nth g (gk_preferred re) (KInt 0)) || filt (KInt (Z.of_nat g)) in
  Forall2 (fun x g => denotes re x g /\ filt x = true) (gk_from_filter (gk_preferred re) filt) (filter accepted (seq 0 (S (re_groups re)))).
Proof. exact from_filter_spec. Qed.
(** the same without the algorithm: one key for every group that the filter accepts under
    any of its keys, in ascending order, the preferred key if the filter accepts that *)
Theorem C29_filter_order : forall re filt, re_ok re -> exists gs,
  Forall2 (fun x g => denotes re x g /\ filt x = true /\ forall k, preferred_key re g k -> filt k = true -> x = k) (gk_from_filter (gk_preferred re) filt) gs /\
  StronglySorted lt gs /\ forall g, In g gs <-> exists k, denotes re k g /\ filt k = true.
Proof. exact filter_order. Qed.
(** what from_re takes from its filter: a list of keys must name groups of the pattern, none
    twice, and is used as it is; otherwise nothing is made; a predicate gives the keys of C29_filter_order *)
Theorem C28_filter : forall h re gf df limit ms, re_ok re ->
  (gf_valid re gf <-> match gf with GFKeys l => exists gs, Forall2 (denotes re) l gs /\ NoDup gs | GFPred _ => True end) /\
  (~ gf_valid re gf -> from_re h re gf df limit ms = (h, Err ValueError)) /\
  forall m, match gf with
            | GFKeys l => re_keys re gf m = l
            | GFPred p => exists gs, StronglySorted lt gs /\ (forall g, In g gs <-> exists k, denotes re k g /\ p m k = true) /\
                Forall2 (fun x g => denotes re x g /\ p m x = true /\ forall k, preferred_key re g k -> p m k = true -> x = k) (re_keys re gf m) gs
            end.
Proof.
  intros h re gf df limit ms O. destruct gf as [l|p]; cbn [gf_valid].
  - destruct (C29_validate re l O) as [[F E]|[F E]]; unfold from_re; rewrite E; (split; [split; [tauto || discriminate|congruence || tauto]|split; [congruence || tauto|reflexivity]]).
  - split; [tauto|]. split; [tauto|]. intros m. destruct (filter_order re (p m) O) as (gs & A & B & C). exists gs. auto.
Qed.
Print Assumptions C29_validate.
Example C29_case : let re := RE 3 [(lit "x", 3%nat); (lit "y", 1%nat)] in
  re_ok re /\ gk_preferred re = [KInt 0; KStr (lit "y"); KInt 2; KStr (lit "x")] /\ gk_validate re [KStr (lit "x"); KInt 1] = Ok tt /\
  gk_validate re [KStr (lit "x"); KInt 3] = Err ValueError /\ gk_validate re [KInt 4] = Err ValueError.
Proof. split; [|by_vm]. split; [repeat constructor; cbn; intuition discriminate|]. split; [repeat constructor; cbn; intuition discriminate|]. repeat constructor; cbn; lia. Qed.

(** ** C30 from_gaps *)
(** sps are the spans of the non-gaps in coordinates of the underlying string *)
Theorem C30_gaps_partial : forall src ngs sps desc, u_wf src ->
  Forall2 (ng_abs (u_string src) (u_offset src)) ngs sps ->
  let s := u_offset src in let e := u_offset src + zlen (u_text src) in
  gap_domain s e sps ->
  exists gs, from_gaps src ngs desc false = (gs, None) /\ gaps_of s e sps gs /\
    Forall (fun g => g = FI (u_string src) (f_start g) (f_stop g) desc None) gs.
Proof. exact from_gaps_ok. Qed.
(** an unordered non-gap that is met before the end of src is reached *)
Theorem C30_unordered_partial : forall src ngs sps x desc zw more, u_wf src ->
  Forall2 (ng_abs (u_string src) (u_offset src)) ngs (sps ++ [x]) -> sps <> [] ->
  StronglySorted (fun a b => fst a <= fst b) sps ->
  Forall (fun n => fst n <= snd n < u_offset src + zlen (u_text src)) sps ->
  fst x < fst (List.last sps x) ->
  snd (from_gaps src (ngs ++ more) desc zw) = Some ValueError.
Proof. exact from_gaps_unordered. Qed.
Definition src6 : usrc := UStr (lit "abcdef").
(** refuted: a non-gap nested in the one before it makes the code forget the larger stop *)
Theorem C30_nested_refuted : exists ngs sps gs, Forall2 (ng_abs (u_string src6) (u_offset src6)) ngs sps /\
  StronglySorted (fun a b => fst a <= fst b) sps /\ from_gaps src6 ngs None false = (gs, None) /\ ~ gaps_of 0 6 sps gs.
Proof.
  exists [NSpan (0, 4); NSpan (1, 2)], [(0, 4); (1, 2)], [FI (lit "abcdef") 2 6 None None].
  split; [repeat (constructor; [split; [reflexivity|left; reflexivity]|]); constructor|]. split; [repeat constructor; cbn; lia|]. split; [vm_compute; reflexivity|].
  intros (_ & _ & G & _). assert (N : ~ covered [(0, 4); (1, 2)] 3); [|apply N; exists (0, 4); split; [left; reflexivity|cbn; lia]].
  apply (G 3 ltac:(lia)). eexists. split; [left; reflexivity|]. unfold in_f. cbn. lia.
Qed.
(** refuted: a non-gap that ends before an Ito source begins yields a gap outside it *)
Theorem C30_outside_refuted : exists f ngs sps gs, fwf f /\ Forall2 (ng_abs (f_str f) (f_start f)) ngs sps /\ ascending sps /\
  from_gaps (UIto f) ngs None false = (gs, None) /\ exists g, In g gs /\ f_start g < f_start f.
Proof.
  exists (FI (lit "abcdef") 3 6 None None), [NIto (FI (lit "abcdef") 0 1 None None)], [(0, 1)], [FI (lit "abcdef") 1 6 None None].
  split; [vm_compute; repeat split; discriminate|]. split; [repeat (constructor; [split; reflexivity|]); constructor|]. split; [repeat constructor|]. split; [vm_compute; reflexivity|].
  eexists. split; [left; reflexivity|cbn; lia].
Qed.
(** refuted: an empty source with a later non-gap yields an empty Ito *)
Theorem C30_empty_refuted : exists f ngs gs, fwf f /\ f_start f = f_stop f /\ from_gaps (UIto f) ngs None false = (gs, None) /\ gs <> [].
Proof.
  exists (FI (lit "abcdef") 3 3 None None), [NSpan (1, 2)], [FI (lit "abcdef") 3 3 None None]. split; [vm_compute; repeat split; discriminate|]. split; [reflexivity|]. split; [vm_compute; reflexivity|discriminate].
Qed.
Print Assumptions C30_gaps_partial.
Example C30_case : gap_domain 0 6 [(1, 2); (2, 4)] /\
  from_gaps src6 [NSpan (1, 2); NSpan (2, 4)] None false = ([FI (lit "abcdef") 0 1 None None; FI (lit "abcdef") 4 6 None None], None).
Proof. split; [|vm_compute; reflexivity]. split; [repeat constructor; cbn; lia|]. split; [repeat constructor; cbn; lia|discriminate]. Qed.

(** ** C31 invert_children *)
Theorem C31_invert : forall h i desc, hwf h -> (i < length h)%nat ->
  exists h' rv, invert_children h i desc = (h', Ok rv) /\ extends h h' /\ hwf h' /\ (length h <= rv)%nat /\ n_par (nd h' rv) = None /\
    n_f (nd h' rv) = n_f (nd h i) /\
    gaps_of (h_start h i) (h_stop h i) (kid_spans h i) (map (fun g => n_f (nd h' g)) (n_kids (nd h' rv))) /\
    Forall (fun g => (length h <= g)%nat /\ n_kids (nd h' g) = [] /\ n_f (nd h' g) = FI (h_string h i) (h_start h' g) (h_stop h' g) desc None) (n_kids (nd h' rv)).
Proof. exact invert_spec. Qed.
(** children and gaps tile i *)
Theorem C31_tiles : forall h i desc h' rv, hwf h -> (i < length h)%nat -> invert_children h i desc = (h', Ok rv) ->
  forall k, h_start h i <= k < h_stop h i ->
  exists! x, In x (n_kids (nd h i) ++ n_kids (nd h' rv)) /\ h_start h' x <= k < h_stop h' x.
Proof. exact invert_tiles. Qed.
Print Assumptions C31_invert.
Example C31_case : let r := invert_children demo 1 None in snd r = Ok 5%nat /\
  map (fun g => (h_start (fst r) g, h_stop (fst r) g)) (n_kids (nd (fst r) 5)) = [(0, 1); (2, 3)].
Proof. by_vm. Qed.

(** ** C33 join and adopt *)
Theorem C33_join : forall itos desc, Forall fwf itos -> itos <> [] ->
  (exists s, Forall (fun x => f_str x = s) itos /\
     exists j, ito_join itos desc = Ok j /\ f_str j = s /\ f_desc j = desc /\ f_vf j = None /\ fwf j /\ spans_inputs itos j) \/
  ((exists x y, In x itos /\ In y itos /\ f_str x <> f_str y) /\ ito_join itos desc = Err ValueError).
Proof. exact join_spec. Qed.
Theorem C33_join_empty : forall desc, ito_join [] desc = Err ValueError.
Proof. exact (fun desc => eq_refl). Qed.
Theorem C33_join_order : forall l l' desc, Forall fwf l -> Permutation l l' -> ito_join l desc = ito_join l' desc.
Proof. exact join_perm. Qed.
(** adopt: whatever the iteration order of the set, if nothing crosses: the span of
    join, a well-formed tree, and as descendants exactly the nodes of the (==-distinct) inputs *)
Theorem C33_adopt : forall itos cached desc s, Forall twf itos -> itos <> [] -> Forall (fun t => t_string t = s) itos -> set_order itos cached ->
  no_cross (f_nodes cached) (f_nodes cached) ->
  exists r ks, ito_adopt itos cached desc = Ok (T r ks) /\ f_str r = s /\ f_desc r = desc /\ spans_inputs (map t_f itos) r /\ twf (T r ks) /\
    Permutation (f_nodes ks) (f_nodes cached).
Proof. exact adopt_spec. Qed.
Print Assumptions C33_adopt.
Definition s6 : pystr := lit "abcdef".
Example C33_case : let l := [T (fs s6 4 5) []; T (fs s6 1 3) []; T (fs s6 1 2) []] in
  Forall twf l /\ set_order l l /\ ito_adopt l l None = Ok (T (fs s6 1 5) [T (fs s6 1 3) [T (fs s6 1 2) []]; T (fs s6 4 5) []]).
Proof.
  cbv zeta. split; [repeat constructor; vm_compute; discriminate|]. split; [|vm_compute; reflexivity]. split; [apply incl_refl|]. split.
  - intros x Hx. exists x. split; [exact Hx|reflexivity].
  - repeat constructor; cbn; intuition discriminate.
Qed.

(** ** C34 strip_to_children *)
Theorem C34_strip : forall h i c0 ks, hwf h -> acyclic h -> (i < length h)%nat -> n_kids (nd h i) = c0 :: ks ->
  let a := h_start h c0 in let b := h_stop h (last (c0 :: ks) c0) in
  (h_start h i = a /\ h_stop h i = b /\ strip_to_children h i = (h, Ok i)) \/
  ((h_start h i <> a \/ h_stop h i <> b) /\ exists t h' rv, strip_to_children h i = (h', Ok rv) /\ extends h h' /\ hwf h' /\ acyclic h' /\
     (length h <= rv)%nat /\ n_par (nd h' rv) = None /\ rep h t i /\
     rep h' (T (FI (h_string h i) a b (f_desc (n_f (nd h i))) (f_vf (n_f (nd h i)))) (t_kids t)) rv).
Proof. exact strip_spec. Qed.
Theorem C34_childless : forall h i, n_kids (nd h i) = [] -> strip_to_children h i = (h, Ok i).
Proof. exact strip_childless. Qed.
Print Assumptions C34_strip.
Example C34_case : snd (strip_to_children demo 0) = Ok 0%nat /\ snd (strip_to_children demo 1) = Ok 5%nat /\
  let h' := fst (strip_to_children demo 1) in h_start h' 5 = 1 /\ h_stop h' 5 = 2 /\ n_kids (nd h' 5) = [6]%nat.
Proof. by_vm. Qed.

(** ** C37 equality and hash *)
(** sub is the subclass relation of any class hierarchy; an identity names one object *)
Theorem C37_characterised : forall sub, (forall x, sub x x = true) -> (forall x y, sub x y = true -> sub y x = true -> x = y) ->
  forall a b, (c_id a = c_id b -> a = b) -> (op_eq sub a b = true <-> c_cls a = c_cls b /\ c_f a = c_f b).
Proof. exact op_eq_char. Qed.
Theorem C37_equivalence : forall sub, (forall x, sub x x = true) -> (forall x y, sub x y = true -> sub y x = true -> x = y) ->
  forall P : cito -> Prop, (forall a b, P a -> P b -> c_id a = c_id b -> a = b) ->
  (forall a, P a -> op_eq sub a a = true) /\
  (forall a b, P a -> P b -> op_eq sub a b = true -> op_eq sub b a = true) /\
  (forall a b c, P a -> P b -> P c -> op_eq sub a b = true -> op_eq sub b c = true -> op_eq sub a c = true).
Proof. exact op_eq_equiv. Qed.
Theorem C37_hash : forall sub hash, (forall x, sub x x = true) -> (forall x y, sub x y = true -> sub y x = true -> x = y) ->
  forall a b, (c_id a = c_id b -> a = b) -> op_eq sub a b = true -> ito_hash hash a = ito_hash hash b.
Proof. exact op_eq_hash. Qed.
Print Assumptions C37_equivalence.
(** without Python's reflected call to the subclass first, __eq__ alone is not symmetric *)
Example C37_case : let sub := (fun x y => (y <=? x)%nat) in let a := CI 0 0 (fs s6 1 2) in let b := CI 1 1 (fs s6 1 2) in
  ito_eq sub a b = true /\ ito_eq sub b a = false /\ op_eq sub a b = false /\ op_eq sub b a = false /\ op_eq sub a (CI 2 0 (fs s6 1 2)) = true.
Proof. by_vm. Qed.
