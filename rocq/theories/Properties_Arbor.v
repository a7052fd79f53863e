(** Properties of arborform: C52 to C58, C65. *)
From Verif Require Import Properties_Heap Properties_Hier Properties_Combin.
From Verif Require Import HierHeap7 ArborFacts ArborFacts2 ArborFacts3 ArborFacts4.

(** a pipeline on the demo heap ("abcdef" with children [0:3] and [3:6]): 1 extracts "b"
    and the empty match at 4, 0 splits there, 2 inverts, 3 tries 4 (which yields nothing)
    and then 1, 5 splits and gives every piece its first half as a child *)
Definition regex_demo : pattern := RE 0 [].
Definition match_demo (s : pystr) (ab : Z * Z) : rmatch := RM s (fun k => match k with KInt 0 => [ab] | _ => [] end).
Definition finditer_demo (s : pystr) (a b : Z) : list rmatch :=
  map (match_demo s) (filter (fun x => (a <=? fst x) && (snd x <=? b)) [(1, 2); (4, 4)]).
Definition half : nat -> strm := fun i => act (fun h => clone_of i (Some (h_start h i)) (Some ((h_start h i + h_stop h i) / 2)) None false h) (fun j => Yield j Stop).
Definition pipe : prog := fun t =>
  match t with
  | 0%nat => Itor (TSplit 1 None RAll true (Some (lit "p"))) [] PostNone
  | 1%nat => regex_itor regex_demo finditer_demo
  | 2%nat => Itor (TInvert 1 (Some (lit "g"))) [] PostNone
  | 3%nat => Itor (TNuco [4; 1]%nat) [] PostNone
  | 4%nat => Itor (TFilter (fun _ _ => Ok false)) [] PostNone
  | 5%nat => Itor (TSplit 1 (Some 1) RLeading true None) [Con CAdd (PDesc (lit "no")) 4; Con CReplace PNoDesc 6; Con Subroutine PNoDesc 0; Con Recurse PNoDesc 1; Con Delegate (PFun (fun _ _ => Ok true)) 2] PostNone
  | _ => Itor (TWrap half) [] PostNone
  end.
Definition seen (r : heap * (list nat * option exn)) : list (Z * Z) * option exn :=
  (map (fun i => (h_start (fst r) i, h_stop (fst r) i)) (fst (snd r)), snd (snd r)).

(** ** C52 calling an itorator changes no existing Ito, whatever the consumer does with
    the results in between, and the results are new *)
Theorem C52_untouched : forall fuel P t i h c, prog_stays (length h) P -> (forall l g, harmless (length h) g (c l g)) ->
  let r := drive c [] (call fuel P t i) h in extends h (fst r) /\ Forall (fun j => (length h <= j)%nat) (fst (snd r)).
Proof. exact call_harmless. Qed.
(** with a consumer that only collects the results *)
Theorem C52_list : forall fuel P t i h, prog_stays (length h) P ->
  let r := drain (call fuel P t i) h in extends h (fst r) /\ Forall (fun j => (length h <= j)%nat) (fst (snd r)).
Proof. exact drain_harmless. Qed.
Print Assumptions C52_untouched.
Example C52_case : snd (seen (drain (call 10 pipe 5 0) demo)) = None /\ fst (seen (drain (call 10 pipe 5 0) demo)) <> [] /\
  forallb (fun j => (length demo <=? j)%nat) (fst (snd (drain (call 10 pipe 5 0) demo))) = true.
Proof. split; [by_vm|]. split; [vm_compute; discriminate|by_vm]. Qed.
Example C52_hyps : prog_stays (length demo) pipe.
Proof.
  intros t. do 6 (destruct t as [|t]; [split; exact I|]). split; [|exact I]. cbn [pipe it_tr transform_stays]. intros i Hi. unfold half. apply (act_stays _ _ (fun j => (length demo <= j)%nat)).
  - intros h. unfold clone_of, depth_fuel. rewrite clone_false. cbn [fst snd]. split; [apply new_harmless|]. intros [S _] a [= <-]. exact S.
  - intros a Ha. split; [exact Ha|exact I].
Qed.

(** ** C53 connectors *)
(** every result of the transform goes through the connectors in order *)
Theorem C53_pipeline : forall n P t i h, it_post (P t) = PostNone ->
  drain (traverse (S n) P t i) h = for_each (fun x => drain (flow (traverse n P) (it_cons (P t)) x)) (transform_of (call n P) (it_tr (P t)) i) h.
Proof. exact traverse_plain. Qed.
Theorem C53_none : forall trav i h, drain (flow trav [] i) h = (h, ([i], None)).
Proof. exact flow_nil. Qed.
(** a false predicate skips the connector *)
Theorem C53_skip : forall trav c rest i h, eval_pred (c_pred c) h i = Ok false -> drain (flow trav (c :: rest) i) h = drain (flow trav rest i) h.
Proof. exact flow_skip. Qed.
Theorem C53_predicate_error : forall trav c rest i h e, eval_pred (c_pred c) h i = Err e -> drain (flow trav (c :: rest) i) h = (h, ([], Some e)).
Proof. exact flow_error. Qed.
(** a str predicate means: has this desc; None means: has no desc *)
Theorem C53_desc_predicate : forall d h i b, eval_pred (PDesc d) h i = Ok b -> b = true <-> f_desc (n_f (nd h i)) = Some d.
Proof. exact pred_desc. Qed.
Theorem C53_none_predicate : forall h i b, eval_pred PNoDesc h i = Ok b -> b = true <-> f_desc (n_f (nd h i)) = None.
Proof. exact pred_none. Qed.
(** Delegate ends the chain: the results are those of the other itorator *)
Theorem C53_delegate : forall trav c rest i h, eval_pred (c_pred c) h i = Ok true -> c_kind c = Delegate ->
  drain (flow trav (c :: rest) i) h = drain (trav (c_itor c) i) h.
Proof. exact flow_delegate. Qed.
(** Recurse sends each result down the rest of the chain *)
Theorem C53_recurse : forall trav c rest i h, eval_pred (c_pred c) h i = Ok true -> c_kind c = Recurse ->
  drain (flow trav (c :: rest) i) h = for_each (fun x => drain (flow trav rest x)) (trav (c_itor c) i) h.
Proof. exact flow_recurse. Qed.
(** Subroutine runs the other itorator to its end and goes on with the same Ito *)
Theorem C53_subroutine : forall trav c rest i h, eval_pred (c_pred c) h i = Ok true -> c_kind c = Subroutine ->
  drain (flow trav (c :: rest) i) h = match drain (trav (c_itor c) i) h with
                                      | (h1, (_, Some e)) => (h1, ([], Some e))
                                      | (h1, (_, None)) => drain (flow trav rest i) h1
                                      end.
Proof. exact flow_subroutine. Qed.
(** Children connectors collect all results, change the children, go on with the same Ito *)
Theorem C53_children : forall trav c rest i h, eval_pred (c_pred c) h i = Ok true -> In (c_kind c) [CAdd; CAddHier; CReplace; CDelete] ->
  drain (flow trav (c :: rest) i) h = match drain (trav (c_itor c) i) h with
    | (h1, (_, Some e)) => (h1, ([], Some e))
    | (h1, (cs, None)) => match attach (c_kind c) i cs h1 with
                          | (h2, Err e) => (h2, ([], Some e))
                          | (h2, Ok _) => drain (flow trav rest i) h2
                          end
    end.
Proof. exact flow_children. Qed.
Theorem C53_add : forall p cs h h', hwf h -> (p < length h)%nat -> Forall (fun c => (c < length h)%nat) cs -> attach CAdd p cs h = (h', Ok tt) ->
  hwf h' /\ length h' = length h /\ (forall j, n_f (nd h' j) = n_f (nd h j)) /\ Permutation (n_kids (nd h' p)) (n_kids (nd h p) ++ cs) /\
  (forall j, j <> p -> n_kids (nd h' j) = n_kids (nd h j)) /\ (forall j, ~ In j cs -> n_par (nd h' j) = n_par (nd h j)).
Proof. exact (fun p cs h h' => kids_add_ok p cs h h'). Qed.
Theorem C53_replace : forall p cs h h', hwf h -> (p < length h)%nat -> Forall (fun c => (c < length h)%nat) cs -> attach CReplace p cs h = (h', Ok tt) ->
  hwf h' /\ length h' = length h /\ (forall j, n_f (nd h' j) = n_f (nd h j)) /\ Permutation (n_kids (nd h' p)) cs /\ (forall c, In c (n_kids (nd h p)) -> ~ In c cs -> n_par (nd h' c) = None) /\
  (forall j, j <> p -> n_kids (nd h' j) = n_kids (nd h j)) /\ (forall j, ~ In j cs -> ~ In j (n_kids (nd h p)) -> n_par (nd h' j) = n_par (nd h j)).
Proof. exact replace_ok. Qed.
Theorem C53_delete : forall p cs h h', hwf h -> (p < length h)%nat -> attach CDelete p cs h = (h', Ok tt) ->
  hwf h' /\ length h' = length h /\ (forall j, n_f (nd h' j) = n_f (nd h j)) /\ incl cs (n_kids (nd h p)) /\ n_kids (nd h' p) = filter (fun k => negb (existsb (Nat.eqb k) cs)) (n_kids (nd h p)) /\ (forall c, In c cs -> n_par (nd h' c) = None) /\
  (forall j, j <> p -> n_kids (nd h' j) = n_kids (nd h j)) /\ (forall j, ~ In j cs -> n_par (nd h' j) = n_par (nd h j)).
Proof. exact (fun p cs h h' => delete_ok p cs h h'). Qed.
(** added to the hierarchy: all of them, each with what is below it, or (something crosses) ValueError *)
Theorem C53_add_hierarchical : forall h p cs, hwf h -> acyclic h -> (p < length h)%nat -> NoDup cs ->
  Forall (fun c => (c < length h)%nat /\ n_par (nd h c) = None /\ c <> p /\ ~ anc h c p /\ fits h c p) cs ->
  ((forall x y, among_trees h cs x \/ anc h p x -> among_trees h cs y -> ~ h_cross h x y) /\
    exists h', attach CAddHier p cs h = (h', Ok tt) /\ hwf h' /\ acyclic h' /\ length h' = length h /\ (forall j, n_f (nd h' j) = n_f (nd h j)) /\
      (forall j, anc h' p j <-> anc h p j \/ among_trees h cs j) /\ (forall j, j <> p -> ~ anc h' p j -> nd h' j = nd h j) /\ n_par (nd h' p) = n_par (nd h p))
  \/ ((exists x y, (among_trees h cs x \/ anc h p x) /\ among_trees h cs y /\ h_cross h x y) /\
     exists h', attach CAddHier p cs h = (h', Err ValueError) /\ kept h h').
Proof. exact (fun h p cs H Ha Hp Hn Hc => add_hier_many None (hier_fuel h) p cs h H Ha Hp Hn Hc (hier_fuel_ok h)). Qed.
Print Assumptions C53_children.
Print Assumptions C53_recurse.
Example C53_case : seen (drain (call 10 pipe 5 0) demo) = ([(4, 4)], None).
Proof. by_vm. Qed.

(** ** C54 Split *)
(** for any splitter that yields ordered boundaries inside the Ito *)
Theorem C54_split : forall limit br zero d s h i sp, (i < length h)%nat -> fwf (n_f (nd h i)) -> bounds (fun j => (j < length h)%nat) s h sp -> ordered (h_start h i) sp (h_stop h i) ->
  exists h' l, drain (split_transform limit br zero d s i) h = (h', (l, None)) /\ extends h h' /\
    Forall2 (is_piece h i d h') (split_result br zero (h_start h i) (h_stop h i) (used limit sp)) l.
Proof. exact split_total. Qed.
(** called with a regex *)
Theorem C54_regex : forall P t t' re fi limit br zero d n h i sp, P t = Itor (TSplit t' limit br zero d) [] PostNone -> P t' = regex_itor re fi -> re_ok re ->
  hwf h -> acyclic h -> (i < length h)%nat ->
  matches_at (h_string h i) (fi (h_string h i) (h_start h i) (h_stop h i)) sp -> ordered (h_start h i) sp (h_stop h i) ->
  exists h' l, drain (call (S (S n)) P t i) h = (h', (l, None)) /\ extends h h' /\
    Forall2 (is_piece h i d h') (split_result br zero (h_start h i) (h_stop h i) (used limit sp)) l.
Proof. exact split_regex. Qed.
(** what split_result is: ALL tiles the Ito, LEADING from the first boundary on, TRAILING
    up to the last; NONE is ALL without the boundaries, the maximal uncovered segments *)
Theorem C54_all_tiles : forall zero A B sp, sp <> [] -> ordered A sp B -> tiles_from A (map snd (split_result RAll zero A B sp)) B.
Proof. exact split_all_tiles. Qed.
Theorem C54_leading_tiles : forall zero A B a b sp, ordered A ((a, b) :: sp) B -> tiles_from a (map snd (split_result RLeading zero A B ((a, b) :: sp))) B.
Proof. exact split_leading_tiles. Qed.
Theorem C54_trailing_tiles : forall zero A B sp, sp <> [] -> ordered A sp B -> tiles_from A (map snd (split_result RTrailing zero A B sp)) (last (map snd sp) A).
Proof. exact split_trailing_tiles. Qed.
Theorem C54_none_of_all : forall zero A B sp, split_result RNone zero A B sp = filter (fun x => negb (fst x)) (split_result RAll zero A B sp).
Proof. exact none_of_all. Qed.
Theorem C54_none_gaps : forall zero A B sp, sp <> [] -> ordered A sp B ->
  let g := map snd (split_result RNone zero A B sp) in
  StronglySorted (fun x y => snd x <= fst y) g /\ Forall (fun x => A <= fst x < snd x /\ snd x <= B) g /\
  (forall k, A <= k < B -> ((exists x, In x g /\ fst x <= k < snd x) <-> ~ covered sp k)).
Proof. exact split_none_gaps. Qed.
Theorem C54_text : forall (s : pystr) l A B, 0 <= A -> B <= zlen s -> tiles_from A l B -> concat (map (fun x => zsub s (fst x) (snd x)) l) = zsub s A B.
Proof. exact tiles_text. Qed.
Theorem C54_limit_ordered : forall limit sp A B, ordered A sp B -> ordered A (used limit sp) B.
Proof. exact ordered_used. Qed.
Print Assumptions C54_split.
Print Assumptions C54_regex.
Example C54_case : seen (drain (call 10 pipe 0 0) demo) = ([(0, 1); (1, 2); (2, 4); (4, 6)], None) /\
  split_result RAll true 0 6 [(1, 2); (4, 4)] = [(false, (0, 1)); (true, (1, 2)); (false, (2, 4)); (false, (4, 6))].
Proof. by_vm. Qed.
Example C54_hyps : re_ok regex_demo /\ matches_at (h_string demo 0) (finditer_demo (h_string demo 0) 0 6) [(1, 2); (4, 4)] /\ ordered 0 [(1, 2); (4, 4)] 6.
Proof. split; [repeat split; constructor|]. split; [|cbn; lia]. vm_compute. repeat constructor. Qed.

(** ** C55 Invert *)
(** for a nonempty Ito without children *)
Theorem C55_invert_partial : forall call it d h i sp, (i < length h)%nat -> fwf (n_f (nd h i)) -> n_kids (nd h i) = [] -> h_start h i < h_stop h i ->
  bounds (fun j => (j < length h)%nat) (call it i) h sp -> ordered (h_start h i) sp (h_stop h i) ->
  exists h' l, drain (transform_of call (TInvert it d) i) h = (h', (l, None)) /\ extends h h' /\
    Forall2 (is_piece h i d h') (map piece (filter wide (gaps (h_start h i) sp (h_stop h i)))) l.
Proof. exact invert_total. Qed.
Theorem C55_regex_partial : forall P t t' re fi d n h i sp, P t = Itor (TInvert t' d) [] PostNone -> P t' = regex_itor re fi -> re_ok re ->
  hwf h -> acyclic h -> (i < length h)%nat -> n_kids (nd h i) = [] -> h_start h i < h_stop h i ->
  matches_at (h_string h i) (fi (h_string h i) (h_start h i) (h_stop h i)) sp -> ordered (h_start h i) sp (h_stop h i) ->
  exists h' l, drain (call (S (S n)) P t i) h = (h', (l, None)) /\ extends h h' /\
    Forall2 (is_piece h i d h') (map piece (filter wide (gaps (h_start h i) sp (h_stop h i)))) l.
Proof. exact invert_regex. Qed.
Theorem C55_maximal : forall A B sp, ordered A sp B ->
  let g := filter wide (gaps A sp B) in
  StronglySorted (fun x y => snd x <= fst y) g /\ Forall (fun x => A <= fst x < snd x /\ snd x <= B) g /\
  (forall k, A <= k < B -> ((exists x, In x g /\ fst x <= k < snd x) <-> ~ covered sp k)) /\
  Forall (fun x => (fst x = A \/ In (fst x) (map snd sp)) /\ (snd x = B \/ In (snd x) (map fst sp))) g.
Proof. exact gaps_maximal. Qed.
Print Assumptions C55_regex_partial.
Example C55_case : seen (drain (call 10 pipe 2 2) demo) = ([(3, 4); (4, 6)], None) /\ n_kids (nd demo 2) = [].
Proof. by_vm. Qed.
(** an Ito with children: the pieces are cloned with all the children, which do not fit *)
Example C55_refuted_children : seen (drain (call 10 pipe 2 0) demo) = ([], Some ValueError).
Proof. by_vm. Qed.
(** an empty Ito: it is yielded although there is no nonempty segment *)
Example C55_refuted_empty : let h := run [] [ONew (lit "abc") (Some 1) (Some 1) None] in seen (drain (call 10 pipe 2 0) h) = ([(1, 1)], None).
Proof. by_vm. Qed.

(** ** C56 Nuco *)
Theorem C56_nothing : forall call its h h', silent call its h h' -> drain (nuco call its) h = (h', ([], None)).
Proof. exact nuco_none. Qed.
Theorem C56_first : forall call pre t r h hk h' l e, silent call pre h hk -> drain (call t) hk = (h', (l, e)) -> l <> [] \/ e <> None ->
  drain (nuco call (pre ++ t :: r)) h = (h', (l, e)).
Proof. exact nuco_some. Qed.
(** one of the two is the case *)
Theorem C56_exhaustive : forall call its h, (exists h', silent call its h h') \/
  (exists pre t r hk, its = pre ++ t :: r /\ silent call pre h hk /\ (fst (snd (drain (call t) hk)) <> [] \/ snd (snd (drain (call t) hk)) <> None)).
Proof. exact nuco_cases. Qed.
Print Assumptions C56_exhaustive.
Example C56_case : seen (drain (call 10 pipe 3 0) demo) = ([(1, 2); (4, 4)], None).
Proof. by_vm. Qed.

(** ** C57 WindowedJoin *)
Theorem C57_windowed : forall size pred d p s l h, (0 < size)%nat -> (forall i, In i l -> (i < length h)%nat /\ h_string h i = s /\ fwf (n_f (nd h i))) ->
  (forall g w, same_items l h g -> incl w l -> length w = size -> pred g w = Ok (p w)) ->
  exists bs h' outs, drain (run_post (PostWindow size pred d) (of_list l)) h = (h', (outs, None)) /\ windows size p l bs /\ blocks bs = l /\ extends h h' /\ Forall2 (joined h h' s d) bs outs.
Proof. exact windowed_total. Qed.
Theorem C57_blocks : forall size p l bs, windows size p l bs -> blocks bs = l /\
  Forall (fun b => match b with (true, w) => length w = size /\ p w = true | (false, w) => exists x, w = [x] end) bs.
Proof. exact windows_blocks. Qed.
Print Assumptions C57_windowed.
Example C57_case : seen (drain (run_post (PostWindow 2 (fun h w => Ok (match w with a :: _ => (a =? 2)%nat | [] => false end)) None) (of_list [1; 2; 3; 4]%nat)) demo) = ([(0, 3); (1, 6); (1, 2)], None).
Proof. by_vm. Qed.

(** ** C58 StackedReduce *)
Theorem C58_stacked : forall reduce push pop pu po l h,
  (forall b g, same_items l h g -> incl b l -> same_items l g (fst (reduce b g))) ->
  (forall g x, same_items l h g -> In x l -> push g [] x = Ok (pu x)) ->
  (match pop with None => forall st x, po st x = false | Some q => forall g st x, same_items l h g -> incl st l -> In x l -> q g st x = Ok (po st x) end) ->
  exists bs, stacks pu po l bs /\ blocks bs = l /\ drain (run_post (PostStack reduce push pop) (of_list l)) h = emit reduce bs h.
Proof. exact stacked_total. Qed.
Theorem C58_blocks : forall pu po l bs, stacks pu po l bs -> blocks bs = l.
Proof. exact stacks_blocks. Qed.
Print Assumptions C58_stacked.
Example C58_case : seen (drain (run_post (PostStack (fun l h => join_h h l None) (fun _ _ i => Ok (i =? 1)%nat) (Some (fun _ _ i => Ok (i =? 3)%nat))) (of_list [4; 1; 2; 3; 1]%nat)) demo) = ([(1, 2); (0, 6); (1, 2); (0, 3)], None).
Proof. by_vm. Qed.

(** ** C65 Extract *)
(** with a function as desc: what from_re gives for the argument *)
Theorem C65_extract_partial : forall P t re fi limit df gf n h i, P t = Itor (TExtract re fi limit (Some df) gf) [] PostNone -> hwf h -> acyclic h -> (i < length h)%nat ->
  exists h1, extends h h1 /\ drain (call (S n) P t i) h =
    match from_re h1 re gf df limit (fi (h_string h i) (h_start h i) (h_stop h i)) with
    | (h2, Ok (l, _)) => (h2, (l, None))
    | (h2, Err e) => (h2, ([], Some e))
    end.
Proof. exact extract_total. Qed.
Print Assumptions C65_extract_partial.
Example C65_case : seen (drain (call 10 pipe 1 0) demo) = ([(1, 2); (4, 4)], None).
Proof. by_vm. Qed.
(** with a str as desc: the constructor accepts it, and every use fails *)
Example C65_refuted : seen (drain (call 10 (fun _ => Itor (TExtract regex_demo finditer_demo None None whole_only) [] PostNone) 0 0) demo) = ([], Some AttributeError).
Proof. by_vm. Qed.
