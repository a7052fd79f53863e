(** Properties of queries as texts: C125.  E, r as in Properties_Query. *)
From Verif Require Import Query SpecQuery SpecRun HeapFacts4 QueryFacts17 QueryFacts18 QueryFacts19 QueryDemo Properties_Heap.

(** ** C125 compiling *)
Theorem C125_compile : forall E s, (exists q, parse_query E s = Ok q) \/ parse_query E s = Err ValueError.
Proof. exact compile_or_refuse. Qed.
Print Assumptions C125_compile.
(** an accepted text has something printable, no escape without a character
    after it, and an axis at the start of every phrase *)
Theorem C125_accepted : forall E s q, parse_query E s = Ok q ->
  printable E s /\ fst (after false 0 s) = false /\
  (forall u v, (u = [] /\ v = s) \/ (s = u ++ 47 :: v /\ complete u) -> exists a w t, v = w ++ t /\ axis_text a w).
Proof. exact accepted_text. Qed.
Print Assumptions C125_accepted.
Example C125_texts :
  (exists q, parse_query ascii (lit "*([d:a] | ~[d:b]) & [s:x\]y] {**[i:0-2]/..}/-<<!") = Ok q) /\
  map (fun t => match parse_query ascii t with Ok _ => None | Err e => Some e end)
    [lit ""; lit "*/"; lit "/*"; lit "*\"; lit "foo"; lit "*[d:a"; lit "*[nope:a]"; lit "*[i:1-2-3]"; lit "*[d:a][d:b]"; lit "*([d:a]"; lit "*()[d:a]"; lit "*{"; lit "*{}"; lit "*[d:a]x"; lit "*{*{*{/}}}"] =
    repeat (Some ValueError) 15.
Proof.
  split; [|vm_compute; reflexivity].
  assert (X : match parse_query ascii (lit "*([d:a] | ~[d:b]) & [s:x\]y] {**[i:0-2]/..}/-<<!") with Ok _ => true | Err _ => false end = true) by (vm_compute; reflexivity).
  destruct (parse_query ascii (lit "*([d:a] | ~[d:b]) & [s:x\]y] {**[i:0-2]/..}/-<<!")) as [q|e]; [exists q; reflexivity|discriminate].
Qed.

(** ** C125 running: whatever the text, the tree and the dictionaries, a search
    ends; it finds Itos of the tree it starts in, and raises nothing but the
    errors of SpecRun *)
Theorem C125_find_all : forall E s h r i, hwf h -> acyclic h -> (i < length h)%nat ->
  let g := ito_find_all E h r i s in
  Forall (same_tree h i) (fst g) /\ (forall e, snd g = Some e -> may_raise r e).
Proof.
  intros E s h r i H Ha Hi. cbv zeta. unfold ito_find_all. destruct (compile_or_refuse E s) as [(q & Eq)| Eq]; rewrite Eq.
  - exact (compiled_run E s q h r i Eq H Ha Hi).
  - cbn [graise fst snd]. split; [constructor|]. intros e [= <-]. apply may_value.
Qed.
Print Assumptions C125_find_all.
Theorem C125_find : forall E s h r i, hwf h -> acyclic h -> (i < length h)%nat ->
  match ito_find E h r i s with
  | Ok None => True
  | Ok (Some j) => same_tree h i j
  | Err e => may_raise r e
  end.
Proof.
  intros E s h r i H Ha Hi. unfold ito_find. destruct (compile_or_refuse E s) as [(q & Eq)| Eq]; rewrite Eq; cbn [bind]; [|apply may_value].
  destruct (compiled_run E s q h r i Eq H Ha Hi) as [F G]. unfold query_find. destruct (query_find_all q h r i) as [[|x l] [e|]]; cbn [g_next fst snd] in *.
  - apply G. reflexivity.
  - exact Logic.I.
  - inversion F; assumption.
  - inversion F; assumption.
Qed.
Print Assumptions C125_find.
(** each of the three does occur in a text that compiles: a dictionary that was
    not given, a missing binary operator, <<< after nothing was found; and an
    error of the user's predicate comes through *)
Example C125_raised :
  ito_find_all ascii demo no_dicts 0 (lit "**[p:k]") = ([], Some ValueError) /\
  ito_find_all ascii demo no_dicts 0 (lit "**[d:x] ~ [d:x]") = ([], Some TypeError) /\
  ito_find_all ascii demo no_dicts 0 (lit "**[d:none]/<<<") = ([], Some UnboundLocalError) /\
  (let r := {| rv_values := None; rv_preds := Some [(lit "k", fun ec => if (snd ec =? 2)%nat then Err KeyError else Ok true)]; rv_value := fun _ => Ok 0; rv_eq := Z.eqb |} in
   ito_find_all ascii demo r 0 (lit "**[p:k]") = ([1; 3]%nat, Some KeyError)) /\
  ito_find_all ascii demo no_dicts 0 (lit "**[d:x]/<") = ([1%nat], None) /\ same_tree demo 0 1.
Proof. repeat split; try (vm_compute; reflexivity); [vm_compute; lia|]. exists 0%nat. split; (split; [vm_compute; reflexivity|]); [left; reflexivity|right; apply anc_parent; vm_compute; reflexivity]. Qed.
