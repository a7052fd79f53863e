(** Property theorem C130: the simple Itorators.  Only statements, with examples. *)
From Verif Require Import SpecSimple ArborFacts9 Properties_Heap Properties_Arbor.
Import ListNotations.

(** Reflect gives a copy of its argument *)
Theorem C130_reflect : forall P t n h i, hwf h -> acyclic h -> (i < length h)%nat -> P t = alone TReflect ->
  exists h' j, drain (call (S n) P t i) h = (h', ([j], None)) /\ copy_of h i unchanged h' j.
Proof. exact run_reflect. Qed.
(** Desc gives a copy with the desc the function computes for the copy; what the function raises reaches the caller *)
Theorem C130_desc : forall P t n h i, hwf h -> acyclic h -> (i < length h)%nat -> forall g, P t = alone (TDesc g) ->
  exists h1 j, copy_of h i unchanged h1 j /\
  match g h1 j with
  | Ok d => exists h', drain (call (S n) P t i) h = (h', ([j], None)) /\ copy_of h i (with_desc d) h' j
  | Err e => drain (call (S n) P t i) h = (h1, ([], Some e))
  end.
Proof. exact run_desc. Qed.
(** ValueFunc gives a copy with that value function *)
Theorem C130_value_func : forall P t n h i, hwf h -> acyclic h -> (i < length h)%nat -> forall v, P t = alone (TValueFunc v) ->
  exists h' j, drain (call (S n) P t i) h = (h', ([j], None)) /\ copy_of h i (with_value_func v) h' j.
Proof. exact run_value_func. Qed.
(** Filter gives the copy if the predicate is true of it, and nothing otherwise *)
Theorem C130_filter : forall P t n h i, hwf h -> acyclic h -> (i < length h)%nat -> forall p, P t = alone (TFilter p) ->
  exists h1 j, copy_of h i unchanged h1 j /\
  drain (call (S n) P t i) h = (h1, match p h1 j with Ok true => ([j], None) | Ok false => ([], None) | Err e => ([], Some e) end).
Proof. exact run_filter. Qed.
(** a wrapped function is called with the copy, and what it gives is given *)
Theorem C130_wrap : forall P t n h i, hwf h -> acyclic h -> (i < length h)%nat -> forall g, P t = alone (TWrap g) ->
  exists h1 j, copy_of h i unchanged h1 j /\ drain (call (S n) P t i) h = drain (g j) h1.
Proof. exact run_wrap. Qed.
Print Assumptions C130_reflect.
Print Assumptions C130_desc.
Print Assumptions C130_value_func.
Print Assumptions C130_filter.
Print Assumptions C130_wrap.
(** node 1 of demo has one child; the copies are 5 (with child 6) *)
Example C130_case : hwf demo /\ acyclic demo /\ length demo = 5%nat /\
  (let run tr := drain (call 3 (fun _ => alone tr) 0 1) demo in
   snd (run TReflect) = ([5%nat], None) /\ n_kids (nd (fst (run TReflect)) 5) = [6%nat] /\
   f_desc (n_f (nd (fst (run (TDesc (fun h i => Ok (Some (h_string h i)))))) 5)) = Some (h_string demo 1) /\
   f_vf (n_f (nd (fst (run (TValueFunc (Some 7)))) 5)) = Some 7 /\
   snd (run (TFilter (fun h i => Ok (h_start h i <? 0)))) = ([], None) /\ snd (run (TFilter (fun h i => Err KeyError))) = ([], Some KeyError)).
Proof. split; [exact demo_wf|]. split; [exact demo_acyclic|]. vm_compute. repeat split; reflexivity. Qed.
