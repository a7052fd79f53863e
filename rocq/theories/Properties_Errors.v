(** C122: what the exception for a refused argument says. *)
From Verif Require Import Py PyFacts Errors.

(** ** Specification *)
(** The alternatives a list of allowed types stands for, from left to right: a union stands for its members, a type variable for its bound. *)
Inductive stands_for : list pty -> list pty -> Prop :=
| sf_nil : stands_for [] []
| sf_var b ts us : stands_for (b :: ts) us -> stands_for (YVar b :: ts) us
| sf_union l ts us : stands_for (l ++ ts) us -> stands_for (YPipe l :: ts) us
| sf_named q s ts us : stands_for ts us -> stands_for (YNamed q s :: ts) (YNamed q s :: us)
| sf_none ts us : stands_for ts us -> stands_for (YNone :: ts) (YNone :: us)
| sf_else r ts us : stands_for ts us -> stands_for (YElse r :: ts) (YElse r :: us).
(** How a type that is neither is written. *)
Inductive written_as : pty -> pystr -> Prop :=
| wa_name q s : q <> lit "Callable" -> written_as (YNamed q s) q
| wa_callable s : written_as (YNamed (lit "Callable") s) s
| wa_none : written_as YNone (lit "None")
| wa_else r : written_as (YElse r) r.
(** The alternatives with " or " between them. *)
Inductive or_list : list pystr -> pystr -> Prop :=
| or_none : or_list [] []
| or_one x : or_list [x] x
| or_more x l s : l <> [] -> or_list l s -> or_list (x :: l) (x ++ lit " or " ++ s).
(** How the value is shown: by its signature if it can be called, otherwise by its repr. *)
Inductive value_shown : pval -> pystr -> Prop :=
| vs_call v s : v_callable v = true -> v_sig v = Ok s -> value_shown v s
| vs_plain v : v_callable v = false -> value_shown v (v_repr v).

(** ** Proofs *)
Fixpoint psize (t : pty) : nat := match t with YVar b => S (psize b) | YPipe l => S (list_sum (map psize l)) | _ => 1%nat end.
Lemma stands_ex : forall n ts, (list_sum (map psize ts) + length ts <= n)%nat -> exists us, stands_for ts us /\ exists ss, Forall2 written_as us ss /\ flat_map type_strs ts = ss.
Proof.
  assert (G : forall n ts, (list_sum (map psize ts) <= n)%nat -> exists us, stands_for ts us /\ exists ss, Forall2 written_as us ss /\ flat_map type_strs ts = ss).
  { induction n as [|n IH]; intros ts Hn.
    - destruct ts as [|[] ts]; cbn in Hn; try lia. exists []. split; [constructor|]. exists []. split; [constructor|reflexivity].
    - destruct ts as [|t ts]; [exists []; split; [constructor|]; exists []; split; [constructor|reflexivity]|].
      destruct t as [q s|b|l| |r]; cbn in Hn.
      + destruct (IH ts) as (us & H & ss & F & E); [unfold list_sum in *; lia|]. exists (YNamed q s :: us). split; [constructor; exact H|]. exists ((if eqb_str q (lit "Callable") then s else q) :: ss). split; [|cbn; rewrite E; reflexivity].
        constructor; [|exact F]. destruct (eqb_str q (lit "Callable")) eqn:Q; [apply eqb_str_eq in Q; subst; constructor|]. constructor. intros ->. vm_compute in Q. discriminate.
      + destruct (IH (b :: ts)) as (us & H & ss & F & E); [cbn; unfold list_sum in *; lia|]. exists us. split; [constructor; exact H|]. exists ss. split; [exact F|exact E].
      + destruct (IH (l ++ ts)) as (us & H & ss & F & E); [rewrite map_app, list_sum_app; unfold list_sum in *; lia|]. exists us. split; [constructor; exact H|]. exists ss. split; [exact F|]. rewrite flat_map_app in E. exact E.
      + destruct (IH ts) as (us & H & ss & F & E); [unfold list_sum in *; lia|]. exists (YNone :: us). split; [constructor; exact H|]. exists (lit "None" :: ss). split; [constructor; [constructor|exact F]|cbn; rewrite E; reflexivity].
      + destruct (IH ts) as (us & H & ss & F & E); [unfold list_sum in *; lia|]. exists (YElse r :: us). split; [constructor; exact H|]. exists (r :: ss). split; [constructor; [constructor|exact F]|cbn; rewrite E; reflexivity]. }
  intros n ts Hn. apply (G n). lia.
Qed.
Lemma join_or l : or_list l (str_join (lit " or ") l).
Proof. induction l as [|x l IH]; [constructor|]. destruct l as [|y l]; [constructor|]. change (str_join (lit " or ") (x :: y :: l)) with (x ++ lit " or " ++ str_join (lit " or ") (y :: l)). constructor; [discriminate|exact IH]. Qed.
Lemma shown_actual v a : value_shown v a -> actual v = Ok a.
Proof. intros [w s C E|w C]; unfold actual; rewrite C; [exact E|reflexivity]. Qed.

(** ** C122 *)
(** A TypeError whose text names the parameter, the alternatives in the order given, and the value.  Missing: callables that
    inspect.signature does not know (C122_refuted). *)
Theorem C122_invalid_type_partial : forall name v allowed a, value_shown v a ->
  exists us ss s, stands_for allowed us /\ Forall2 written_as us ss /\ or_list ss s /\
    raise_made (parameter_invalid_type name v allowed) = (TypeError, Some (lit "parameter '" ++ name ++ lit "' must be type " ++ s ++ lit ", not " ++ a)).
Proof.
  intros name v allowed a S. destruct (stands_ex _ allowed (Nat.le_refl _)) as (us & H & ss & F & E). exists us, ss, (build_types_str allowed). split; [exact H|]. split; [exact F|]. split; [unfold build_types_str; rewrite E; apply join_or|].
  unfold parameter_invalid_type. rewrite (shown_actual v a S). reflexivity.
Qed.
Theorem C122_element_partial : forall name v allowed a, value_shown v a ->
  exists us ss s, stands_for allowed us /\ Forall2 written_as us ss /\ or_list ss s /\
    raise_made (parameter_iterable_contains_invalid_type name v allowed) =
    (TypeError, Some (lit "parameter '" ++ name ++ lit "' must contain elements of type " ++ s ++ lit ", however, it contains an element of type " ++ a ++ lit ": " ++ v_str v)).
Proof.
  intros name v allowed a S. destruct (stands_ex _ allowed (Nat.le_refl _)) as (us & H & ss & F & E). exists us, ss, (build_types_str allowed). split; [exact H|]. split; [exact F|]. split; [unfold build_types_str; rewrite E; apply join_or|].
  unfold parameter_iterable_contains_invalid_type. rewrite (shown_actual v a S). reflexivity.
Qed.
(** Every list of types stands for exactly one list of alternatives, and each is named in the text. *)
Theorem C122_unique : forall ts us us', stands_for ts us -> stands_for ts us' -> us = us'.
Proof. intros ts us us' H. revert us'. induction H; intros us' H'; inversion H'; subst; f_equal; auto. Qed.
Theorem C122_each_named : forall ss s x, or_list ss s -> In x ss -> exists pre post, s = pre ++ x ++ post.
Proof.
  intros ss s x O. induction O as [|y|y l s N O IH]; intros I; [destruct I| |].
  - destruct I as [->|[]]. exists [], []. rewrite app_nil_r. reflexivity.
  - destruct I as [->|I]; [exists [], (lit " or " ++ s); reflexivity|]. destruct (IH I) as (pre & post & ->). exists (y ++ lit " or " ++ pre), post. rewrite <- !app_assoc. reflexivity.
Qed.
(** A callable without a signature (inspect.signature(dict) raises ValueError): not a TypeError, and nothing of the text.
    And a union that is not a types.UnionType is written as its __qualname__: Desc(5) asks for type Union. *)
Theorem C122_refuted :
  (forall name v allowed e, v_callable v = true -> v_sig v = Err e -> raise_made (parameter_invalid_type name v allowed) = (e, None)) /\
  (exists v, v_callable v = true /\ v_sig v = Err ValueError) /\
  raise_made (parameter_invalid_type (lit "desc") (PV false (lit "5") (lit "5") (Err TypeError)) [YNamed (lit "Union") (lit "typing.Union[str, typing.Callable[[Ito], str]]")]) =
    (TypeError, Some (lit "parameter 'desc' must be type Union, not 5")).
Proof.
  split; [intros name v allowed e C E; unfold parameter_invalid_type, actual; rewrite C, E; reflexivity|]. split; [exists (PV true (lit "<class 'dict'>") (lit "<class 'dict'>") (Err ValueError)); split; reflexivity|vm_compute; reflexivity].
Qed.
Print Assumptions C122_invalid_type_partial.
Print Assumptions C122_element_partial.
Print Assumptions C122_unique.
Print Assumptions C122_each_named.
Print Assumptions C122_refuted.
Example C122_case : value_shown (PV true (lit "<function f>") (lit "<function f>") (Ok (lit "(x)"))) (lit "(x)") /\
  raise_made (parameter_invalid_type (lit "p") (PV true (lit "<function f>") (lit "<function f>") (Ok (lit "(x)"))) [YPipe [YNamed (lit "str") (lit "<class 'str'>"); YVar (YNamed (lit "Ito") (lit "<class 'Ito'>"))]; YNamed (lit "Callable") (lit "typing.Callable[[Ito], bool]"); YNone]) =
  (TypeError, Some (lit "parameter 'p' must be type str or Ito or typing.Callable[[Ito], bool] or None, not (x)")).
Proof. split; [constructor; reflexivity|vm_compute; reflexivity]. Qed.
