(** Property theorem C110: Itorator.clone. *)
From Verif Require Import ArborClone SpecArbor.

(** an itorator given by a function (Itorator.wrap); one with nothing attached to it *)
Definition wraps_function (x : itorator) : Prop := exists f, it_tr x = TWrap f.
Definition bare (x : itorator) : Prop := it_cons x = [] /\ it_post x = PostNone.

(** ** C110 a clone does what the original does and has the tag asked for.
    Proved for wrapped functions with nothing attached. *)
Theorem C110_clone_partial : forall x tag, wraps_function (tg_it x) -> bare (tg_it x) ->
  exists y, clone_itor x tag = Ok y /\ tg_tag y = (match tag with Some t => Some t | None => tg_tag x end) /\
  forall P t u fuel i h, P t = tg_it x -> P u = tg_it y -> drain (call fuel P u i) h = drain (call fuel P t i) h.
Proof.
  intros [x tg] tag [f F] [C O]. cbn [tg_it tg_tag] in *. unfold clone_itor. cbn [tg_it tg_tag]. rewrite F. eexists. split; [reflexivity|]. cbn [tg_it tg_tag]. split; [destruct tag; reflexivity|].
  intros P t u fuel i h T U. destruct x as [tr co po]. cbn in F, C, O. subst tr co po. unfold call. destruct fuel as [|n]; [reflexivity|]. cbn [traverse]. rewrite T, U. reflexivity.
Qed.
Print Assumptions C110_clone_partial.
(** clone has no other successes: every other kind of itorator raises TypeError, whatever it holds *)
Theorem C110_others_refuted : forall x tag, (forall f, it_tr (tg_it x) <> TWrap f) -> clone_itor x tag = Err TypeError.
Proof. intros [x tg] tag N. cbn [tg_it] in N. unfold clone_itor. cbn [tg_it]. destruct (it_tr x) as [f| | | | | | | |]; try reflexivity. contradiction (N f eq_refl). Qed.
(** what is attached to a wrapped function is not cloned: here the original yields two Itos, its clone one *)
Definition doubling : prog := fun t => match t with
  | 0%nat => Itor (TWrap (fun i => Yield i Stop)) [Con Recurse (PFun (fun _ _ => Ok true)) 2] PostNone
  | 1%nat => Itor (TWrap (fun i => Yield i Stop)) [] PostNone
  | _ => Itor (TWrap (fun i => Yield i (Yield i Stop))) [] PostNone
  end.
Theorem C110_attached_refuted : let h := [Nd (FI (lit "ab") 0 2 None None) None []] in
  clone_itor (Tagged (doubling 0%nat) None) None = Ok (Tagged (doubling 1%nat) None) /\
  snd (drain (call 5 doubling 0 0) h) = ([1%nat; 1%nat], None) /\ snd (drain (call 5 doubling 1 0) h) = ([1%nat], None).
Proof. split; [reflexivity|]. vm_compute. auto. Qed.
Print Assumptions C110_attached_refuted.
Example C110_case : let x := Tagged (doubling 1%nat) (Some (lit "old")) in
  wraps_function (tg_it x) /\ bare (tg_it x) /\ clone_itor x (Some (lit "new")) = Ok (Tagged (doubling 1%nat) (Some (lit "new"))).
Proof. split; [eexists; reflexivity|]. split; [split; reflexivity|reflexivity]. Qed.
