(** Facts for C130. *)
From Verif Require Import ArborFacts2 ArborFacts3 ArborFacts4 HeapFacts2 HeapFacts3 HeapFacts4 SpecSimple.

Lemma for_each_one f (s : strm) : (forall x h, f x h = (h, ([x], None))) -> forall h, for_each f s h = drain s h.
Proof.
  intros F. induction s as [|e|i k IH|g k IH]; intros h; cbn [for_each drain]; auto. rewrite F, IH. destruct (drain k h) as [h2 [l e]]. reflexivity.
Qed.
Lemma call_alone P t tr n h i : P t = alone tr -> hwf h -> acyclic h -> (i < length h)%nat ->
  exists h1 j, copy_of h i unchanged h1 j /\ drain (call (S n) P t i) h = drain (transform_of (call n P) tr j) h1.
Proof.
  intros E H Ha Hi. destruct (clone_plain h i H Ha Hi) as (tt & h1 & C & R & R1 & N & X & F & H1 & A1). exists h1, (length h). split.
  - split; [exists tt; split; [exact R|destruct tt; exact R1]|]. split; [exact N|]. split; [|auto]. split; [lia|].
    destruct (clone_same h i H Ha Hi) as (h1' & Ec & _ & L1 & _). unfold clone_of in Ec. rewrite C in Ec. injection Ec as <-. exact L1.
  - unfold call. rewrite drain_act. unfold clone_of. rewrite C. cbn [traverse]. rewrite E. cbn [it_post it_cons it_tr alone run_post]. rewrite drain_sfor.
    cbn [flow]. apply for_each_one. intros x h'. reflexivity.
Qed.

(** writing one field of the root of a fresh copy *)
Lemma copy_upd h i f g h1 j : copy_of h i f h1 j -> (forall x, f_str (g x) = f_str x /\ f_start (g x) = f_start x /\ f_stop (g x) = f_stop x) ->
  copy_of h i (fun x => g (f x)) (upd_f h1 j g) j.
Proof.
  intros ((t & R & R1) & N & (L0 & L) & X & F & W & A) G.
  assert (ND : forall k, n_kids (nd (upd_f h1 j g) k) = n_kids (nd h1 k) /\ n_par (nd (upd_f h1 j g) k) = n_par (nd h1 k) /\ (k <> j -> nd (upd_f h1 j g) k = nd h1 k)).
  { intros k. unfold upd_f. rewrite nd_upd. destruct (Nat.eqb_spec k j) as [->|Ne]; cbn [andb]; [|auto]. replace (j <? length h1)%nat with true by (symmetry; apply Nat.ltb_lt; exact L). cbn [n_kids n_par]. repeat split. congruence. }
  assert (AN : forall a b, anc (upd_f h1 j g) a b -> anc h1 a b).
  { intros a b Q. induction Q as [k Hk|k q Hk Hq IH]; [apply anc_parent|apply (anc_up _ _ _ q); [|exact IH]]; destruct (ND k) as (_ & E2 & _); congruence. }
  split; [|split; [|split; [|split; [|split; [|split]]]]].
  - exists t. split; [exact R|]. apply rep_unfold in R1. destruct R1 as (Ef & Fk). apply rep_unfold. split.
    + unfold upd_f. rewrite nd_upd, Nat.eqb_refl. replace (j <? length h1)%nat with true by (symmetry; apply Nat.ltb_lt; exact L). cbn [andb n_f]. rewrite Ef. reflexivity.
    + destruct (ND j) as (-> & _). assert (K : Forall (fun c => In c (n_kids (nd h1 j))) (n_kids (nd h1 j))) by (apply Forall_forall; auto). revert K Fk. generalize (n_kids (nd h1 j)) at 2 3 4. intros ks K Fk.
      induction Fk as [|u k us ks Hu Fk IH]; [constructor|]. inversion K as [|? ? K1 K2]; subst. constructor; [|exact (IH K2)].
      apply (rep_frame h1 _ W u k Hu). intros m Hm. assert (Nm : m <> j).
      { apply (hwf_kid h1 W) in K1. destruct K1 as (K1 & _). intros ->. destruct Hm as [Hm|Hm]; [subst k; apply (A j); apply anc_parent; exact K1|]. apply (A j). eapply anc_trans; [apply anc_parent; exact K1|exact Hm]. }
      destruct (ND m) as (_ & _ & Q). rewrite (Q Nm). auto.
  - destruct (ND j) as (_ & -> & _). exact N.
  - unfold upd_f. rewrite upd_length. lia.
  - intros k Hk. destruct (ND k) as (_ & _ & Q). rewrite Q by lia. apply X. exact Hk.
  - intros k Hk. apply F. apply AN. exact Hk.
  - apply hwf_upd_f; assumption.
  - intros k Hk. exact (A k (AN k k Hk)).
Qed.
Section Simple.
Context (P : prog) (t n : nat) (h : heap) (i : nat).
Context (H : hwf h) (Ha : acyclic h) (Hi : (i < length h)%nat).
Lemma run_reflect : P t = alone TReflect -> exists h' j, drain (call (S n) P t i) h = (h', ([j], None)) /\ copy_of h i unchanged h' j.
Proof. intros E. destruct (call_alone P t _ n h i E H Ha Hi) as (h1 & j & C & D). exists h1, j. rewrite D. split; [reflexivity|exact C]. Qed.
Lemma run_wrap g : P t = alone (TWrap g) -> exists h1 j, copy_of h i unchanged h1 j /\ drain (call (S n) P t i) h = drain (g j) h1.
Proof. intros E. destruct (call_alone P t _ n h i E H Ha Hi) as (h1 & j & C & D). exists h1, j. split; [exact C|exact D]. Qed.
Lemma run_desc g : P t = alone (TDesc g) -> exists h1 j, copy_of h i unchanged h1 j /\
  match g h1 j with
  | Ok d => exists h', drain (call (S n) P t i) h = (h', ([j], None)) /\ copy_of h i (with_desc d) h' j
  | Err e => drain (call (S n) P t i) h = (h1, ([], Some e))
  end.
Proof.
  intros E. destruct (call_alone P t _ n h i E H Ha Hi) as (h1 & j & C & D). exists h1, j. split; [exact C|]. rewrite D. cbn [transform_of]. rewrite drain_ask. destruct (g h1 j) as [d|e]; [|reflexivity].
  rewrite drain_act. unfold set_desc. cbn [drain]. eexists. split; [reflexivity|]. apply (copy_upd h i unchanged (with_desc d) h1 j C). intros x. auto.
Qed.
Lemma run_value_func v : P t = alone (TValueFunc v) -> exists h' j, drain (call (S n) P t i) h = (h', ([j], None)) /\ copy_of h i (with_value_func v) h' j.
Proof.
  intros E. destruct (call_alone P t _ n h i E H Ha Hi) as (h1 & j & C & D). rewrite D. cbn [transform_of]. rewrite drain_act. unfold set_vf. cbn [drain].
  eexists _, j. split; [reflexivity|]. apply (copy_upd h i unchanged (with_value_func v) h1 j C). intros x. auto.
Qed.
Lemma run_filter p : P t = alone (TFilter p) -> exists h1 j, copy_of h i unchanged h1 j /\
  drain (call (S n) P t i) h = (h1, match p h1 j with Ok true => ([j], None) | Ok false => ([], None) | Err e => ([], Some e) end).
Proof.
  intros E. destruct (call_alone P t _ n h i E H Ha Hi) as (h1 & j & C & D). exists h1, j. split; [exact C|]. rewrite D. cbn [transform_of]. rewrite drain_ask. destruct (p h1 j) as [[|]|e]; reflexivity.
Qed.
End Simple.
