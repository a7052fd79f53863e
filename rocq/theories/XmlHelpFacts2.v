(** Facts for XmlHelp.v: the queries, the nearest element above a node. *)
From Verif Require Import SpecXmlHelp XmlFacts5 PyFacts UtilFacts HeapFacts HeapFacts2 HeapFacts3 HeapFacts4 HierHeap CombinFacts3 AxisFacts AxisFacts3 QueryFacts9 QueryFacts11 QueryFacts12 QueryFacts13 QueryFacts14 QueryFacts15 QueryFacts16.

Section Env.
  Variables (E : pyenv) (HE : graphic_env E).
  Let PD : plain_delims E := proj1 HE.
  Lemma graphic_printable x s : 33 <= x <= 126 -> In x s -> printable E s.
  Proof. intros Hx I. exists x. split; [exact I|]. apply (proj2 HE). exact Hx. Qed.
  Lemma graphic_value v : eqb_str (escape v) v && match v with x :: _ => (33 <=? x) && (x <=? 126) | [] => false end && negb (last v 0 =? 92) = true -> plain_value E v.
  Proof.
    intros H. apply andb_prop in H. destruct H as [H L]. apply andb_prop in H. destruct H as [Ev Hx]. apply eqb_str_eq in Ev. split; [exact Ev|]. split; [|apply Z.eqb_neq; destruct (last v 0 =? 92); [discriminate|reflexivity]].
    destruct v as [|x t]; [discriminate|]. exists x, t. split; [reflexivity|]. apply (proj2 HE). lia.
  Qed.
  Lemma kids_axis h i : axis_find h (AX AxKids false OsNo) ([i], None) = (number (n_kids (nd h i)), None).
  Proof. rewrite axis_find_one. cbn [axis_of]. apply to_ecs_plain. reflexivity. Qed.
  Lemma star_text : axis_text (AX AxKids false OsNo) (lit "*").
  Proof. exists []. split; [left; reflexivity|reflexivity]. Qed.
  Lemma star_printable : printable E (lit "*").
  Proof. apply (graphic_printable 42); [lia|left; reflexivity]. Qed.
  (** '*[d:v]' *)
  Lemma kids_desc h r i v : hwf h -> plain_value E v -> ito_find_all E h r i (lit "*" ++ written (lit "d") v) = (filter (has_desc h v) (n_kids (nd h i)), None).
  Proof. intros H V. exact (find_desc E h r i _ _ v _ PD H star_text star_printable V (kids_axis h i)). Qed.
  (** '...[d:element]' *)
  Definition elems_above (h : heap) (i : nat) (l : list nat) : Prop :=
    (forall j, In j l <-> anc h j i /\ is_element h j) /\ StronglySorted (fun a b => anc h b a) l.
  Lemma parent_found h r i : hwf h -> acyclic h -> (i < length h)%nat -> exists l, elems_above h i l /\ get_parent_element E r h i = Ok (hd_error l).
  Proof.
    intros H Ha Hi. destruct (axis_full h AxAncs i H Ha Hi I) as (l & L1 & L2 & L3 & L4 & _). exists (filter (has_desc h d_element) l). split.
    - split.
      + intros j. rewrite filter_In, L1, has_desc_iff. cbn [ax_set]. reflexivity.
      + apply (SS_impl (ax_order h AxAncs)); [|apply SS_filter; exact L2]. intros x y Hx Hy O. apply filter_In in Hx, Hy. destruct Hx as [Hx _], Hy as [Hy _]. apply L1 in Hx, Hy. cbn [ax_set] in Hx, Hy. unfold ax_order in O. cbn [ax_backward] in O.
        destruct (anc_comparable h x y i Hx Hy) as [->|[A|A]]; [exfalso; exact (doc_asym h H Ha _ _ O O)|exfalso; exact (doc_asym h H Ha _ _ O (or_introl A))|exact A].
    - unfold get_parent_element. rewrite find_first.
      assert (V : plain_value E d_element) by (apply graphic_value; reflexivity).
      assert (AT : axis_text (AX AxAncs false OsNo) (lit "...")) by (exists []; split; [left; reflexivity|reflexivity]).
      assert (PR : printable E (lit "...")) by (apply (graphic_printable 46); [lia|left; reflexivity]).
      change (lit "...[d:element]") with (lit "..." ++ written (lit "d") d_element). rewrite (find_desc E h r i _ _ d_element l PD H AT PR V L4).
      destruct (filter (has_desc h d_element) l); reflexivity.
  Qed.
  Lemma above_nearest h i l : acyclic h -> elems_above h i l -> nearest h (fun k => anc h k i) (is_element h) (hd_error l).
  Proof.
    intros Ha [L1 L2]. destruct l as [|j l]; cbn [hd_error nearest].
    - intros k A P. apply (proj2 (L1 k)). auto.
    - destruct (proj1 (L1 j) (or_introl eq_refl)) as [A P]. split; [exact A|]. split; [exact P|]. intros k Ak Pk. destruct (proj2 (L1 k) (conj Ak Pk)) as [->|I]; [left; reflexivity|right]. inversion L2 as [|? ? _ F]; subst. rewrite Forall_forall in F. apply F. exact I.
  Qed.
  Lemma above_step h i j l : acyclic h -> elems_above h i (j :: l) -> elems_above h j l.
  Proof.
    intros Ha [L1 L2]. inversion L2 as [|? ? S F]; subst. rewrite Forall_forall in F. split; [|exact S]. intros k. split.
    - intros I. split; [apply F; exact I|]. apply (proj1 (L1 k)). right. exact I.
    - intros [A P]. destruct (proj1 (L1 j) (or_introl eq_refl)) as [Aj _]. destruct (proj2 (L1 k) (conj (anc_trans h k j i A Aj) P)) as [->|I]; [exfalso; exact (Ha k A)|exact I].
  Qed.
  Lemma above_unique h i l l' : acyclic h -> elems_above h i l -> elems_above h i l' -> l = l'.
  Proof.
    intros Ha [A1 A2] [B1 B2]. apply (SS_same (fun a b => anc h b a)); try assumption.
    - intros x y X Y. exact (Ha _ (anc_trans _ _ _ _ X Y)).
    - intros x. rewrite A1, B1. reflexivity.
  Qed.
  Lemma above_length h i l : hwf h -> acyclic h -> elems_above h i l -> (length l <= length h)%nat.
  Proof.
    intros H Ha [L1 L2]. rewrite <- (seq_length (length h) 0). apply NoDup_incl_length.
    - apply (SS_NoDup (fun a b => anc h b a)); [exact Ha|exact L2].
    - intros k I. apply in_seq. apply L1 in I. destruct (anc_bound h k i H (proj1 I)). lia.
  Qed.
  Lemma reverse_found h r test : hwf h -> acyclic h -> forall l i n, (i < length h)%nat -> elems_above h i l -> (length l < n)%nat ->
    reverse_find E r n h test i = Ok (find test (i :: l)).
  Proof.
    intros H Ha. induction l as [|j l IH]; intros i n Hi A L; (destruct n as [|n]; [lia|]); cbn [reverse_find find];
      (destruct (test i); [reflexivity|]); destruct (parent_found h r i H Ha Hi) as (l' & A' & E'); rewrite (above_unique h i _ _ Ha A' A) in E'; rewrite E'; cbn [bind hd_error].
    - reflexivity.
    - apply IH; [|exact (above_step h i j l Ha A)|cbn in L; lia]. destruct (anc_bound h j i H); [apply A; left; reflexivity|assumption].
  Qed.
  Lemma reverse_nearest h i l (test : nat -> bool) : acyclic h -> elems_above h i l ->
    nearest h (fun k => k = i \/ (anc h k i /\ is_element h k)) (fun k => test k = true) (find test (i :: l)).
  Proof.
    intros Ha [L1 L2]. cbn [find]. destruct (test i) eqn:Ei.
    - cbn [nearest]. split; [left; reflexivity|]. split; [exact Ei|]. intros k [->|[A _]] _; [left; reflexivity|right; exact A].
    - destruct (find test l) as [j|] eqn:F; cbn [nearest].
      + pose proof (find_some _ _ F) as [I T]. split; [right; apply L1; exact I|]. split; [exact T|]. intros k [->|K] Tk; [congruence|]. apply L1 in K.
        clear - F K Tk L2 I. induction l as [|x l IH]; [destruct I|]. inversion L2 as [|? ? S Fa]; subst. cbn [find] in F. destruct (test x) eqn:Ex.
        * injection F as ->. destruct K as [->|K]; [left; reflexivity|right]. rewrite Forall_forall in Fa. apply Fa. exact K.
        * destruct K as [->|K]; [congruence|]. apply IH; try assumption. destruct I as [->|I]; [|exact I]. exfalso. pose proof (find_some _ _ F). intuition congruence.
      + intros k [->|K] Tk; [congruence|]. apply L1 in K. rewrite (find_none _ _ F k K) in Tk. discriminate.
  Qed.
End Env.
