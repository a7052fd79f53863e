(** Facts for Xml.v: layouts, and the statements about a whole document. *)
From Verif Require Import SpecXml PyFacts HeapFacts2 HeapFacts3 HeapFacts4 XmlFacts XmlFacts2 XmlFacts5 XmlFacts7 XmlFacts8 XmlFacts9.

Lemma att_ok_wf a : att_ok a -> att_wf a.
Proof.
  intros ((Hw & u & Eu) & Hn & (_ & Hv & _)). split; [split; [exact Hw|rewrite Eu; destruct u; discriminate]|]. split; [exact Hn|].
  eapply Forall_impl; [|exact Hv]. intros c Hc. split; intros ->; apply Hc; cbn; auto.
Qed.
Lemma tag_ok_wf n ats sp : tag_ok n ats sp -> tag_wf n ats sp.
Proof. intros (Hn & Ha & Hs & _). split; [exact Hn|]. split; [eapply Forall_impl; [|exact Ha]; exact att_ok_wf|exact Hs]. Qed.
Theorem doc_ok_wf : forall d, doc_ok d -> doc_wf d.
Proof.
  induction d as [n ats sp txt kids sp' IH|n ats sp] using xdoc_ind'; intros Hd; [|exact (tag_ok_wf n ats sp Hd)].
  apply doc_ok_elem in Hd. destruct Hd as (Ht & Hw & _ & Hp & _ & Hk). cbn [doc_wf]. split; [exact (tag_ok_wf n ats sp Ht)|]. split; [exact Hw|]. split; [exact Hp|].
  clear - IH Hk. induction Hk as [|k l [A B] F G]; [exact I|]. inversion IH; subst. split; [apply H1; exact A|]. split; [exact B|]. apply G. assumption.
Qed.
Theorem parse_codec c ok isspace ie pre d post : codec_for c ok -> Forall ok (pre ++ doc_src d ++ post) -> doc_ok d -> parsed c isspace ie pre d post.
Proof. intros C F Hd h W A. exact (parse_made c ok isspace ie pre d post h C F Hd W A). Qed.
Lemma place_sits s a u : at_place s a u -> sits s a u.
Proof. intros (p & q & -> & ->). apply sits_whole. Qed.

Lemma makes_gives f t : makes f t -> gives_tree f t.
Proof. intros M h W A. destruct (M h (conj W A)) as (h' & r & E & X & [W' A'] & (R & P & _) & _). exists h', r. auto 7. Qed.
Lemma text_gives isspace ie s a t h : at_place s a (text_src t) -> Forall piece_ok t -> hwf h -> acyclic h ->
  exists h' o, find_text parser_itors isspace ie s h a (a + zlen (text_src t)) = (h', Ok o) /\ extends h h' /\ hwf h' /\ acyclic h' /\
    match text_trees isspace ie s t a, o with
    | [], None => True
    | [k], Some r => rep h' k r /\ n_par (nd h' r) = None
    | _, _ => False
    end.
Proof.
  intros P F W A. destruct (find_text_made isspace ie s t a h F (place_sits _ _ _ P) (conj W A)) as (h' & o & E & X & [W' A'] & D). exists h', o. split; [exact E|]. split; [exact X|]. split; [exact W'|]. split; [exact A'|].
  destruct D as [(-> & ->)|(k & r & -> & -> & (R & Pr & _) & _)]; [exact I|]. split; assumption.
Qed.
(** the nodes of a tree in document order: descriptor and span *)
Fixpoint listing (t : tree) : list (option pystr * Z * Z) := let (f, ts) := t in (f_desc f, f_start f, f_stop f) :: flat_map listing ts.
Fixpoint hlisting (n : nat) (h : heap) (i : nat) : list (option pystr * Z * Z) :=
  match n with O => [] | S n => let f := n_f (nd h i) in (f_desc f, f_start f, f_stop f) :: flat_map (hlisting n h) (n_kids (nd h i)) end.
Lemma listing_rep h : forall n t i, (t_height t <= n)%nat -> rep h t i -> hlisting n h i = listing t.
Proof.
  induction n as [|n IH]; intros [f ts] i L R; [cbn [t_height] in L; lia|]. cbn [t_height] in L. apply rep_unfold in R. destruct R as [E K]. cbn [hlisting listing]. rewrite E. f_equal.
  assert (L' : Forall (fun t => (t_height t <= n)%nat) ts) by (clear - L; apply le_S_n in L; apply list_max_le in L; rewrite Forall_map in L; exact L). clear L E f.
  induction K as [|t k ts ks Rk K IK]; [reflexivity|]. inversion L'; subst. cbn [flat_map]. f_equal; [apply IH; assumption|apply IK; assumption].
Qed.
(** what the parser makes of the document d alone *)
Definition result (isspace : Z -> bool) (ie : bool) (d : xdoc) : option (list (option pystr * Z * Z)) :=
  match xml_parse utf8 isspace ie [] (doc_src d) (doc_report (event_at (cd_enc utf8) (doc_src d)) d 0) with
  | (h, Ok r) => Some (hlisting (t_height (doc_tree isspace ie (doc_src d) d 0)) h r)
  | (_, Err _) => None
  end.
Lemma parsed_result isspace ie d : parsed utf8 isspace ie [] d [] -> result isspace ie d = Some (listing (doc_tree isspace ie (doc_src d) d 0)).
Proof.
  intros P. unfold parsed in P. cbn [app] in P. rewrite app_nil_r in P. cbv zeta in P. change (zlen []) with 0 in P. destruct (P [] hwf_nil acyclic_nil) as (h & r & E & _ & _ & _ & R & _).
  unfold result. rewrite E. f_equal. apply listing_rep; [lia|exact R].
Qed.
(** deciding the side conditions of examples *)
Fixpoint has_part (sub s : pystr) : bool := prefixb sub s || match s with [] => false | _ :: r => has_part sub r end.
Lemma has_false sub s : has_part sub s = false -> ~ part_of sub s.
Proof.
  intros H (u & v & ->). revert H. induction u as [|x u IH]; cbn [app]; intros H.
  - assert (P : prefixb sub (sub ++ v) = true) by (apply prefixb_spec; exists v; reflexivity). destruct (sub ++ v) as [|y w]; cbn [has_part] in H; rewrite P in H; discriminate.
  - cbn [has_part] in H. apply orb_false_iff in H. apply IH. apply H.
Qed.
Lemma no_slash_b t : firstn 1 (rev (text_src t)) <> lit ">" -> no_slash t.
Proof. intros H u. split; intros E; apply H; rewrite E, rev_app_distr; reflexivity. Qed.
