(** Property theorem C111: searches by local name. *)
From Verif Require Import SpecXmlFind XmlHelpFacts.

(** induction over elements and those in them *)
Lemma element_rect2 (P : element -> Prop) : (forall i t l, Forall P l -> P (Element i t l)) -> forall e, P e.
Proof. intros H. fix F 1. intros [i t l]. apply H. induction l as [|c l IH]; constructor; [apply F|exact IH]. Qed.

Lemma local_iff tag name : local_name tag name <-> get_local_name tag = name.
Proof.
  pose proof (clark_parts tag) as H. unfold local_name. destruct (get_namespace tag) as [n|] eqn:E.
  - destruct H as [(u & -> & N) T]. split.
    + intros [[M _]|(ns & M & T')]; [exfalso; apply M; rewrite T; apply in_or_app; left; apply in_or_app; right; left; reflexivity|].
      rewrite T in T'. rewrite <- app_assoc in T'. revert ns N M T'. generalize (get_local_name tag) as w. clear. induction u as [|c u IH]; intros w [|d ns] N M T.
      * cbn in T. congruence.
      * cbn in T. injection T as T _. contradiction M. left. auto.
      * cbn in T. injection T as T _. contradiction N. left. auto.
      * cbn in T. injection T as <- T. eapply IH; [| |exact T]; intros Q; [apply N|apply M]; right; exact Q.
    + intros <-. right. exists u. split; [exact N|]. rewrite T at 1. rewrite <- app_assoc. reflexivity.
  - destruct H as [N T]. split.
    + intros [[_ ->]|(ns & _ & T')]; [exact T|]. contradiction N. rewrite T'. apply in_or_app. right. left. reflexivity.
    + intros <-. left. rewrite T. auto.
Qed.


Definition spot := (list nat * element)%type.
Definition before (a b : spot) : Prop := earlier (fst a) (fst b).
(** the spots ps of the elements of es *)
Definition lists (es : list element) (R : list nat -> element -> Prop) (ps : list spot) : Prop :=
  map snd ps = es /\ StronglySorted before ps /\ forall p x, In (p, x) ps <-> R p x.

Lemma SS_cat {A} (R : A -> A -> Prop) l l' : StronglySorted R l -> StronglySorted R l' -> (forall a b, In a l -> In b l' -> R a b) -> StronglySorted R (l ++ l').
Proof.
  induction 1 as [|a l H IH F]; intros S' C; [exact S'|]. cbn. constructor.
  - apply IH; [exact S'|]. intros x y Hx Hy. apply C; [right|]; assumption.
  - apply Forall_app. split; [exact F|]. apply Forall_forall. intros y Hy. apply C; [left; reflexivity|exact Hy].
Qed.
Lemma SS_map {A B} (R : B -> B -> Prop) (f : A -> B) l : StronglySorted (fun a b => R (f a) (f b)) l -> StronglySorted R (map f l).
Proof. induction 1 as [|a l H IH F]; cbn; constructor; [exact IH|]. apply Forall_map. exact F. Qed.
Lemma SS_weak {A} (R R' : A -> A -> Prop) l : (forall a b, R a b -> R' a b) -> StronglySorted R l -> StronglySorted R' l.
Proof. intros W. induction 1 as [|a l H IH F]; constructor; [exact IH|]. eapply Forall_impl; [|exact F]. auto. Qed.
Lemma SS_filter {A} (R : A -> A -> Prop) f l : StronglySorted R l -> StronglySorted R (filter f l).
Proof. induction 1 as [|a l H IH F]; cbn; [constructor|]. destruct (f a); [|exact IH]. constructor; [exact IH|]. apply Forall_forall. intros b Hb. apply filter_In in Hb. rewrite Forall_forall in F. apply F. apply Hb. Qed.

(** below a list of children, the first of which has the number k *)
Definition under (k : nat) (l : list element) (p : list nat) (x : element) : Prop :=
  exists n c q, p = (k + n)%nat :: q /\ nth_error l n = Some c /\ reached c q x.
Lemma kids_listed l : Forall (fun e => exists ps, lists (et_iter e) (reached e) ps) l -> forall k, exists ps, lists (flat_map et_iter l) (under k l) ps.
Proof.
  induction 1 as [|c l (ps & M & S1 & I1) _ IH]; intros k.
  - exists []. split; [reflexivity|]. split; [constructor|]. intros p x. split; [intros []|]. intros (n & c & q & _ & N & _). destruct n; discriminate.
  - destruct (IH (S k)) as (qs & M' & S' & I').
    exists (map (fun a : spot => (k :: fst a, snd a)) ps ++ qs). split; [|split].
    + rewrite map_app, map_map. cbn [flat_map]. f_equal; [exact M|exact M'].
    + apply SS_cat; [|exact S'|].
      * apply SS_map. eapply SS_weak; [|exact S1]. intros a b H. apply Same. exact H.
      * intros a [q y] Ha Hb. apply in_map_iff in Ha. destruct Ha as ([p x] & <- & _). apply I' in Hb. destruct Hb as (n & c' & q' & -> & _). apply Left. lia.
    + intros p x. rewrite in_app_iff, I'. split.
      * intros [H|(n & c' & q & -> & N & R)].
        -- apply in_map_iff in H. destruct H as ([q y] & [= <- <-] & H). apply I1 in H. exists 0%nat, c, q. rewrite Nat.add_0_r. auto.
        -- exists (S n), c', q. split; [f_equal; lia|]. auto.
      * intros (n & c' & q & -> & N & R). destruct n as [|n].
        -- cbn in N. injection N as <-. left. apply in_map_iff. exists (q, x). rewrite Nat.add_0_r. split; [reflexivity|]. apply I1. exact R.
        -- right. exists n, c', q. split; [f_equal; lia|]. auto.
Qed.
Lemma iter_listed e : exists ps, lists (et_iter e) (reached e) ps.
Proof.
  induction e as [i t l IH] using element_rect2. destruct (kids_listed l IH 0) as (qs & M & S' & I').
  exists (([], Element i t l) :: qs). split; [cbn; f_equal; exact M|]. split.
  - constructor; [exact S'|]. apply Forall_forall. intros [q y] H. apply I' in H. destruct H as (n & c & r & -> & _). apply Above.
  - intros p x. split.
    + intros [[= <- <-]|H]; [apply Here|]. apply I' in H. destruct H as (n & c & q & -> & N & R). eapply Down; [exact N|exact R].
    + intros R. inversion R as [|e n c q y N R']; subst; [left; reflexivity|]. right. apply I'. exists n, c, q. auto.
Qed.

(** ** C111 the search yields exactly the descendants with this local name, each once, in document order *)
Theorem C111_all : forall e name, exists ps : list (list nat * element),
  find_all_by_local_name e name = map snd ps /\ StronglySorted (fun a b => earlier (fst a) (fst b)) ps /\
  forall p x, In (p, x) ps <-> called e name p x.
Proof.
  intros e name. unfold find_all_by_local_name, findall_below.
  destruct (kids_listed (e_kids e) (proj2 (Forall_forall _ _) (fun c _ => iter_listed c)) 0) as (ps & M & S' & I').
  exists (filter (fun a : spot => eqb_str name (get_local_name (e_tag (snd a)))) ps). split; [|split].
  - rewrite <- M. clear. induction ps as [|a ps IH]; [reflexivity|]. cbn [map filter]. destruct (eqb_str _ _); cbn [map]; rewrite IH; reflexivity.
  - apply SS_filter. exact S'.
  - intros p x. rewrite filter_In, I', eqb_str_eq. cbn [snd]. unfold called. rewrite local_iff. split.
    + intros [(n & c & q & -> & N & R) E]. split; [discriminate|]. split; [eapply Down; [exact N|exact R]|]. auto.
    + intros (Ne & R & E). split; [|auto]. inversion R as [|e' n c q y N R']; subst; [contradiction Ne; reflexivity|]. exists n, c, q. auto.
Qed.
Print Assumptions C111_all.
(** ** C111 the single search gives the first of them, and None exactly when there is none *)
Theorem C111_first : forall e name, match find_by_local_name e name with
  | Some x => exists p, called e name p x /\ forall q y, called e name q y -> q = p \/ earlier p q
  | None => forall p x, ~ called e name p x
  end.
Proof.
  intros e name. unfold find_by_local_name. destruct (C111_all e name) as (ps & -> & S' & I').
  destruct ps as [|[p x] ps]; cbn.
  - intros p x H. apply I' in H. exact H.
  - exists p. split; [apply I'; left; reflexivity|]. intros q y H. apply I' in H. destruct H as [[= -> _]|H]; [left; reflexivity|]. right. apply StronglySorted_inv in S'. destruct S' as [_ F]. rewrite Forall_forall in F. exact (F _ H).
Qed.
Print Assumptions C111_first.
Example C111_case : let x := fun n t l => Element n t l in
  let e := x 0%nat (lit "{u}a") [x 1%nat (lit "b") [x 2%nat (lit "{u}c") []; x 3%nat (lit "{v}a") [x 4%nat (lit "{u}c") []]]; x 5%nat (lit "a") []] in
  map e_id (find_all_by_local_name e (lit "c")) = [2%nat; 4%nat] /\ map e_id (find_all_by_local_name e (lit "a")) = [3%nat; 5%nat] /\
  find_by_local_name e (lit "d") = None /\ called e (lit "c") [0%nat; 1%nat; 0%nat] (x 4%nat (lit "{u}c") []).
Proof.
  cbv zeta. split; [vm_compute; reflexivity|]. split; [vm_compute; reflexivity|]. split; [vm_compute; reflexivity|].
  split; [discriminate|]. split; [repeat (eapply Down; [reflexivity|]); apply Here|]. right. exists (lit "{u"). split; [|reflexivity]. intros [H|[H|[]]]; discriminate.
Qed.
