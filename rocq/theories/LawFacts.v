(** Lemmas for C133: cuts of cuts. *)
From Verif Require Import PlaceFacts PyUniq PyChar Properties_Py ApiFacts.
Import ListNotations.

Lemma f_eq i j k : sibling i j -> sibling i k -> f_start j = f_start k -> f_stop j = f_stop k -> j = k.
Proof. destruct j, k. unfold sibling. cbn. intros (?&?&?) (?&?&?) ? ?. congruence. Qed.
Lemma cut_fwf a j b i : fwf i -> cut_off a j b i -> fwf j.
Proof.
  intros [H1 H2] (E & S & T & X). apply (f_equal zlen) in X. rewrite !zlen_app, (ito_str_len i (conj H1 H2)) in X. unfold ito_len in X.
  pose proof (zlen_nonneg a). pose proof (zlen_nonneg b). pose proof (zlen_nonneg (ito_str j)). unfold fwf. rewrite E. lia.
Qed.

(** slices *)
Lemma slice_eq i a b r : fwf i -> getitem_slice i a b None = Ok r -> let n := ito_len i in
  deref i r = FI (f_str i) (f_start i + clipped n 0 a) (f_start i + Z.max (clipped n 0 a) (clipped n n b)) (f_desc i) (f_vf i).
Proof.
  intros H Hr n. pose proof (sib_slice i a b None r Hr) as (S1 & S2 & S3). destruct (slice_place i a b r H Hr) as (x & y & (C1 & C2 & C3 & _) & X & Y).
  destruct (deref i r) as [s st e d v]. cbn in *. unfold n. fold (ito_len i). unfold ito_len in *. f_equal; congruence || lia.
Qed.
Lemma clipped_range n d i : 0 <= d <= n -> 0 <= clipped n d i <= n.
Proof. intros H. unfold clipped. destruct i as [v|]; [|lia]. destruct (Z.ltb_spec v 0); lia. Qed.
Lemma clipped_id n d k : 0 <= k <= n -> clipped n d (Some k) = k.
Proof. intros H. unfold clipped. destruct (Z.ltb_spec k 0); lia. Qed.
Lemma slice_fwf i a b r : fwf i -> getitem_slice i a b None = Ok r -> fwf (deref i r).
Proof. intros H Hr. destruct (slice_place i a b r H Hr) as (x & y & C & _). exact (cut_fwf _ _ _ _ H C). Qed.
Lemma slice_total i a b : fwf i -> exists r, getitem_slice i a b None = Ok r.
Proof. intros H. destruct (getitem_slice_facts i a b H) as (r & E & _). exists r. exact E. Qed.

Lemma slice_compose i a b c d r1 r2 : fwf i -> getitem_slice i a b None = Ok r1 -> getitem_slice (deref i r1) c d None = Ok r2 ->
  let n := ito_len i in
  let p := clipped n 0 a in
  let m := Z.max p (clipped n n b) - p in
  exists r, getitem_slice i (Some (p + clipped m 0 c)) (Some (p + Z.max (clipped m 0 c) (clipped m m d))) None = Ok r /\ deref i r = deref (deref i r1) r2.
Proof.
  intros H H1 H2 n p m. destruct (slice_total i (Some (p + clipped m 0 c)) (Some (p + Z.max (clipped m 0 c) (clipped m m d))) H) as (r & Hr). exists r. split; [exact Hr|].
  pose proof (slice_fwf _ _ _ _ H H1) as F1. pose proof (slice_eq _ _ _ _ F1 H2) as E2. pose proof (slice_eq _ _ _ _ H Hr) as E. cbv zeta in E, E2. rewrite E, E2. clear E E2 Hr H2.
  pose proof (slice_eq _ _ _ _ H H1) as E1. cbv zeta in E1. fold n p in E1.
  assert (L : ito_len (deref i r1) = m). { rewrite E1. unfold ito_len. cbn. unfold m. lia. }
  rewrite L, E1. cbn [f_str f_start f_stop f_desc f_vf]. fold n.
  assert (Hn : 0 <= n) by (apply ito_len_nonneg; exact H).
  pose proof (clipped_range n 0 a). pose proof (clipped_range n n b). fold p in H0. assert (Hm : 0 <= m /\ p + m <= n) by (unfold m; lia).
  pose proof (clipped_range m 0 c). pose proof (clipped_range m m d).
  rewrite !clipped_id by lia. f_equal; lia.
Qed.

Lemma slice_halves i k : fwf i -> exists r1 r2, getitem_slice i None (Some k) None = Ok r1 /\ getitem_slice i (Some k) None None = Ok r2 /\
  tiles (f_str i) (f_start i) (f_stop i) [deref i r1; deref i r2].
Proof.
  intros H. destruct (slice_total i None (Some k) H) as (r1 & H1). destruct (slice_total i (Some k) None H) as (r2 & H2). exists r1, r2.
  split; [exact H1|]. split; [exact H2|]. pose proof (slice_eq _ _ _ _ H H1) as E1. pose proof (slice_eq _ _ _ _ H H2) as E2. cbv zeta in E1, E2. rewrite E1, E2.
  set (n := ito_len i) in *. assert (Hn : 0 <= n) by (apply ito_len_nonneg; exact H). pose proof (clipped_range n 0 (Some k)). cbn [tiles f_str f_start f_stop].
  assert (X : clipped n n (Some k) = clipped n 0 (Some k)) by reflexivity. rewrite X. unfold clipped at 1 3. 
  change (clipped n n None) with n. change (clipped n 0 None) with 0.
  unfold n, ito_len in *. repeat split; lia.
Qed.

(** strips *)
Lemma strip_pos (p : Z -> bool) (a t b a' t' b' : pystr) : a ++ t ++ b = a' ++ t' ++ b' -> all_of p a' -> begins_out p t -> t <> [] -> (length a' <= length a)%nat.
Proof.
  intros E A B N. destruct (le_lt_dec (length a') (length a)) as [L|L]; [exact L|exfalso].
  destruct t as [|c t]; [congruence|]. assert (In c a').
  { apply (f_equal (fun l => nth (length a) l c)) in E. rewrite app_nth2, Nat.sub_diag in E by lia. cbn [app nth] in E. rewrite app_nth1 in E by lia. rewrite E. apply nth_In. exact L. }
  pose proof (A c H) as Q. rewrite (B c t eq_refl) in Q. discriminate.
Qed.
Lemma cut_unique p i a j b a' j' b' : cut_off a j b i -> cut_off a' j' b' i ->
  all_of p a -> all_of p b -> begins_out p (ito_str j) -> ends_out p (ito_str j) ->
  all_of p a' -> all_of p b' -> begins_out p (ito_str j') -> ends_out p (ito_str j') ->
  ito_str j <> [] -> ito_str j' <> [] -> f_start j = f_start j' /\ f_stop j = f_stop j'.
Proof.
  intros (_ & S & T & X) (_ & S' & T' & X') A B BO EO A' B' BO' EO' N N'. rewrite X in X'. 
  pose proof (strip_pos p _ _ _ _ _ _ X' A' BO N) as L1. pose proof (strip_pos p _ _ _ _ _ _ (eq_sym X') A BO' N') as L2.
  apply (f_equal (@rev Z)) in X'. rewrite !rev_app_distr, <- !app_assoc in X'.
  assert (R : forall (q : pystr), ends_out p q -> begins_out p (rev q)). { intros q E c r Eq. apply (E c (rev r)). rewrite <- (rev_involutive q), Eq. reflexivity. }
  assert (RA : forall (q : pystr), all_of p q -> all_of p (rev q)). { intros q E c Ic. apply E, in_rev, Ic. }
  assert (RN : forall (q : pystr), q <> [] -> rev q <> []). { intros q E Q. apply E. rewrite <- (rev_involutive q), Q. reflexivity. }
  pose proof (strip_pos p _ _ _ _ _ _ X' (RA _ B') (R _ EO) (RN _ N)) as L3. pose proof (strip_pos p _ _ _ _ _ _ (eq_sym X') (RA _ B) (R _ EO') (RN _ N')) as L4.
  rewrite !rev_length in L3, L4. unfold zlen in *. lia.
Qed.
Lemma strip_is_rl isspace i chars : deref i (str_strip isspace i chars) = deref (deref i (str_lstrip isspace i chars)) (str_rstrip isspace (deref i (str_lstrip isspace i chars)) chars).
Proof. unfold str_strip. destruct (str_lstrip isspace i chars); reflexivity. Qed.
Lemma rl_place isspace i chars : fwf i -> let j := deref i (str_rstrip isspace i chars) in let k := deref j (str_lstrip isspace j chars) in
  exists a b, cut_off a k b i /\ all_of (eff_set isspace chars) a /\ all_of (eff_set isspace chars) b /\
  begins_out (eff_set isspace chars) (ito_str k) /\ ends_out (eff_set isspace chars) (ito_str k).
Proof.
  intros H j k. destruct (rstrip_place isspace i chars H) as (b & C & B & N). fold j in C, N. destruct (lstrip_place isspace j chars (cut_fwf _ _ _ _ H C)) as (a & D & A & BO). fold k in D, BO.
  exists a, b. pose proof (cut_trans _ _ _ _ _ _ _ C D) as X. cbn [app] in X. split; [exact X|]. split; [exact A|]. split; [exact B|]. split; [exact BO|].
  intros c r E. destruct D as (_ & _ & _ & D). rewrite app_nil_r in D. apply (N c (a ++ r)). rewrite D, E, app_assoc. reflexivity.
Qed.
Lemma strip_comm isspace i chars c : fwf i -> In c (ito_str i) -> eff_set isspace chars c = false ->
  let j := deref i (str_rstrip isspace i chars) in
  deref j (str_lstrip isspace j chars) = deref i (str_strip isspace i chars).
Proof.
  intros H Ic Pc j. destruct (rl_place isspace i chars H) as (a & b & C & A & B & BO & EO). destruct (strip_place isspace i chars H) as (a' & b' & C' & A' & B' & BO' & EO').
  fold j in C, BO, EO. set (p := eff_set isspace chars) in *.
  assert (NE : forall x y k, cut_off x k y i -> all_of p x -> all_of p y -> ito_str k <> []).
  { intros x y k (_ & _ & _ & X) Ax Ay E. rewrite E in X. cbn [app] in X. rewrite X in Ic. apply in_app_or in Ic. destruct Ic as [I|I]; [pose proof (Ax _ I)|pose proof (Ay _ I)]; congruence. }
  destruct (cut_unique p i _ _ _ _ _ _ C C' A B BO EO A' B' BO' EO' (NE _ _ _ C A B) (NE _ _ _ C' A' B')) as [S T].
  apply (f_eq i); [|apply sib_strip|exact S|exact T]. apply sib_trans with j; [apply sib_rstrip|apply sib_lstrip].
Qed.
Lemma out_nil (p : Z -> bool) t : all_of p t -> begins_out p t -> t = [].
Proof. destruct t as [|c t]; [reflexivity|]. intros A B. pose proof (A c (or_introl eq_refl)) as Q. rewrite (B c t eq_refl) in Q. discriminate. Qed.
Lemma out_nil_r (p : Z -> bool) t : all_of p t -> ends_out p t -> t = [].
Proof. destruct t as [|c r _] using rev_ind; [reflexivity|]. intros A B. assert (Q : p c = true) by (apply A, in_or_app; right; left; reflexivity). rewrite (B c r eq_refl) in Q. discriminate. Qed.
Lemma strip_all isspace i chars : fwf i -> all_of (eff_set isspace chars) (ito_str i) ->
  let l := deref i (str_lstrip isspace i chars) in let r := deref i (str_rstrip isspace i chars) in
  (f_start l = f_stop i /\ f_stop l = f_stop i) /\ (f_start r = f_start i /\ f_stop r = f_start i) /\
  deref i (str_strip isspace i chars) = l /\ deref r (str_lstrip isspace r chars) = r.
Proof.
  intros H A l r. set (p := eff_set isspace chars) in *.
  destruct (lstrip_place isspace i chars H) as (a & C & _ & BO). fold l p in C, BO. destruct (rstrip_place isspace i chars H) as (b & D & _ & EO). fold r p in D, EO.
  pose proof (cut_fwf _ _ _ _ H C) as Fl. pose proof (cut_fwf _ _ _ _ H D) as Fr.
  assert (El : ito_str l = []). { apply (out_nil p); [|exact BO]. intros c Ic. apply A. destruct C as (_ & _ & _ & X). rewrite X. apply in_or_app. right. apply in_or_app. left. exact Ic. }
  assert (Er : ito_str r = []). { apply (out_nil_r p); [|exact EO]. intros c Ic. apply A. destruct D as (_ & _ & _ & X). rewrite X. cbn [app]. apply in_or_app. left. exact Ic. }
  assert (G : forall j, fwf j -> ito_str j = [] -> f_start j = f_stop j). { intros j Fj Ej. apply (f_equal zlen) in Ej. rewrite (ito_str_len j Fj) in Ej. unfold ito_len in Ej. change (zlen (@nil Z)) with 0 in Ej. lia. }
  pose proof (G l Fl El). pose proof (G r Fr Er).
  assert (Tl : f_stop l = f_stop i) by (apply lstrip_stop; exact H). assert (Sr : f_start r = f_start i) by (apply rstrip_start; exact H).
  split; [lia|]. split; [lia|].
  assert (K : forall j x k y, fwf j -> cut_off x k y j -> ito_str j = [] -> f_start k = f_start j /\ f_stop k = f_stop j).
  { intros j x k y Fj (_ & S & T & X) Ej. rewrite Ej in X. symmetry in X. apply app_eq_nil in X. destruct X as [-> X]. apply app_eq_nil in X. destruct X as [_ ->]. change (zlen (@nil Z)) with 0 in *. lia. }
  split.
  - rewrite strip_is_rl. fold l. destruct (rstrip_place isspace l chars Fl) as (y & Cy & _). destruct (K _ _ _ _ Fl Cy El). apply (f_eq l); [apply sib_rstrip|apply sib_refl|lia|lia].
  - destruct (lstrip_place isspace r chars Fr) as (y & Cy & _). destruct (K _ _ _ _ Fr Cy Er). apply (f_eq r); [apply sib_lstrip|apply sib_refl|lia|lia].
Qed.

(** the pieces of rsplit without limit are those of split when sep does not overlap itself *)
Lemma occ_at sep s a b : s = a ++ sep ++ b -> occ sep s (zlen a).
Proof. intros E. apply occ_split. exists a, b. split; [exact E|reflexivity]. Qed.
Lemma occ_prefix sep s t k : occ sep (s ++ t) k -> k + zlen sep <= zlen s -> occ sep s k.
Proof.
  intros (A & B & C) L. pose proof (zlen_nonneg sep). split; [exact A|]. split; [exact L|]. rewrite zsub_app_l in C by lia. exact C.
Qed.
Lemma first_ext sep s a b c : sep <> [] -> no_self_overlap sep -> first_at sep s a b -> first_at sep (s ++ sep ++ c) a (b ++ sep ++ c).
Proof.
  intros N O (E & F). split; [rewrite E, <- !app_assoc; reflexivity|]. intros a' b' E'.
  destruct (le_lt_dec (length a) (length a')) as [L|L]; [exact L|]. 
  pose proof (occ_at _ _ _ _ E') as O'. assert (O1 : occ sep (s ++ sep ++ c) (zlen a)). { apply (occ_at _ _ _ (b ++ sep ++ c)). rewrite E, <- !app_assoc. reflexivity. }
  pose proof (overlap_occ _ _ _ _ O O' O1 ltac:(unfold zlen; lia)) as Q.
  assert (P : occ sep s (zlen a')). { apply (occ_prefix sep s (sep ++ c) (zlen a') O'). rewrite E, !zlen_app. pose proof (zlen_nonneg b). pose proof (zlen_nonneg sep). lia. }
  apply occ_split in P. destruct P as (x & y & Ex & Lx). pose proof (F x y Ex). unfold zlen in *. lia.
Qed.
Lemma first_absent sep s c : sep <> [] -> no_self_overlap sep -> absent sep s -> first_at sep (s ++ sep ++ c) s c.
Proof.
  intros N O A. split; [reflexivity|]. intros a' b' E'. destruct (le_lt_dec (length s) (length a')) as [L|L]; [exact L|exfalso].
  pose proof (occ_at _ _ _ _ E') as O'. pose proof (overlap_occ _ _ _ _ O O' (occ_at _ _ s c eq_refl) ltac:(unfold zlen; lia)) as Q.
  pose proof (occ_prefix sep s (sep ++ c) (zlen a') O' Q) as P. apply occ_split in P. destruct P as (x & y & Ex & _). exact (A x y Ex).
Qed.
Lemma split_snoc sep b : sep <> [] -> no_self_overlap sep -> absent sep b -> forall m s l, split_at sep m s l -> forall m', m < 0 -> m' < 0 -> split_at sep m' (s ++ sep ++ b) (l ++ [b]).
Proof.
  intros N O A m s l H. induction H as [m s E|m s a b0 l M F H IH]; intros m' Hm Hm'; cbn [app].
  - destruct E as [E|E]; [lia|]. apply split_more with b; [lia|apply first_absent; assumption|]. apply split_end. right. exact A.
  - apply split_more with (b0 ++ sep ++ b); [lia|apply first_ext; assumption|]. apply IH; lia.
Qed.
Lemma split_neg sep m s l : split_at sep m s l -> forall m', m < 0 -> m' < 0 -> split_at sep m' s l.
Proof.
  intros H. induction H as [m s E|m s a b0 l M F H IH]; intros m' Hm Hm'.
  - apply split_end. destruct E; [lia|right; assumption].
  - apply split_more with b0; [lia|exact F|apply IH; lia].
Qed.
Lemma rsplit_is_split sep m s l : sep <> [] -> no_self_overlap sep -> rsplit_at sep m s l -> forall m', m < 0 -> m' < 0 -> split_at sep m' s l.
Proof.
  intros N O H. induction H as [m s E|m s a b l M F H IH]; intros m' Hm Hm'.
  - apply split_end. destruct E; [lia|right; assumption].
  - destruct F as (E & F). rewrite E. apply (split_snoc sep b N O) with m'; [|apply IH; lia|lia|lia].
    intros x y Ex. specialize (F (a ++ sep ++ x) y). rewrite E, Ex in F. rewrite <- !app_assoc in F. specialize (F eq_refl). rewrite !app_length in F. destruct sep; [congruence|cbn [length] in F; lia].
Qed.
Lemma laid_out_pos s sep : forall l l' a b b', laid_out s sep a b l -> laid_out s sep a b' l' -> Forall fwf l -> Forall fwf l' -> map ito_str l = map ito_str l' ->
  Forall2 (fun x y => f_start x = f_start y /\ f_stop x = f_stop y) l l'.
Proof.
  induction l as [|x l IH]; intros [|y l'] a b b' H H' F F' E; try discriminate; [constructor|]. cbn [map] in E. inversion F; subst. inversion F'; subst. injection E as Ex El.
  apply (f_equal zlen) in Ex. rewrite !ito_str_len in Ex by assumption. unfold ito_len in Ex.
  destruct l as [|x2 l], l' as [|y2 l']; try discriminate.
  - cbn [laid_out] in H, H'. constructor; [lia|constructor].
  - destruct H as (S & A & B & C & D & H). destruct H' as (S' & A' & B' & C' & D' & H'). assert (Q : f_stop x = f_stop y) by lia.
    constructor; [lia|]. rewrite <- Q in H'. exact (IH _ _ _ _ H H' H3 H5 El).
Qed.
Lemma pair_eq i : forall l l', Forall (sibling i) l -> Forall (sibling i) l' -> Forall2 (fun x y => f_start x = f_start y /\ f_stop x = f_stop y) l l' -> l = l'.
Proof. intros l l' F F' H. induction H as [|x y l l' [E1 E2] H IH]; [reflexivity|]. inversion F; subst. inversion F'; subst. f_equal; [apply (f_eq i); assumption|apply IH; assumption]. Qed.
Lemma laid_out_fwf s sep : forall l a b, 0 <= a -> b <= zlen s -> laid_out s sep a b l -> Forall fwf l.
Proof.
  induction l as [|x l IH]; intros a b Ha Hb H; [constructor|]. destruct l as [|y l].
  - cbn [laid_out] in H. destruct H as (S & A & B & C). constructor; [|constructor]. unfold fwf. rewrite S. lia.
  - destruct H as (S & A & B & C & D & H). pose proof (zlen_nonneg sep). constructor; [unfold fwf; rewrite S; lia|]. apply (IH (f_stop x + zlen sep) b); [lia|exact Hb|exact H].
Qed.
Lemma split_both i sep m m' : fwf i -> sep <> [] -> no_self_overlap sep -> m < 0 -> m' < 0 ->
  exists l r, str_split i sep m = Ok l /\ str_rsplit i sep m' = Ok r /\ map (deref i) l = map (deref i) r.
Proof.
  intros H N O M M'. destruct (str_split_eq i sep m H N) as (l & El & Tl & Ll). destruct (str_rsplit_eq i sep m' H N) as (r & Er & Tr & Lr).
  exists l, r. split; [exact El|]. split; [exact Er|].
  destruct (C11_python_split (ito_str i) sep m N) as [P _]. destruct (C11_python_split (ito_str i) sep m' N) as [_ R].
  pose proof (rsplit_is_split _ _ _ _ N O R m M' M) as R2. pose proof (split_unique _ _ _ _ _ P R2) as U. rewrite <- Tl, <- Tr in U. unfold texts in U.
  pose proof H as [H1 H2]. apply (pair_eq i).
  - rewrite Forall_map. exact (sib_split i sep m l El).
  - rewrite Forall_map. exact (sib_rsplit i sep m' r Er).
  - refine (laid_out_pos _ _ _ _ _ _ _ Ll Lr _ _ _); [apply (laid_out_fwf _ _ _ _ _ (proj1 H1) H2 Ll)|apply (laid_out_fwf _ _ _ _ _ (proj1 H1) H2 Lr)|]. rewrite !map_map. exact U.
Qed.

(** the same for words *)
Lemma words_snoc p b w : all_of p b -> w <> [] -> none_of p w -> forall m s l, words p m s l -> forall m', m < 0 -> m' < 0 -> ends_in p s -> words p m' (s ++ w ++ b) (l ++ [w]).
Proof.
  intros A N W. assert (BI : forall q : pystr, all_of p q -> begins_in p q). { intros q Q c r E. apply Q. rewrite E. left. reflexivity. }
  intros m s l H. induction H as [m s E|a s E1 E2 E3|m a w0 s l M E1 E2 E3 E4 H IH]; intros m' Hm Hm' EI; cbn [app]; [|lia|].
  - apply words_more; [lia|exact E|exact N|exact W|exact (BI b A)|apply words_end; exact A].
  - rewrite <- !app_assoc. assert (s <> []).
    { intros ->. destruct w0 as [|x w1 _] using rev_ind; [congruence|]. assert (Q : p x = true) by (apply (EI x (a ++ w1)); rewrite app_nil_r, app_assoc; reflexivity).
      assert (Q' : p x = false) by (apply E3, in_or_app; right; left; reflexivity). congruence. }
    apply words_more; [lia|exact E1|exact E2|exact E3| |].
    + intros c r E. destruct s as [|c' s]; [congruence|]. cbn [app] in E. injection E as <- _. exact (E4 c' s eq_refl).
    + apply IH; [lia|lia|]. intros c r E. apply (EI c (a ++ w0 ++ r)). rewrite E, <- !app_assoc. reflexivity.
Qed.
Lemma rwords_is_words p m s l : rwords p m s l -> forall m', m < 0 -> m' < 0 -> words p m' s l.
Proof.
  intros H. induction H as [m s E|a s E1 E2 E3|m a w s l M E1 E2 E3 E4 H IH]; intros m' Hm Hm'; [apply words_end; exact E|lia|].
  apply (words_snoc p a w E1 E2 E3 m'); [apply IH; lia|lia|lia|exact E4].
Qed.
Lemma words_none p m s l : words p m s l -> m < 0 -> Forall (fun w => w <> [] /\ none_of p w) l.
Proof. intros H. induction H as [m s E|a s E1 E2 E3|m a w s l M E1 E2 E3 E4 H IH]; intros Hm; [constructor|lia|]. constructor; [split; assumption|apply IH; lia]. Qed.
Lemma strewn_pos p s : forall l l' a b, 0 <= a -> b <= zlen s -> strewn p s a b l -> strewn p s a b l' -> map ito_str l = map ito_str l' -> Forall (fun x => none_of p (ito_str x)) l ->
  Forall2 (fun x y => f_start x = f_start y /\ f_stop x = f_stop y) l l'.
Proof.
  assert (K : forall x y a b, 0 <= a -> b <= zlen s -> f_str x = s -> a <= f_start x < f_stop x -> f_stop x <= b -> f_str y = s -> a <= f_start y < f_stop y -> f_stop y <= b ->
    all_of p (zsub s a (f_start y)) -> none_of p (ito_str x) -> f_start y <= f_start x).
  { intros x y a b Ha Hb Sx X1 X2 Sy Y1 Y2 A N. destruct (Z_le_dec (f_start y) (f_start x)) as [L|L]; [exact L|exfalso].
    assert (Fx : fwf x) by (unfold fwf; rewrite Sx; lia). rewrite (ito_str_zsub x Fx), Sx in N.
    assert (E1 : zsub s a (f_start y) = zsub s a (f_start x) ++ zsub s (f_start x) (f_start y)) by (symmetry; apply zsub_app_split; lia).
    assert (E2 : zsub s (f_start x) (f_start y) = zsub s (f_start x) (f_start x + 1) ++ zsub s (f_start x + 1) (f_start y)) by (symmetry; apply zsub_app_split; lia).
    assert (E3 : zsub s (f_start x) (f_stop x) = zsub s (f_start x) (f_start x + 1) ++ zsub s (f_start x + 1) (f_stop x)) by (symmetry; apply zsub_app_split; lia).
    assert (Z1 : zlen (zsub s (f_start x) (f_start x + 1)) = 1) by (rewrite zsub_len by lia; lia).
    destruct (zsub s (f_start x) (f_start x + 1)) as [|c q]; [discriminate Z1|].
    assert (Q : p c = true) by (apply A; rewrite E1, E2; apply in_or_app; right; left; reflexivity).
    assert (Q' : p c = false) by (apply N; rewrite E3; left; reflexivity). congruence. }
  induction l as [|x l IH]; intros [|y l'] a b Ha Hb H H' E F; try discriminate; [constructor|]. cbn [map] in E. injection E as Ex El. inversion F; subst.
  destruct H as (Sx & X1 & X2 & X3 & H). destruct H' as (Sy & Y1 & Y2 & Y3 & H').
  pose proof (K x y a b Ha Hb Sx X1 X2 Sy Y1 Y2 Y3 H2) as L1. rewrite Ex in H2. pose proof (K y x a b Ha Hb Sy Y1 Y2 Sx X1 X2 X3 H2) as L2.
  apply (f_equal zlen) in Ex. rewrite !ito_str_len in Ex by (unfold fwf; rewrite ?Sx, ?Sy; lia). unfold ito_len in Ex. assert (Q : f_stop x = f_stop y) by lia.
  constructor; [lia|]. rewrite <- Q in H'. apply (IH _ (f_stop x) b); [lia|exact Hb|exact H|exact H'|exact El|exact H3].
Qed.
Lemma words_both isspace i m m' fuel : fwf i -> f_start i = 0 -> (Z.to_nat (ito_len i) < fuel)%nat -> m < 0 -> m' < 0 ->
  exists l, str_wsplit fuel isspace i m = Ok l /\ str_rwsplit fuel isspace i m' = Ok l.
Proof.
  intros H Z0 Fu M M'. destruct (str_wsplit_eq isspace i m fuel H Z0 Fu) as (l & El & Tl & Wl). destruct (str_rwsplit_eq isspace i m' fuel H Z0 Fu) as (r & Er & Tr & Wr).
  exists l. split; [exact El|]. rewrite Er. f_equal.
  destruct (C12_python_split isspace (ito_str i) m) as [P _]. destruct (C12_python_split isspace (ito_str i) m') as [_ R].
  pose proof (rwords_is_words _ _ _ _ R m M' M) as R2. pose proof (words_unique _ _ _ _ _ P R2) as U. rewrite <- Tl, <- Tr in U.
  pose proof H as [H1 H2]. symmetry. apply (pair_eq i); [exact (sib_wsplit _ _ _ _ _ El)|exact (sib_rwsplit _ _ _ _ _ Er)|].
  apply (strewn_pos isspace (f_str i) l r (f_start i) (f_stop i) (proj1 H1) H2); [exact (wsplit_place isspace i m fuel l H Z0 El)|exact (rwsplit_place isspace i m' fuel r H Z0 Er)|exact U|].
  pose proof (words_none _ _ _ _ P M) as F. rewrite <- Tl, Forall_map in F. eapply Forall_impl; [|exact F]. intros x [_ Q]. exact Q.
Qed.
(** stripping again takes nothing *)
Lemma cut_out_l p i a : fwf i -> begins_out p (ito_str i) -> forall j, cut_off a j [] i -> all_of p a -> a = [].
Proof. intros _ B j (_ & _ & _ & X) A. destruct a as [|c a]; [reflexivity|]. pose proof (A c (or_introl eq_refl)) as Q. cbn [app] in X. rewrite (B c _ X) in Q. discriminate. Qed.
Lemma cut_out_r p i b : fwf i -> ends_out p (ito_str i) -> forall j, cut_off [] j b i -> all_of p b -> b = [].
Proof.
  intros _ B j (_ & _ & _ & X) A. destruct b as [|c b _] using rev_ind; [reflexivity|]. assert (Q : p c = true) by (apply A, in_or_app; right; left; reflexivity).
  cbn [app] in X. rewrite app_assoc in X. rewrite (B c _ X) in Q. discriminate.
Qed.
Lemma lstrip_out isspace i chars : fwf i -> begins_out (eff_set isspace chars) (ito_str i) -> deref i (str_lstrip isspace i chars) = i.
Proof.
  intros H B. destruct (lstrip_place isspace i chars H) as (a & C & A & _). rewrite (cut_out_l _ _ _ H B _ C A) in C. destruct C as (_ & S & T & _). change (zlen (@nil Z)) with 0 in *.
  apply (f_eq i); [apply sib_lstrip|apply sib_refl|lia|lia].
Qed.
Lemma rstrip_out isspace i chars : fwf i -> ends_out (eff_set isspace chars) (ito_str i) -> deref i (str_rstrip isspace i chars) = i.
Proof.
  intros H B. destruct (rstrip_place isspace i chars H) as (b & C & A & _). rewrite (cut_out_r _ _ _ H B _ C A) in C. destruct C as (_ & S & T & _). change (zlen (@nil Z)) with 0 in *.
  apply (f_eq i); [apply sib_rstrip|apply sib_refl|lia|lia].
Qed.
Lemma strip_again isspace i chars : fwf i ->
  let lstrip := fun j => deref j (str_lstrip isspace j chars) in
  let rstrip := fun j => deref j (str_rstrip isspace j chars) in
  let strip := fun j => deref j (str_strip isspace j chars) in
  lstrip (lstrip i) = lstrip i /\ rstrip (rstrip i) = rstrip i /\ strip (strip i) = strip i.
Proof.
  intros H lstrip rstrip strip. destruct (lstrip_place isspace i chars H) as (a & C & _ & B). destruct (rstrip_place isspace i chars H) as (b & D & _ & E). destruct (strip_place isspace i chars H) as (x & y & F & _ & _ & G & K).
  split; [exact (lstrip_out isspace _ chars (cut_fwf _ _ _ _ H C) B)|]. split; [exact (rstrip_out isspace _ chars (cut_fwf _ _ _ _ H D) E)|].
  unfold strip at 1. rewrite strip_is_rl. fold (strip i). rewrite (lstrip_out isspace (strip i) chars (cut_fwf _ _ _ _ H F) G). exact (rstrip_out isspace (strip i) chars (cut_fwf _ _ _ _ H F) K).
Qed.
