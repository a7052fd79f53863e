(** Property theorems C131 (empty gaps on request, the complement of a complement) and C30 (any ascending non-gaps). *)
From Verif Require Import Properties_Heap GapFacts GapFacts2 Properties_Combin.

(** sps are the spans of the non-gaps in coordinates of the underlying string *)
Theorem C131_zero_widths_partial : forall src ngs sps desc, u_wf src ->
  Forall2 (ng_abs (u_string src) (u_offset src)) ngs sps ->
  let s := u_offset src in let e := u_offset src + zlen (u_text src) in
  gap_domain s e sps ->
  exists gs, from_gaps src ngs desc true = (gs, None) /\
    gaps_of s e sps (filter (fun g => negb (empty_ito g)) gs) /\
    map f_start (filter empty_ito gs) = touching e sps /\
    StronglySorted (fun x y => f_stop x <= f_start y) gs /\
    Forall (fun g => g = FI (u_string src) (f_start g) (f_stop g) desc None /\ s <= f_start g <= f_stop g /\ f_stop g <= e) gs.
Proof. exact from_gaps_zero. Qed.
(** whatever the order of the non-gaps, the flag changes neither the exception nor the Itos with text *)
Theorem C131_flag : forall src ngs desc, u_wf src ->
  (forall ng sp, In ng ngs -> ng_abs (u_string src) (u_offset src) ng sp -> 0 <= snd sp) ->
  snd (from_gaps src ngs desc true) = snd (from_gaps src ngs desc false) /\
  filter (fun g => negb (empty_ito g)) (fst (from_gaps src ngs desc true)) =
  filter (fun g => negb (empty_ito g)) (fst (from_gaps src ngs desc false)).
Proof. exact from_gaps_zw. Qed.
(** the gaps between the gaps are the runs of what the non-gaps cover, as long as possible *)
Theorem C131_twice_partial : forall src ngs sps desc desc2, u_wf src ->
  Forall2 (ng_abs (u_string src) (u_offset src)) ngs sps ->
  let s := u_offset src in let e := u_offset src + zlen (u_text src) in
  gap_domain s e sps ->
  exists gs gs2, from_gaps src ngs desc false = (gs, None) /\ from_gaps src (map NIto gs) desc2 false = (gs2, None) /\
    (forall k, s <= k < e -> ((exists g, In g gs2 /\ in_f k g) <-> covered sps k)) /\
    Forall (fun g => s <= f_start g < f_stop g /\ f_stop g <= e) gs2 /\
    StronglySorted (fun x y => f_stop x < f_start y) gs2.
Proof. exact from_gaps_twice. Qed.
(** the same for invert_children called on its own result *)
Theorem C131_invert_twice : forall h i desc desc2, hwf h -> (i < length h)%nat ->
  exists h1 r1 h2 r2, invert_children h i desc = (h1, Ok r1) /\ invert_children h1 r1 desc2 = (h2, Ok r2) /\ hwf h2 /\
    n_f (nd h2 r2) = n_f (nd h i) /\ n_par (nd h2 r2) = None /\
    (forall k, h_start h i <= k < h_stop h i -> (covered (kid_spans h2 r2) k <-> covered (kid_spans h i) k)) /\
    StronglySorted (fun x y => snd x < fst y) (kid_spans h2 r2).
Proof. exact invert_twice. Qed.
(** refuted: without the flag an empty Ito can be given (an empty source before its first non-gap) *)
Theorem C131_empty_refuted : exists src ngs gs, u_wf src /\ from_gaps src ngs None false = (gs, None) /\ exists g, In g gs /\ empty_ito g = true.
Proof.
  exists (UIto (FI (lit "abcdef") 3 3 None None)), [NSpan (1, 2)], [FI (lit "abcdef") 3 3 None None].
  split; [vm_compute; repeat split; discriminate|]. split; [vm_compute; reflexivity|].
  eexists. split; [left; reflexivity|reflexivity].
Qed.
Print Assumptions C131_zero_widths_partial.
Print Assumptions C131_flag.
Print Assumptions C131_twice_partial.
Print Assumptions C131_invert_twice.
Example C131_case : gap_domain 0 6 [(1, 2); (2, 4); (4, 4); (5, 6)] /\ touching 6 [(1, 2); (2, 4); (4, 4); (5, 6)] = [2; 4] /\
  from_gaps src6 [NSpan (1, 2); NSpan (2, 4); NSpan (4, 4); NSpan (5, 6)] None true =
    ([FI (lit "abcdef") 0 1 None None; FI (lit "abcdef") 2 2 None None; FI (lit "abcdef") 4 4 None None; FI (lit "abcdef") 4 5 None None], None).
Proof. split; [|vm_compute; split; reflexivity]. split; [repeat constructor; cbn; lia|]. split; [repeat constructor; cbn; lia|discriminate]. Qed.
Example C131_invert_case :
  let a := invert_children demo 1 None in
  let b := invert_children (fst a) 5 None in
  snd a = Ok 5%nat /\ snd b = Ok 8%nat /\ kid_spans demo 1 = [(1, 2)] /\ kid_spans (fst b) 8 = [(1, 2)].
Proof. vm_compute. repeat split; reflexivity. Qed.

(** ** C30 on any non-gaps with ascending starts *)
(** exactly what is given: the piece before the first non-gap, and one from each
    non-gap to the one after it in the list, up to the first that reaches the
    end; in order *)
Theorem C30_ordered_partial : forall src ngs sps desc, u_wf src ->
  Forall2 (ng_abs (u_string src) (u_offset src)) ngs sps -> Forall (fun n => 0 <= fst n <= snd n) sps ->
  StronglySorted (fun x y => fst x <= fst y) sps ->
  let s := u_offset src in let e := u_offset src + zlen (u_text src) in
  exists gs, from_gaps src ngs desc false = (gs, None) /\
    Forall (fun g => g = FI (u_string src) (f_start g) (f_stop g) desc None) gs /\
    StronglySorted (fun x y => f_stop x <= f_start y) gs /\
    (forall a b, In (FI (u_string src) a b desc None) gs <-> gap_before s e sps a b \/ gap_after e sps a b).
Proof. exact from_gaps_any. Qed.
(** nothing uncovered is ever missed, and the answer is right exactly when no
    non-gap reaches beyond a later one that is followed by a gap *)
Theorem C30_right_exactly_partial : forall src ngs sps desc, u_wf src ->
  Forall2 (ng_abs (u_string src) (u_offset src)) ngs sps ->
  let s := u_offset src in let e := u_offset src + zlen (u_text src) in
  Forall (fun n => 0 <= fst n <= snd n /\ s <= snd n) sps -> s < e ->
  StronglySorted (fun x y => fst x <= fst y) sps ->
  exists gs, from_gaps src ngs desc false = (gs, None) /\
    (forall k, s <= k < e -> ~ covered sps k -> exists g, In g gs /\ in_f k g) /\
    (gaps_of s e sps gs <-> ~ outreached e sps).
Proof. exact from_gaps_right_when. Qed.
(** exactly when it raises, whatever the flag *)
Theorem C30_raises_exactly : forall src ngs sps desc zw, u_wf src ->
  Forall2 (ng_abs (u_string src) (u_offset src)) ngs sps -> Forall (fun n => fst n <= snd n) sps ->
  let e := u_offset src + zlen (u_text src) in
  (snd (from_gaps src ngs desc zw) = Some ValueError /\ disordered e sps) \/
  (snd (from_gaps src ngs desc zw) = None /\ ~ disordered e sps).
Proof. exact from_gaps_error. Qed.
Print Assumptions C30_ordered_partial.
Print Assumptions C30_right_exactly_partial.
Print Assumptions C30_raises_exactly.
(** a nested non-gap does no harm if the next one begins before it ends or where it ends *)
Example C30_right_case : ~ outreached 6 [(1, 4); (2, 3); (3, 4)] /\ ~ ascending [(1, 4); (2, 3); (3, 4)] /\
  from_gaps src6 [NSpan (1, 4); NSpan (2, 3); NSpan (3, 4)] None false = ([FI (lit "abcdef") 0 1 None None; FI (lit "abcdef") 4 6 None None], None).
Proof.
  split; [|split; [|vm_compute; reflexivity]].
  - intros (l1 & b & l2 & E & _ & H & a & Ha & Hab).
    destruct l1 as [|x [|y [|z [|w l1]]]]; cbn [app] in E; inversion E; subst; cbn in H, Ha, Hab.
    + destruct Ha.
    + lia.
    + destruct Ha as [<-|[<-|[]]]; cbn in Hab; lia.
  - intros H. inversion H as [|? ? _ HF]; subst. inversion HF as [|? ? H1 _]; subst. cbn in H1. lia.
Qed.
Example C30_wrong_case : outreached 6 [(1, 4); (2, 3)] /\
  from_gaps src6 [NSpan (1, 4); NSpan (2, 3)] None false = ([FI (lit "abcdef") 0 1 None None; FI (lit "abcdef") 3 6 None None], None).
Proof.
  split; [|vm_compute; reflexivity]. exists [(1, 4)], (2, 3), []. split; [reflexivity|].
  split; [repeat constructor; cbn; lia|]. split; [exact Logic.I|]. exists (1, 4). split; [left; reflexivity|cbn; lia].
Qed.
Example C30_raises_case : disordered 6 [(2, 3); (1, 1)] /\ snd (from_gaps src6 [NSpan (2, 3); NSpan (1, 1)] None false) = Some ValueError.
Proof.
  split; [|vm_compute; reflexivity]. exists [], (2, 3), (1, 1), []. split; [reflexivity|].
  split; [constructor; [cbn; lia|constructor]|cbn; lia].
Qed.
