(** Property theorems C12, second part: white-space splitting of Itos that begin anywhere in their string. *)
From Verif Require Import WsFacts.
Open Scope Z_scope.
Import ListNotations.

(** ** C12: forwards.  Every Ito: the call returns, the pieces lie in the Ito, and after each word as many
    characters are passed over as stand before the Ito in its string *)
Theorem C12_split_exact : forall isspace self m fuel, fwf self -> (Z.to_nat (ito_len self) < fuel)%nat ->
  exists rs, str_wsplit fuel isspace self m = Ok rs /\
    words_skip isspace (Z.to_nat (f_start self)) 0 m (ito_str self) (map ito_str rs) /\ Forall (fun p => within p self) rs.
Proof. exact (fun isspace self m fuel H => wsplit_skip isspace self H m fuel). Qed.
Print Assumptions C12_split_exact.
(** the description leaves no choice; with nothing before the Ito it is that of str.split *)
Theorem C12_split_exact_unique : forall p later m s l l', words_skip p later 0 m s l -> words_skip p later 0 m s l' -> l = l'.
Proof. exact (fun p later m s l l' => words_skip_unique p later 0 m s l l'). Qed.
Theorem C12_split_exact_0 : forall p m s l, words_skip p 0 0 m s l <-> words p m s l.
Proof. exact words_skip_0. Qed.
Print Assumptions C12_split_exact_0.
(** so one word with white space around it is found wherever the Ito begins *)
Theorem C12_one_word_partial : forall isspace self m fuel a w b, fwf self -> (Z.to_nat (ito_len self) < fuel)%nat -> m <> 0 ->
  ito_str self = a ++ w ++ b -> all_of isspace a -> w <> [] -> none_of isspace w -> all_of isspace b ->
  exists rs, str_wsplit fuel isspace self m = Ok rs /\ map ito_str rs = [w] /\ Forall (fun p => within p self) rs.
Proof.
  intros isspace self m fuel a w b H F M E A W N B. destruct (wsplit_skip isspace self H m fuel F) as (rs & R & S & I). exists rs. split; [exact R|]. split; [|exact I].
  rewrite E in S. exact (words_skip_unique _ _ _ _ _ _ _ S (words_skip_one isspace _ m a w b A W N B M)).
Qed.
Print Assumptions C12_one_word_partial.

(** ** C12: backwards.  Right wherever the Ito begins when nothing is to be split or there is no word *)
Theorem C12_rsplit_zero_partial : forall isspace self fuel, fwf self -> (0 < fuel)%nat ->
  exists rs, str_rwsplit fuel isspace self 0 = Ok rs /\ rwords isspace 0 (ito_str self) (map ito_str rs) /\ Forall (fun p => within p self) rs.
Proof. exact rsplit_zero. Qed.
Print Assumptions C12_rsplit_zero_partial.
Theorem C12_rsplit_blank_partial : forall isspace self m fuel, fwf self -> (0 < fuel)%nat -> all_of isspace (ito_str self) ->
  str_rwsplit fuel isspace self m = Ok [].
Proof. exact rsplit_blank. Qed.
Print Assumptions C12_rsplit_blank_partial.
(** otherwise str_rsplit() never returns a list: whatever the text, an Ito that does not begin at 0 and holds a word
    either makes it raise IndexError or keeps it running for ever *)
Theorem C12_rsplit_never_refuted : forall isspace self m fuel, fwf self -> 0 < f_start self -> m < 0 -> ~ all_of isspace (ito_str self) ->
  str_rwsplit fuel isspace self m = Err IndexError \/ str_rwsplit fuel isspace self m = Err OutOfFuel.
Proof. exact (fun isspace self m fuel H S => rsplit_never isspace self H S m fuel). Qed.
Print Assumptions C12_rsplit_never_refuted.

Definition blank (c : Z) : bool := c =? 32.
Example C12_exact_case : fwf (FI (lit "_ ab cde  f ") 1 12 None None) /\
  (exists rs, str_wsplit 100 blank (FI (lit "_ ab cde  f ") 1 12 None None) (-1) = Ok rs /\ map ito_str rs = [lit "ab"; lit "cde"; lit "f"]) /\
  (exists rs, str_wsplit 100 blank (FI (lit "__ab cde  f ") 2 12 None None) (-1) = Ok rs /\ map ito_str rs = [lit "ab"; lit "de"; lit "f"]) /\
  (exists rs, str_wsplit 100 blank (FI (lit "__ ab ") 2 6 None None) (-1) = Ok rs /\ map ito_str rs = [lit "ab"]) /\
  (exists rs, str_rwsplit 100 blank (FI (lit "__ab c ") 2 7 None None) 0 = Ok rs /\ map ito_str rs = [lit "ab c"]) /\
  str_rwsplit 100 blank (FI (lit "__ab c") 2 6 None None) (-1) = Err IndexError /\ str_rwsplit 100 blank (FI (lit "__ab c  __") 2 7 None None) (-1) = Err OutOfFuel.
Proof. split; [unfold fwf; vm_compute; repeat split; discriminate|]. repeat split; try (eexists; split; reflexivity); reflexivity. Qed.
