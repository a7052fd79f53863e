(** Specification vocabulary for C131: empty gaps. *)
From Verif Require Export SpecCombin.

(** the places before e where one span ends and the next one in the list begins *)
Fixpoint touching (e : Z) (sps : list span) : list Z :=
  match sps with
  | a :: (b :: _) as r => if (snd a =? fst b) && (snd a <? e) then snd a :: touching e r else touching e r
  | _ => []
  end.
Definition empty_ito (g : fito) : bool := f_start g =? f_stop g.

(** the piece before the first non-gap (the whole source if there is none) *)
Definition gap_before (s e : Z) (sps : list span) (a b : Z) : Prop :=
  a = s /\ match sps with [] => b = e /\ s < e | c :: _ => b = Z.min (fst c) e /\ s < fst c end.
(** [a,b) lies between a non-gap and the one after it in the list (or e), all
    non-gaps up to there ending before e *)
Definition gap_after (e : Z) (sps : list span) (a b : Z) : Prop :=
  exists l1 n l2, sps = l1 ++ n :: l2 /\ Forall (fun m => snd m < e) (l1 ++ [n]) /\
    a = snd n /\ b = Z.min e (match l2 with [] => e | c :: _ => fst c end) /\ a < b.
(** a non-gap begins before the one it follows in the list, all up to there ending before e *)
Definition disordered (e : Z) (sps : list span) : Prop :=
  exists l1 a b l2, sps = l1 ++ a :: b :: l2 /\ Forall (fun m => snd m < e) (l1 ++ [a]) /\ fst b < fst a.
(** a non-gap reaches beyond the end of a later one, and that one ends before
    the next begins (or before e); all of them up to there end before e *)
Definition outreached (e : Z) (sps : list span) : Prop :=
  exists l1 b l2, sps = l1 ++ b :: l2 /\ Forall (fun m => snd m < e) (l1 ++ [b]) /\
    (match l2 with [] => True | c :: _ => snd b < fst c end) /\ exists a, In a l1 /\ snd b < snd a.
