(** Specification vocabulary for VersionParse.v: version identifiers by their parts. *)
From Verif Require Export SpecVersion VersionParse.

(** the parts of an identifier: epoch, release, pre-release (its letters and number), post- and development release, local version *)
Record identifier := Ident { id_epoch : option pystr; id_release : pystr; id_pre : option (pystr * pystr); id_post : option pystr; id_dev : option pystr; id_local : option pystr }.
Definition is_number (u : pystr) : Prop := u <> [] /\ Forall is_digit u.
Definition if_any {A} (P : A -> Prop) (o : option A) : Prop := match o with Some x => P x | None => True end.
Definition release_like (u : pystr) : Prop := exists n ns, u = n ++ tail_of 46 ns /\ is_number n /\ Forall is_number ns.
Definition id_ok (d : identifier) : Prop :=
  if_any is_number (id_epoch d) /\ release_like (id_release d) /\
  if_any (fun p => In (fst p) [lit "a"; lit "b"; lit "rc"] /\ is_number (snd p)) (id_pre d) /\ if_any is_number (id_post d) /\ if_any is_number (id_dev d) /\
  if_any (fun u => exists x ps, u = x ++ concat (map (fun p => fst p :: snd p) ps) /\ alnum_text x /\ Forall (fun p => In (fst p) (lit "-_.") /\ alnum_text (snd p)) ps) (id_local d).
Definition text_if {A} (f : A -> pystr) (o : option A) : pystr := match o with Some x => f x | None => [] end.
(** how it is written *)
Definition id_text (d : identifier) : pystr :=
  text_if (fun n => n ++ lit "!") (id_epoch d) ++ id_release d ++ text_if (fun p => fst p ++ snd p) (id_pre d) ++
  text_if (fun n => lit ".post" ++ n) (id_post d) ++ text_if (fun n => lit ".dev" ++ n) (id_dev d) ++ text_if (fun u => lit "+" ++ u) (id_local d).
(** what the regex module is taken to do: a line feed is white space; the characters of identifiers, and those it takes for letters, are not white space;
    among the ASCII characters a letter stands for itself in either case *)
Definition lower_of (c : Z) : Z := if (65 <=? c) && (c <=? 90) then c + 32 else c.
Definition vc_ok (C : vclasses) : Prop :=
  vc_space C 10 = true /\
  (forall c, is_digit c \/ is_letter c \/ In c (lit ".!+-_") -> vc_space C c = false) /\
  (forall p c, is_letter p -> vc_same C p c = true -> vc_space C c = false) /\
  (forall p c, is_letter p -> 0 <= c < 128 -> (vc_same C p c = true <-> lower_of c = p)).
(** a group t made of letters l and a number n, each behind a separator or none: all three missing, or only the number missing *)
Definition a_sep (u : pystr) : Prop := u = [] \/ In u [lit "-"; lit "_"; lit "."].
Definition labelled_part (t l n : option pystr) : Prop :=
  match t with
  | None => l = None /\ n = None
  | Some u => exists s1 x s2, u = s1 ++ x ++ s2 ++ text_if (fun y => y) n /\ l = Some x /\ a_sep s1 /\ a_sep s2 /\ if_any is_number n
  end.
(** a post release t: letters l and a number n2, or - and a number n1 *)
Definition post_release (t n1 l n2 : option pystr) : Prop :=
  (n1 = None /\ labelled_part t l n2) \/ (exists n, n1 = Some n /\ is_number n /\ t = Some (lit "-" ++ n) /\ l = None /\ n2 = None).
