(** Specification vocabulary for Version.v: version identifiers as PEP 440 has them,
    [N!]N(.N)*[{a|b|rc}N][.postN][.devN][+local] *)
From Verif Require Export Version.

Definition is_digit (c : Z) : Prop := 48 <= c <= 57.
Definition is_letter (c : Z) : Prop := 97 <= c <= 122.
(** a number without superfluous zeros *)
Definition v_num (u : pystr) : Prop := u = lit "0" \/ exists c r, u = c :: r /\ 49 <= c <= 57 /\ Forall is_digit r.
(** parts behind one another, each behind its mark *)
Definition tail_of (sep : Z) (xs : list pystr) : pystr := concat (map (fun x => sep :: x) xs).
Definition epoch_text (u : pystr) : Prop := u = [] \/ exists n, u = n ++ lit "!" /\ v_num n /\ n <> lit "0".
Definition release_text (u : pystr) : Prop := exists n ns, u = n ++ tail_of 46 ns /\ v_num n /\ Forall v_num ns.
Definition pre_text (u : pystr) : Prop := u = [] \/ exists k n, u = k ++ n /\ In k [lit "a"; lit "b"; lit "rc"] /\ v_num n.
Definition post_text (u : pystr) : Prop := u = [] \/ exists n, u = lit ".post" ++ n /\ v_num n.
Definition dev_text (u : pystr) : Prop := u = [] \/ exists n, u = lit ".dev" ++ n /\ v_num n.
Definition alnum_text (u : pystr) : Prop := u <> [] /\ Forall (fun c => is_letter c \/ is_digit c) u.
(** a local identifier: parts of letters and digits; a part of digits only is a number *)
Definition local_part (u : pystr) : Prop := alnum_text u /\ (Forall is_digit u -> v_num u).
Definition local_text (u : pystr) : Prop := u = [] \/ exists x xs, u = lit "+" ++ x ++ tail_of 46 xs /\ local_part x /\ Forall local_part xs.
Definition version_with (local : pystr -> Prop) (v : pystr) : Prop :=
  exists e r p o d l, v = e ++ r ++ p ++ o ++ d ++ l /\ epoch_text e /\ release_text r /\ pre_text p /\ post_text o /\ dev_text d /\ local l.
Definition canonical (v : pystr) : Prop := version_with local_text v.
(** local identifiers that are not in canonical form: -, _ or . between the parts, superfluous zeros *)
Definition loose_local (u : pystr) : Prop :=
  u = [] \/ exists x ps, u = lit "+" ++ x ++ concat (map (fun p => fst p :: snd p) ps) /\ alnum_text x /\ Forall (fun p => In (fst p) (lit "-_.") /\ alnum_text (snd p)) ps.
