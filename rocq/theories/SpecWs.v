(** What str_split(None, m) does to the text of an Ito that begins at [later] in its string:
    after every word [later] characters are passed over unread. *)
From Verif Require Export SpecPy.
Open Scope Z_scope.
Import ListNotations.

(** [words_skip p later now m t l]: from the text t, of which the first [now] characters are not looked at,
    the pieces l are taken; m as in SpecPy.words *)
Inductive words_skip (p : Z -> bool) (later : nat) : nat -> Z -> pystr -> list pystr -> Prop :=
| ws_none now m t : all_of p t -> m = 0 -> words_skip p later now m t []
| ws_rest now a s : all_of p a -> s <> [] -> begins_out p s -> words_skip p later now 0 (a ++ s) [s]
| ws_end now m t : m <> 0 -> all_of p (skipn now t) -> words_skip p later now m t []
| ws_more now m t a w s l : m <> 0 -> skipn now t = a ++ w ++ s -> all_of p a -> w <> [] -> none_of p w -> begins_in p s ->
    words_skip p later later (m - 1) s l -> words_skip p later now m t (w :: l).
