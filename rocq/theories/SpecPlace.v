(** Where the piece of an Ito stands: what is to its left and to its right. *)
From Verif Require Export SpecStr SpecPy.

(** j is what remains of i when the text a is cut off in front and b behind *)
Definition cut_off (a : pystr) (j : fito) (b : pystr) (i : fito) : Prop :=
  f_str j = f_str i /\ f_start j = f_start i + zlen a /\ f_stop j = f_stop i - zlen b /\
  ito_str i = a ++ ito_str j ++ b.

(** the pieces, none of them empty, stand one after another between a and b in
    s, and the text outside them consists of characters of p *)
Fixpoint strewn (p : Z -> bool) (s : pystr) (a b : Z) (l : list fito) : Prop :=
  match l with
  | [] => a <= b /\ all_of p (zsub s a b)
  | x :: l' => f_str x = s /\ a <= f_start x < f_stop x /\ f_stop x <= b /\
               all_of p (zsub s a (f_start x)) /\ strewn p s (f_stop x) b l'
  end.

(** n is the line k without its line end: nothing (last line), one line break,
    or carriage return and line feed *)
Definition line_end (e : pystr) : Prop := e = [] \/ e = [13; 10] \/ exists c, e = [c] /\ boundary c.
Definition line_of (k n : fito) : Prop :=
  exists e, cut_off [] n e k /\ line_end e /\ forall c, In c (ito_str n) -> ~ boundary c.
(** j has the string, the descriptor and the value function of i *)
Definition sibling (i j : fito) : Prop := f_str j = f_str i /\ f_desc j = f_desc i /\ f_vf j = f_vf i.
