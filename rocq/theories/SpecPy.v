(** What the built-in methods of Python's str mean, stated without their algorithms:
    the vocabulary of the theorems Cnn_python_* (Properties_Py). *)
From Verif Require Export Py.
Open Scope Z_scope.
Import ListNotations.

(** seq[i:] and seq[:i] count a negative i from the end; bounds outside are clipped *)
Definition clipped (n d : Z) (i : option Z) : Z :=
  match i with None => d | Some v => if v <? 0 then Z.max 0 (v + n) else Z.min v n end.
(** s is a ++ sub ++ b, and sub stands nowhere further left (right) *)
Definition first_at (sub s a b : pystr) : Prop :=
  s = a ++ sub ++ b /\ forall a' b', s = a' ++ sub ++ b' -> (length a <= length a')%nat.
Definition last_at (sub s a b : pystr) : Prop :=
  s = a ++ sub ++ b /\ forall a' b', s = a' ++ sub ++ b' -> (length a' <= length a)%nat.
Definition absent (sub s : pystr) : Prop := forall a b, s <> a ++ sub ++ b.

(** the number of occurrences met going from left to right, each after the end of the one before *)
Inductive counted (sub : pystr) : pystr -> Z -> Prop :=
| counted_none s : absent sub s -> counted sub s 0
| counted_more s a b n : first_at sub s a b -> counted sub b n -> counted sub s (1 + n).

(** str.split(sep, m) and str.rsplit(sep, m): a negative m is no limit *)
Inductive split_at (sep : pystr) : Z -> pystr -> list pystr -> Prop :=
| split_end m s : m = 0 \/ absent sep s -> split_at sep m s [s]
| split_more m s a b l : m <> 0 -> first_at sep s a b -> split_at sep (m - 1) b l -> split_at sep m s (a :: l).
Inductive rsplit_at (sep : pystr) : Z -> pystr -> list pystr -> Prop :=
| rsplit_end m s : m = 0 \/ absent sep s -> rsplit_at sep m s [s]
| rsplit_more m s a b l : m <> 0 -> last_at sep s a b -> rsplit_at sep (m - 1) a l -> rsplit_at sep m s (l ++ [b]).

(** str.split(None, m) and str.rsplit(None, m) *)
Definition all_of (p : Z -> bool) (s : pystr) : Prop := forall c, In c s -> p c = true.
Definition none_of (p : Z -> bool) (s : pystr) : Prop := forall c, In c s -> p c = false.
Definition begins_out (p : Z -> bool) (s : pystr) : Prop := forall c r, s = c :: r -> p c = false.
Definition ends_out (p : Z -> bool) (s : pystr) : Prop := forall c r, s = r ++ [c] -> p c = false.
Definition begins_in (p : Z -> bool) (s : pystr) : Prop := forall c r, s = c :: r -> p c = true.
Definition ends_in (p : Z -> bool) (s : pystr) : Prop := forall c r, s = r ++ [c] -> p c = true.
Inductive words (p : Z -> bool) : Z -> pystr -> list pystr -> Prop :=
| words_end m s : all_of p s -> words p m s []
| words_rest a s : all_of p a -> s <> [] -> begins_out p s -> words p 0 (a ++ s) [s]
| words_more m a w s l : m <> 0 -> all_of p a -> w <> [] -> none_of p w -> begins_in p s -> words p (m - 1) s l -> words p m (a ++ w ++ s) (w :: l).
Inductive rwords (p : Z -> bool) : Z -> pystr -> list pystr -> Prop :=
| rwords_end m s : all_of p s -> rwords p m s []
| rwords_rest a s : all_of p a -> s <> [] -> ends_out p s -> rwords p 0 (s ++ a) [s]
| rwords_more m a w s l : m <> 0 -> all_of p a -> w <> [] -> none_of p w -> ends_in p s -> rwords p (m - 1) s l -> rwords p m (s ++ w ++ a) (l ++ [w]).

(** str.splitlines(keepends): the line boundaries of the documentation; \r\n is one of them *)
Definition boundary (c : Z) : Prop := In c [10; 11; 12; 13; 28; 29; 30; 133; 8232; 8233].
Definition eol (e rest : pystr) : Prop := e = [13; 10] \/ exists c, e = [c] /\ boundary c /\ ~ (c = 13 /\ exists r, rest = 10 :: r).
Inductive lines (keep : bool) : pystr -> list pystr -> Prop :=
| lines_none : lines keep [] []
| lines_last b : b <> [] -> (forall c, In c b -> ~ boundary c) -> lines keep b [b]
| lines_more b e s l : (forall c, In c b -> ~ boundary c) -> eol e s -> lines keep s l -> lines keep (b ++ e ++ s) ((if keep then b ++ e else b) :: l).
