(** A small ASCII environment and lemmas that show the hypotheses of the query
    theorems can be met. *)
From Verif Require Export QueryFacts15.

Fixpoint str_uint (s : pystr) : option Decimal.uint :=
  match s with
  | [] => Some Decimal.Nil
  | c :: r =>
    match str_uint r with
    | None => None
    | Some u => if c =? 48 then Some (Decimal.D0 u) else if c =? 49 then Some (Decimal.D1 u) else if c =? 50 then Some (Decimal.D2 u)
                else if c =? 51 then Some (Decimal.D3 u) else if c =? 52 then Some (Decimal.D4 u) else if c =? 53 then Some (Decimal.D5 u)
                else if c =? 54 then Some (Decimal.D6 u) else if c =? 55 then Some (Decimal.D7 u) else if c =? 56 then Some (Decimal.D8 u)
                else if c =? 57 then Some (Decimal.D9 u) else None
    end
  end.
Definition ascii_int (s : pystr) : option Z :=
  match s with [] => None | _ => match str_uint s with Some u => Some (Z.of_nat (Nat.of_uint u)) | None => None end end.
Definition lower1 (c : Z) : pystr := [if (65 <=? c) && (c <=? 90) then c + 32 else c].
Definition ascii : pyenv := PE (flat_map lower1) (fun c => c =? 32) (fun c => (48 <=? c) && (c <=? 57)) (fun c => 32 <=? c) (fun c => c =? 32) ascii_int.
Definition no_dicts : renv := {| rv_values := None; rv_preds := None; rv_value := fun _ => Ok 0; rv_eq := Z.eqb |}.
Lemma str_uint_inv u : str_uint (uint_str u) = Some u.
Proof. induction u; cbn [uint_str str_uint]; [reflexivity|..]; rewrite IHu; reflexivity. Qed.
Lemma ascii_ints : ints_ok ascii.
Proof.
  split.
  - intros n. cbn [py_int ascii]. unfold ascii_int. pose proof (dec_ne n) as N. destruct (dec n) eqn:E; [congruence|]. rewrite <- E. unfold dec. rewrite str_uint_inv, DecimalNat.Unsigned.of_to. reflexivity.
  - intros c Hc. cbn. split; [apply andb_true_iff; split; apply Z.leb_le; lia|apply Z.eqb_neq; lia].
Qed.
Lemma ascii_delims : plain_delims ascii.
Proof.
  split; [reflexivity|]. split.
  - intros c Hc N. cbn. apply Z.eqb_neq. exact N.
  - intros c Hc. cbn in Hc. cbn. apply Z.eqb_neq. lia.
Qed.
Lemma ascii_casefold : casefold_ok ascii.
Proof.
  exists lower1. split; [reflexivity|]. split.
  - intros c Hc. cbn in Hc. repeat (destruct Hc as [<-|Hc]; [reflexivity|]). destruct Hc.
  - intros c x Hc [<-|[]]. unfold lower1. destruct ((65 <=? c) && (c <=? 90)) eqn:E; [|exact Hc]. apply andb_true_iff in E as [E1 E2]. apply Z.leb_le in E1, E2. cbn. lia.
Qed.
Lemma ascii_group name t : name <> [] -> forallb key_char name = true -> safe (lit "[]/{}") false t -> writable ascii t -> (exists f, filter_func ascii false name t = Ok f) -> filter_group ascii (written name t).
Proof.
  intros H1 H2 H3 H4 (f & F). destruct (written_ok ascii name t H1 H2 H3 H4) as (G1 & G2 & G3 & _). split; [exact G1|]. split; [exact G2|]. exists f. unfold one_filter. rewrite G3. exact F.
Qed.
(** ([i:0] | [s:b]) & ~[i:2] *)
Definition g0 := lit "[i:0]".
Definition g1 := lit "[s:b]".
Definition g2 := lit "[i:2]".
Definition demo_expr : expr pystr := EAnd (EOr (EAtom g0) (EAtom g1)) (ENot (EAtom g2)).
Definition demo_items : list (item pystr) := [IC 40; IF g0; IC 32; IC 124; IC 32; IF g1; IC 41; IC 32; IC 38; IC 32; IC 126; IF g2].
Lemma demo_writes : writes demo_expr demo_items.
Proof.
  exists true. apply r_up, r_up. change (despace demo_items) with ((IC c_open :: ([IF g0] ++ IC c_or :: [IF g1]) ++ [IC c_close]) ++ IC c_and :: IC c_not :: [IF g2]).
  apply (r_and false false).
  - apply r_up. apply (r_paren 0). apply (r_or false false); do 3 apply r_up; apply r_atom.
  - apply r_up. apply (r_not false). apply r_atom.
Qed.
Lemma demo_groups : forall g, In g (atoms demo_items) -> filter_group ascii g.
Proof.
  intros g [<-|[<-|[<-|[]]]].
  - apply (ascii_group (lit "i") (lit "0")); [discriminate|reflexivity|apply safe_plain; intros c Hc; cbn in *; lia|split; [exists 48, []; auto|cbn; lia]|eexists; reflexivity].
  - apply (ascii_group (lit "s") (lit "b")); [discriminate|reflexivity|apply safe_plain; intros c Hc; cbn in *; lia|split; [exists 98, []; auto|cbn; lia]|eexists; reflexivity].
  - apply (ascii_group (lit "i") (lit "2")); [discriminate|reflexivity|apply safe_plain; intros c Hc; cbn in *; lia|split; [exists 50, []; auto|cbn; lia]|eexists; reflexivity].
Qed.
Lemma demo_sub : sub_group (parse_query ascii) (lit "{*}").
Proof.
  destruct (group_safe 123 125 (lit "*")) as [G1 G2]; [lia|lia|lia|apply safe_plain; intros c Hc; cbn in *; lia|cbn; lia|]. split; [exact G1|]. split; [exact G2|]. eexists. vm_compute. reflexivity.
Qed.
