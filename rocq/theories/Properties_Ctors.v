(** Property theorem C120: what the constructors and setters of arborform accept. *)
From Verif Require Import PyFacts TypeFacts Properties_Combin SpecCtors.

Lemma fun_of_exact sub a S : plain a -> Forall modern (fst S) -> modern (snd S) ->
  (exists m, fun_of sub a S = Ok (Some m) /\ plays sub S a m) \/
  (fun_of sub a S = Ok None /\ forall m, ~ plays sub S a m) \/
  (fun_of sub a S = Err TypeError /\ forall m, ~ plays sub S a m).
Proof.
  intros Pl Mp Mr. destruct a; try (right; left; split; [reflexivity|]; intros m' H; inversion H; fail); try (right; right; split; [reflexivity|]; intros m' H; inversion H; fail).
  destruct Pl as [Pp Pr]. destruct (functoid_exact sub f (fst S) (snd S) Pp Pr Mp Mr) as (b & E & Hb). unfold fun_of. cbn [as_pobj]. rewrite E. cbn [bind]. destruct b.
  - left. exists m. split; [reflexivity|]. constructor. destruct (proj1 Hb eq_refl) as [A B]. split; assumption.
  - right. left. split; [reflexivity|]. intros m' H. inversion H as [f' m0 [A B]]; subst. discriminate (proj2 Hb (conj B A)).
Qed.
Ltac mods := repeat (apply Forall_cons || apply Forall_nil || apply md_cls || apply md_gen || (apply md_union; intros ? [<-|[<-|[]]])).
Ltac ask_fun sub a S P m H :=
  let E := fresh "E" in
  destruct (fun_of_exact sub a S P) as [(m & E & H)|[(E & H)|(E & H)]]; [mods|mods| | | ]; rewrite E; cbn [bind].
Lemma tag_exact t : (check_tag t = Ok tt /\ tagged t) \/ (check_tag t = Err TypeError /\ ~ tagged t).
Proof. destruct t; try (right; split; [reflexivity|]; intros [d H]; inversion H; fail); left; (split; [reflexivity|]); eexists; constructor. Qed.
Ltac ask_tag t := let E := fresh "E" in let T := fresh "T" in destruct (tag_exact t) as [[E T]|[E T]]; rewrite E; cbn [bind makes].
Lemma whole_exact a : match int_of a with Some z => whole a z | None => forall z, ~ whole a z end.
Proof. destruct a as [| |[]|z| | | | | | | | | |]; cbn; try constructor; intros z0 H; inversion H. Qed.
Lemma limit_exact a : (exists n, limit_of a = Ok n /\ limit_arg a n) \/ (limit_of a = Err TypeError /\ forall n, ~ limit_arg a n).
Proof.
  destruct a as [| |b|z| | | | | | | | | |]; try (right; split; [reflexivity|]; intros n H; inversion H as [|? ? W]; inversion W; fail).
  - left. exists None. split; [reflexivity|constructor].
  - left. eexists. split; [reflexivity|]. constructor. destruct b; constructor.
  - left. eexists. split; [reflexivity|]. constructor. constructor.
Qed.
Lemma text_exact a : (exists d, desc_of a = Ok d /\ text_or_none a d) \/ (desc_of a = Err TypeError /\ forall d, ~ text_or_none a d).
Proof. destruct a; try (right; split; [reflexivity|]; intros n H; inversion H; fail); left; eexists; (split; [reflexivity|constructor]). Qed.
Ltac no := split; [reflexivity|]; let x := fresh in let H := fresh in intros x H; inversion H; subst; try discriminate; try contradiction; try solve [match goal with H : plays _ _ _ _ |- _ => inversion H end]; try solve [match goal with N : forall m, ~ plays _ _ _ m, H : plays _ _ _ _ |- _ => exact (N _ H) end].

Lemma desc_pred s h i : exists b, eval_pred (PDesc s) h i = Ok b /\ (b = true <-> f_desc (n_f (nd h i)) = Some s).
Proof.
  cbn [eval_pred]. eexists. split; [reflexivity|]. destruct (f_desc (n_f (nd h i))) as [x|]; [|split; discriminate].
  rewrite eqb_str_eq. split; [intros ->; reflexivity|intros [= ->]; reflexivity].
Qed.
Lemma none_pred h i : exists b, eval_pred PNoDesc h i = Ok b /\ (b = true <-> f_desc (n_f (nd h i)) = None).
Proof. cbn [eval_pred]. eexists. split; [reflexivity|]. destruct (f_desc (n_f (nd h i))); split; intros; reflexivity || discriminate. Qed.

(** ** C120 a connector takes an Itorator and a predicate, a desc or None, and then tests for just that *)
Theorem C120_connector : forall sub k itor pred, plain pred -> makes (new_connector sub k itor pred) (connector sub k itor pred).
Proof.
  intros sub k itor pred Pl. unfold new_connector. destruct itor; try (cbn [makes]; no; fail).
  destruct (fun_of_exact sub pred P_ITO Pl) as [(m & E & H)|[(E & H)|(E & H)]]; [mods|mods| | |]; rewrite E; cbn [bind makes].
  - constructor; [reflexivity|]. constructor. exact H.
  - destruct pred; cbn [makes]; try (split; [reflexivity|]; intros x C; inversion C as [t' p Q CP]; inversion CP; subst; exact (H _ ltac:(eassumption))).
    + constructor; [reflexivity|]. constructor. exact none_pred.
    + constructor; [reflexivity|]. constructor. exact (desc_pred s).
  - split; [reflexivity|]. intros x C. inversion C as [t' p Q CP]; inversion CP; subst; try (exact (H _ ltac:(eassumption))); discriminate E.
Qed.
Print Assumptions C120_connector.
Theorem C120_wrap : forall sub f tag, plain f ->
  makes (new_wrapped sub f tag) (wrapped_itor sub f tag) /\ makes (new_wrapped_post sub f tag) (wrapped_post sub f tag).
Proof.
  intros sub f tag Pl. split; [unfold new_wrapped; ask_fun sub f F_ITO_2_IT_ITOS Pl m H|unfold new_wrapped_post; ask_fun sub f F_ITOS_2_ITOS Pl m H]; cbn [makes]; try (no; fail); ask_tag tag; try (no; fail); constructor; assumption.
Qed.
Print Assumptions C120_wrap.
Theorem C120_desc : forall sub d tag, plain d -> makes (new_desc sub d tag) (desc_made sub d tag).
Proof.
  intros sub d tag Pl. unfold new_desc. ask_tag tag; [|no]. ask_fun sub d F_ITO_2_DESC Pl m H.
  - inversion H; subst. cbn [makes]. apply dm_fun; assumption.
  - destruct d; cbn [makes]; try (no; fail). apply dm_str; [reflexivity|assumption].
  - destruct d; cbn [makes]; try (no; fail). apply dm_str; [reflexivity|assumption].
Qed.
Theorem C120_value_func : forall sub f tag, plain f -> makes (new_value_func sub f tag) (value_made sub f tag).
Proof.
  intros sub f tag Pl. unfold new_value_func. ask_tag tag; [|no]. ask_fun sub f F_ITO_2_VAL Pl m H.
  - inversion H; subst. cbn [makes]. apply vm_fun; assumption.
  - destruct f; cbn [makes]; try (no; fail). apply vm_none; [reflexivity|assumption].
  - destruct f; cbn [makes]; try (no; fail). apply vm_none; [reflexivity|assumption].
Qed.
Theorem C120_filter_partial : forall sub f tag, plain f -> f <> ANone -> makes (new_filter sub f tag) (filter_made sub f tag).
Proof.
  intros sub f tag Pl N. unfold new_filter. ask_tag tag; [|no]. ask_fun sub f P_ITO Pl m H.
  - inversion H; subst. cbn [makes]. apply fm_fun; assumption.
  - destruct f; cbn [makes]; try (no; fail). contradiction.
  - destruct f; cbn [makes]; try (no; fail). contradiction.
Qed.
Theorem C120_split : forall splitter limit keep zero desc tag, makes (new_split splitter limit keep zero desc tag) (split_made splitter limit keep zero desc tag).
Proof.
  intros sp limit keep zero desc tag. unfold new_split. ask_tag tag; [|no]. destruct sp; cbn [bind makes]; try (no; fail).
  - destruct (limit_exact limit) as [(n & -> & L)|(-> & L)]; cbn [bind makes]; [|split; [reflexivity|]; intros x H; inversion H; subst; exact (L _ ltac:(eassumption))].
    destruct keep; cbn [makes]; try (no; fail). destruct zero; cbn [makes]; try (no; fail).
    destruct (text_exact desc) as [(d & -> & D)|(-> & D)]; cbn [bind makes]; [|split; [reflexivity|]; intros x H; inversion H; subst; exact (D _ ltac:(eassumption))].
    apply sm_re; assumption || reflexivity.
  - destruct (limit_exact limit) as [(n & -> & L)|(-> & L)]; cbn [bind makes]; [|split; [reflexivity|]; intros x H; inversion H; subst; exact (L _ ltac:(eassumption))].
    destruct keep; cbn [makes]; try (no; fail). destruct zero; cbn [makes]; try (no; fail).
    destruct (text_exact desc) as [(d & -> & D)|(-> & D)]; cbn [bind makes]; [|split; [reflexivity|]; intros x H; inversion H; subst; exact (D _ ltac:(eassumption))].
    apply sm_itor; assumption || reflexivity.
Qed.
Print Assumptions C120_split.
Theorem C120_stack : forall sub reduce push pop tag, plain reduce -> plain push -> plain pop -> makes (new_stack sub reduce push pop tag) (stack_made sub reduce push pop tag).
Proof.
  intros sub r p q tag Pr Pp Pq. unfold new_stack. ask_tag tag; [|no].
  ask_fun sub r F_SQ_ITOS_2_ITO Pr m H; cbn [makes]; try (split; [reflexivity|]; intros x X; inversion X; subst; exact (H _ ltac:(eassumption))).
  ask_fun sub p P_SQ_ITOS_ITO Pp m' H'; cbn [makes]; try (split; [reflexivity|]; intros x X; inversion X; subst; exact (H' _ ltac:(eassumption))).
  ask_fun sub q P_SQ_ITOS_ITO Pq m'' H''; destruct q; cbn [makes];
    try (apply st_two; assumption || reflexivity); try (apply st_three; assumption); try (inversion H''; fail);
    split; [reflexivity| |reflexivity|..]; try reflexivity; intros x X; inversion X; subst; try discriminate; exact (H'' _ ltac:(eassumption)).
Qed.
Print Assumptions C120_stack.
(** an Extract whose desc is no str: made as described; otherwise TypeError, or ValueError when it is the group keys that do not
    fit the pattern *)
Lemma filter_exact sub re gf : re_ok re -> plain gf ->
  (exists g, filter_of sub re gf = Ok g /\ filter_arg sub re gf g) \/
  ((forall g, ~ filter_arg sub re gf g) /\ (filter_of sub re gf = Err TypeError \/ filter_of sub re gf = Err ValueError /\ (exists l, gf = AKeys l \/ exists s, gf = AStr s))).
Proof.
  intros O Pl. destruct gf; unfold filter_of;
    try (right; split; [intros g X; inversion X as [| |? ? Y]; inversion Y|left; reflexivity]; fail).
  - destruct (C29_validate re (map (fun c => KStr [c]) s) O) as [[(gs & F & D) E]|[N E]]; rewrite E; cbn [bind].
    + left. eexists. split; [reflexivity|]. exact (fa_text sub re s gs F D).
    + right. split; [|right; split; [reflexivity|]; exists []; right; exists s; reflexivity]. intros g X. inversion X as [|? gs F D|? ? Y]; subst; [apply N; exists gs; auto|inversion Y].
  - destruct (C29_validate re l O) as [[(gs & F & D) E]|[N E]]; rewrite E; cbn [bind].
    + left. eexists. split; [reflexivity|]. exact (fa_keys sub re l gs F D).
    + right. split; [|right; split; [reflexivity|]; exists l; left; reflexivity]. intros g X. inversion X as [? gs F D| |? ? Y]; subst; [apply N; exists gs; auto|inversion Y].
  - destruct (fun_of_exact sub (AFun f m) P_M_GK Pl) as [(m' & E & H)|[(E & H)|(E & H)]]; [mods|mods| | |]; rewrite E; cbn [bind].
    + left. eexists. split; [reflexivity|]. constructor. exact H.
    + right. split; [|left; reflexivity]. intros g X. inversion X as [| |? ? Y]; subst. exact (H _ Y).
    + right. split; [|left; reflexivity]. intros g X. inversion X as [| |? ? Y]; subst. exact (H _ Y).
Qed.
Theorem C120_extract_partial : forall sub re limit desc gf tag, (forall r fi, re = APat r fi -> re_ok r) -> plain desc -> plain gf -> (forall s, desc <> AStr s) ->
  match new_extract sub re limit desc gf tag with
  | Ok x => extract_made sub re limit desc gf tag x
  | Err e => (e = TypeError \/ e = ValueError /\ (exists r fi, re = APat r fi /\ (forall g, ~ filter_arg sub r gf g) /\ exists l, gf = AKeys l \/ exists s, gf = AStr s))
             /\ forall x, ~ extract_made sub re limit desc gf tag x
  end.
Proof.
  intros sub re limit desc gf tag O Pd Pg ND. unfold new_extract. ask_tag tag; [|split; [left; reflexivity|]; intros x X; inversion X; contradiction].
  destruct re as [| | | | |r fi| | | | | | | |]; try (split; [left; reflexivity|]; intros x X; inversion X; discriminate).
  destruct (filter_exact sub r gf (O r fi eq_refl) Pg) as [(g & Eg & Hg)|[Ng [Eg|[Eg W]]]]; rewrite Eg; cbn [bind].
  - destruct (limit_exact limit) as [(n & -> & L)|(-> & L)]; cbn [bind]; [|split; [left; reflexivity|]; intros x X; inversion X as [? ? n']; subst; exact (L n' ltac:(assumption))].
    destruct (fun_of_exact sub desc F_M_GK_2_DESC Pd) as [(m & Ef & H)|[(Ef & H)|(Ef & H)]]; [mods|mods| | |]; rewrite Ef.
    + destruct desc as [|s| | | | | | | |f m0| | | |]; try (inversion H; fail). cbn [bind]. apply xm; try assumption; [reflexivity|]. constructor. exact H.
    + assert (R : forall x, ~ extract_made sub (APat r fi) limit desc gf tag x) by (intros x X; inversion X as [? ? ? ? ? ? ? G]; inversion G; subst; [exact (ND _ eq_refl)|exact (H _ ltac:(eassumption))]).
      destruct desc as [|s| | | | | | | |f m0| | | |]; cbn [bind]; try (split; [left; reflexivity|exact R]). destruct (ND s eq_refl).
    + assert (R : forall x, ~ extract_made sub (APat r fi) limit desc gf tag x) by (intros x X; inversion X as [? ? ? ? ? ? ? G]; inversion G; subst; [exact (ND _ eq_refl)|exact (H _ ltac:(eassumption))]).
      destruct desc as [|s| | | | | | | |f m0| | | |]; cbn [bind]; try (split; [left; reflexivity|exact R]). destruct (ND s eq_refl).
  - split; [left; reflexivity|]. intros x X. inversion X as [r' fi' n d g Q]; subst. injection Q as <- <-. exact (Ng g ltac:(assumption)).
  - split; [right; split; [reflexivity|]; exists r, fi; auto|]. intros x X. inversion X as [r' fi' n d g Q]; subst. injection Q as <- <-. exact (Ng g ltac:(assumption)).
Qed.
Print Assumptions C120_extract_partial.
(** a WindowedJoin: ValueError for a size below 2 and for a class that is no Ito, otherwise as the rest *)
Theorem C120_window_partial : forall sub size pred cls desc tag, plain pred -> (exists d, text_or_none desc d) ->
  match new_window sub size pred cls desc tag with
  | Ok x => window_made sub size pred cls desc tag x
  | Err e => (e = TypeError \/ e = ValueError /\ ((exists z, whole size z /\ z < 2) \/ (exists c, cls = AClass c /\ sub c k_ito = false)))
             /\ forall x, ~ window_made sub size pred cls desc tag x
  end.
Proof.
  intros sub size pred cls desc tag Pl (d & D). unfold new_window. ask_tag tag; [|split; [left; reflexivity|]; intros x X; inversion X; contradiction].
  pose proof (whole_exact size) as W. destruct (int_of size) as [z|]; [|split; [left; reflexivity|]; intros x X; inversion X; subst; exact (W _ ltac:(eassumption))].
  assert (U : forall z', whole size z' -> z' = z) by (intros z' W'; inversion W; subst; inversion W'; reflexivity).
  destruct (Z.ltb_spec z 2) as [Lt|Ge]; [split; [right; split; [reflexivity|]; left; exists z; auto|]; intros x X; inversion X as [z' ? ? ? W' ?]; subst; rewrite (U z' W') in *; lia|].
  ask_fun sub pred F_SQ_ITOS_2_B Pl m H; try (split; [left; reflexivity|]; intros x X; inversion X; subst; exact (H _ ltac:(eassumption))).
  destruct cls as [| | | | | | | | | | | |c|]; try (split; [left; reflexivity|]; intros x X; inversion X; discriminate).
  destruct (sub c k_ito) eqn:Q.
  - exact (wn sub size pred (AClass c) desc tag z m c d W Ge H eq_refl Q D ltac:(assumption)).
  - split; [right; split; [reflexivity|]; right; exists c; auto|]. intros x X. inversion X as [? ? c' ? ? ? ? Ec]; subst. injection Ec as <-. congruence.
Qed.
Print Assumptions C120_window_partial.
Theorem C120_postorator_partial : forall sub val, plain val -> (forall f m, val <> AFun f m) -> makes (set_postorator val) (post_made sub val).
Proof.
  intros sub val Pl N. destruct val; cbn [set_postorator makes]; try (split; [reflexivity|]; intros x X; inversion X as [| |? Y]; try discriminate; inversion Y; fail).
  - apply pm_none; reflexivity.
  - apply pm_post; reflexivity.
  - destruct (N f m eq_refl).
Qed.
Print Assumptions C120_postorator_partial.

(** The classes of the examples *)
Definition ksub (a b : pycls) : bool := a =? b.
Definition anything : meaning := Mean (fun _ _ => Ok true) (fun _ _ => Ok None) 0 (fun _ => Stop) (fun s => s) (fun _ _ => true) (fun _ _ => None) (fun _ _ => Ok true) (fun _ h => (h, Err IndexError)) (fun _ _ _ => Ok true).
Definition lambda_of (n : nat) : arg := AFun (Fun true false (repeat (Par (lit "x") KPos None false) n) None) anything.
(** Documented, and refused: a function as postorator.  Accepted, and of no use: Filter(None), which raises TypeError when called, an
    Extract with a str as desc, which raises AttributeError; accepted although not documented: anything in a Nuco and an Invert, any
    desc of a WindowedJoin *)
Theorem C120_refuted :
  (post_made ksub (lambda_of 1) (PostWrap (fun s => s)) /\ set_postorator (lambda_of 1) = Err TypeError) /\
  (exists t, new_filter ksub ANone ANone = Ok t /\ (forall x, ~ filter_made ksub ANone ANone x) /\ forall call i h, drain (transform_of call t i) h = (h, ([], Some TypeError))) /\
  (exists t, new_extract ksub (APat (RE 0 []) (fun _ _ _ => [])) ANone (AStr (lit "d")) (AKeys []) ANone = Ok t /\ forall call i h, drain (transform_of call t i) h = (h, ([], Some AttributeError))) /\
  new_nuco [AOther] ANone = Ok [AOther] /\ new_invert AOther AOther ANone = Ok (AOther, AOther) /\
  (exists w, new_window ksub (AInt 2) (lambda_of 1) (AClass k_ito) AOther ANone = Ok w /\ w_desc w = AOther).
Proof.
  split; [split; [|reflexivity]|]. { apply (pm_fun ksub (lambda_of 1) anything). constructor. split; [|right; exact Logic.I]. constructor; [right; exact Logic.I|constructor]. }
  split. { eexists. split; [reflexivity|]. split; [|reflexivity]. intros x X. inversion X as [? Y]. inversion Y. }
  split. { eexists. split; [reflexivity|]. reflexivity. }
  split; [reflexivity|]. split; [reflexivity|]. eexists. split; reflexivity.
Qed.
(** the hypotheses are met, and both outcomes happen *)
Definition hinted_pred (r : pycls) : arg := AFun (Fun false false [Par (lit "ito") KPos (Some (TCls k_ito)) false] (Some (TCls r))) anything.
Example C120_case :
  plain (hinted_pred k_bool) /\ new_connector ksub Delegate (AItor 3) (hinted_pred k_bool) = Ok (Con Delegate (PFun (as_pred anything)) 3) /\
  new_connector ksub Delegate (AItor 3) (hinted_pred k_str) = Err TypeError /\ new_connector ksub CAdd (AItor 3) (AStr (lit "d")) = Ok (Con CAdd (PDesc (lit "d")) 3) /\
  new_connector ksub CAdd (AItor 3) (AInt 5) = Err TypeError /\ new_desc ksub (hinted_pred k_bool) ANone = Err TypeError /\
  new_extract ksub (APat (RE 1 []) (fun _ _ _ => [])) (AInt 2) (lambda_of 2) (AKeys [KInt 2]) ANone = Err ValueError /\
  (exists x, new_extract ksub (APat (RE 1 []) (fun _ _ _ => [])) (AInt 2) (lambda_of 2) (AKeys [KInt 1]) ANone = Ok x) /\
  new_window ksub (AInt 1) (lambda_of 1) (AClass k_ito) ANone ANone = Err ValueError /\
  (exists x, new_split (APat (RE 1 []) (fun _ _ _ => [])) ANone (ARet RAll) (ABool true) (AStr (lit "d")) ANone = Ok x) /\
  (exists x, new_stack ksub (lambda_of 1) (lambda_of 2) (lambda_of 2) (AStr (lit "t")) = Ok x) /\ new_stack ksub (lambda_of 1) (lambda_of 1) (lambda_of 2) ANone = Err TypeError.
Proof. split; [split; [repeat constructor|constructor]|]. repeat split; try reflexivity; eexists; reflexivity. Qed.
