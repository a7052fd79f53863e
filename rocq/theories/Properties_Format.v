(** Property theorems C61, C68, C69: format specs (Ito.__format__). *)
From Verif Require Import FormatFacts2 Properties_Heap.

(** an environment for the examples: ASCII digits, repr by simple quoting *)
Definition ascii_fmt : fmt_env := {|
  fe_int := fun n f => match f with [] | [100] => Ok (int_str n) | _ => Err ValueError end;
  fe_repr := fun s => [39] ++ s ++ [39];
  fe_ascii := fun s => [39] ++ s ++ [39];
  fe_digit := fun c => (48 <=? c) && (c <=? 57);
  fe_num := fun s => fold_left (fun n c => 10 * n + (c - 48)) s 0;
  fe_value := fun i => Ok (ito_str i) |}.
Example ascii_fmt_ok : fmt_env_ok ascii_fmt.
Proof. intros c I. cbn in I. repeat (destruct I as [<-|I]; [reflexivity|]). destruct I. Qed.
Definition fdemo : fito := {| f_str := lit "an example text"; f_start := 3; f_stop := 10; f_desc := Some (lit "word"); f_vf := None |}.
Example fdemo_wf : fwf fdemo. Proof. vm_compute. repeat split; discriminate. Qed.

(** ** C61 widths *)
(** %name!..:<p><w><abbr> is the unlimited text if that fits in w characters, and otherwise exactly w characters: the last w
    of abbr if abbr is that long, else abbr placed in front of ('<'), in the middle of ('^') or after ('>', default) the
    remaining first and last characters of the text *)
Theorem C61_width : forall E i d c p n abbr s, fmt_env_ok E -> conv_ok E c -> width_ok E (Some (p, n, abbr)) -> 0 <= fe_num E n ->
  ito_format E i (write_str d c None) = Ok s ->
  exists r, ito_format E i (write_str d c (Some (p, n, abbr))) = Ok r /\ abbreviated p (fe_num E n) abbr s r.
Proof. exact format_width. Qed.
Print Assumptions C61_width.
Example C61_case :
  ito_format ascii_fmt fdemo (lit "%substr:5...") = Ok (lit "ex...") /\
  ito_format ascii_fmt fdemo (lit "%substr:<5...") = Ok (lit "...le") /\
  ito_format ascii_fmt fdemo (lit "%substr:^6...") = Ok (lit "ex...e") /\
  ito_format ascii_fmt fdemo (lit "%substr!r:7...") = Ok (lit "'exa...") /\
  ito_format ascii_fmt fdemo (lit "%substr:2...") = Ok (lit "..") /\
  write_str DSubstr (Some ([], 114, [])) (Some (None, lit "7", lit "...")) = lit "%substr!r:7..." /\
  conv_ok ascii_fmt (Some ([], 114, [])) /\ width_ok ascii_fmt (Some (None, lit "7", lit "...")).
Proof.
  do 6 (split; [by_vm|]). split.
  - split; [constructor|]. split; [constructor|]. right. reflexivity.
  - split; [exact I|]. split; [discriminate|]. split; [repeat constructor|]. split; [cbn; intuition discriminate|reflexivity].
Qed.

(** ** C68 format specs compose *)
(** a directive in front of another one (or literal text in front of a directive) does not influence it *)
Theorem C68_compose : forall E i a b, a <> [] -> closed_end a -> lone b ->
  ito_format E i (a ++ b) = (do y <- ito_format E i b; do x <- ito_format E i a; Ok (x ++ y)).
Proof. exact format_app. Qed.
Print Assumptions C68_compose.
(** text without a lone '%' stands for itself *)
Theorem C68_plain : forall E i s, s <> [] -> (forall k, ~ lone_escape 37 s 0 (zlen s) k) -> ito_format E i s = Ok s.
Proof. exact format_plain. Qed.
Print Assumptions C68_plain.
(** the empty spec is str() *)
Theorem C68_empty : forall E i, fwf i -> ito_format E i [] = Ok (zsub (f_str i) (f_start i) (f_stop i)).
Proof. exact (fun E i W => f_equal Ok (ito_str_zsub i W)). Qed.
Print Assumptions C68_empty.
(** "% " is nothing: it separates a directive from text that would otherwise be read as part of it *)
Theorem C68_nothing : forall E i t, ~ In 37 t -> ito_format E i (lit "% " ++ t) = Ok t.
Proof. exact format_zws. Qed.
Print Assumptions C68_nothing.
(** %string, %substr, %desc, %value *)
Theorem C68_text : forall E i d t, fmt_env_ok E -> fwf i -> names_text E i d t ->
  ito_format E i (lit "%" ++ dir_str_name d) = Ok t.
Proof. exact (fun E i d t OK W N => eq_trans (f_equal (fun x => ito_format E i (lit "%" ++ x)) (eq_sym (app_nil_r (dir_str_name d)))) (format_text E i d t OK W N)). Qed.
Print Assumptions C68_text.
(** %span, %start, %stop with any integer format of Python's mini language *)
Theorem C68_int : forall E i d f a b, fmt_env_ok E -> int_spec E f -> fe_int E (f_start i) f = Ok a -> fe_int E (f_stop i) f = Ok b ->
  ito_format E i (lit "%" ++ dir_int_name d ++ lit ":" ++ f) = Ok (int_text d a b) /\
  (f = [] -> ito_format E i (lit "%" ++ dir_int_name d) = Ok (int_text d a b)).
Proof. exact format_int. Qed.
Print Assumptions C68_int.
Example C68_case :
  ito_format ascii_fmt fdemo (lit "%span %desc: '%substr:5...% ' (%value)%% done") = Ok (lit "(3, 10) word: 'ex...' (example)%% done") /\
  ito_format ascii_fmt fdemo (lit "100%% of it") = Ok (lit "100%% of it") /\
  ito_format ascii_fmt fdemo (lit "%start:d..%stop") = Ok (lit "3..10") /\
  ito_format ascii_fmt fdemo [] = Ok (lit "example") /\ int_spec ascii_fmt (lit "d") /\
  closed_end (lit "%span ") /\ lone (lit "%desc").
Proof.
  do 4 (split; [by_vm|]). split; [|split].
  - change (lit "d") with ([] ++ [] ++ [] ++ [] ++ [] ++ [] ++ [100]). constructor; try (left; reflexivity); try apply Forall_nil. right. exists 100. split; [reflexivity|]. cbn. tauto.
  - intros u E. apply (f_equal (fun l => last l 0)) in E. rewrite last_last in E. vm_compute in E. discriminate.
  - exists 100, (lit "esc"). split; [reflexivity|discriminate].
Qed.

(** ** C69 slices of conversions *)
(** %name!<l>r<r> drops l characters at the left and r at the right of repr(text).  Missing: r written as a zero other than
    "0", such as "00". *)
Theorem C69_slice_partial : forall E i d l k r s, fmt_env_ok E -> conv_ok E (Some (l, k, r)) -> ito_format E i (write_str d None None) = Ok s ->
  let t := if k =? 97 then fe_ascii E s else fe_repr E s in
  let a := match l with [] => 0 | _ => fe_num E l end in
  let b := match r with [] => 0 | _ => fe_num E r end in
  0 <= a -> (r = [] \/ (r = lit "0" /\ fe_num E r = 0) \/ (r <> lit "0" /\ 0 < b)) ->
  ito_format E i (write_str d (Some (l, k, r)) None) = Ok (zsub t a (zlen t - b)).
Proof. exact format_conv. Qed.
Print Assumptions C69_slice_partial.
Example C69_case :
  ito_format ascii_fmt fdemo (lit "%substr!1r1") = Ok (lit "example") /\ ito_format ascii_fmt fdemo (lit "%substr!1r") = Ok (lit "example'") /\
  ito_format ascii_fmt fdemo (lit "%substr!a0") = Ok (lit "'example'") /\ ito_format ascii_fmt fdemo (lit "%substr!3r12") = Ok [].
Proof. by_vm. Qed.
(** "00" drops everything instead of nothing *)
Theorem C69_refuted : exists E i d l k r s,
  fmt_env_ok E /\ conv_ok E (Some (l, k, r)) /\ ito_format E i (write_str d None None) = Ok s /\
  l = [] /\ k = 114 /\ fe_num E r = 0 /\ fe_repr E s <> [] /\ ito_format E i (write_str d (Some (l, k, r)) None) = Ok [].
Proof.
  exists ascii_fmt, fdemo, DSubstr, [], 114, (lit "00"), (lit "example"). split; [exact ascii_fmt_ok|].
  split; [cbn; repeat split; [constructor|repeat constructor|right; reflexivity]|]. do 4 (split; [by_vm|]). split; [discriminate|by_vm].
Qed.
Print Assumptions C69_refuted.
