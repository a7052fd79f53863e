(** Model of pawpaw/_version.py: Version.parse_re. *)
From Verif Require Export Version Table.

(** what the regex module (third party, Unicode) calls white space, and which characters it takes for a character of the
    pattern with IGNORECASE *)
Record vclasses := VC { vc_space : Z -> bool; vc_same : Z -> Z -> bool }.
Section Parse.
  Variable C : vclasses.
  (** a letter, a word, [a-z0-9] with IGNORECASE *)
  Definition p_word (w : pystr) : trx := ZSeqs (map (fun p => ZCls (vc_same C p)) w).
  Definition a_to_z : pystr := lit "abcdefghijklmnopqrstuvwxyz".
  Definition p_alnum (c : Z) : bool := v_digit c || existsb (fun p => vc_same C p c) a_to_z.
  (** [0-9]+, [-_\.]? *)
  Definition p_digits : trx := ZPlus (ZCls v_digit).
  Definition p_sep : trx := ZOpt (ZCls (among (lit "-_."))).
  (** w1|w2|... *)
  Fixpoint p_alts (w : pystr) (ws : list pystr) : trx := match ws with [] => p_word w | x :: r => ZAlt (p_word w) (p_alts x r) end.
  (** _version.py:21  (?:(?P<epoch>[0-9]+)!)? *)
  Definition p_epoch : trx := ZOpt (ZSeq (ZGrp (lit "epoch") p_digits) (ZStr (lit "!"))).
  (** _version.py:22  the release: [0-9]+ and, repeated, \.[0-9]+ *)
  Definition p_release : trx := ZGrp (lit "release") (ZSeq p_digits (ZStar (ZSeq (ZStr (lit ".")) p_digits))).
  (** _version.py:24-27, 33-36, 40-43  (?P<k> [-_\.]? (?P<k_l>...) [-_\.]? (?P<k_n>[0-9]+)? ) without the outer group *)
  Definition p_label (l n : pystr) (labels : trx) : trx := ZSeq p_sep (ZSeq (ZGrp l labels) (ZSeq p_sep (ZOpt (ZGrp n p_digits)))).
  Definition p_pre : trx := ZOpt (ZGrp (lit "pre") (p_label (lit "pre_l") (lit "pre_n") (p_alts (lit "a") [lit "b"; lit "c"; lit "rc"; lit "alpha"; lit "beta"; lit "pre"; lit "preview"]))).
  (** _version.py:29-38  (?P<post> (?:-(?P<post_n1>[0-9]+)) | (?: ... ) )? *)
  Definition p_post : trx := ZOpt (ZGrp (lit "post") (ZAlt (ZSeq (ZStr (lit "-")) (ZGrp (lit "post_n1") p_digits)) (p_label (lit "post_l") (lit "post_n2") (p_alts (lit "post") [lit "rev"; lit "r"])))).
  Definition p_dev : trx := ZOpt (ZGrp (lit "dev") (p_label (lit "dev_l") (lit "dev_n") (p_word (lit "dev")))).
  (** _version.py:46  the local version: \+ and, as a group, [a-z0-9]+ with, repeated, [-_\.][a-z0-9]+ *)
  Definition p_local : trx := ZOpt (ZSeq (ZStr (lit "+")) (ZGrp (lit "local") (ZSeq (ZPlus (ZCls p_alnum)) (ZStar (ZSeq (ZCls (among (lit "-_."))) (ZPlus (ZCls p_alnum))))))).
  (** \s* *)
  Definition p_space : trx := ZStar (ZCls (vc_space C)).
  (** _version.py:18-51  parse_re (VERBOSE | IGNORECASE), without ^: a match begins at 0 *)
  Definition parse_rx : trx := ZSeqs [p_space; ZOpt (p_word (lit "v")); p_epoch; p_release; p_pre; p_post; p_dev; p_local; p_space; ZEnd].
  (** Version.parse_re.match(v): the groups captured *)
  Definition parse_match (v : pystr) : option (list (pystr * span)) :=
    match zways parse_rx v (zlen v) (0, []) with w :: _ => Some (snd w) | [] => None end.
  (** m.group(k), None when the group took no part *)
  Definition m_group (v : pystr) (caps : list (pystr * span)) (k : pystr) : option pystr :=
    option_map (fun sp => zsub v (fst sp) (snd sp)) (last_span k caps).
End Parse.
