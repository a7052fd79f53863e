(** Model of pawpaw/_version.py: Version.is_canonical. *)
From Verif Require Export Nlp.

(** [0-9] and [1-9], [a-z0-9] *)
Definition v_digit : Z -> bool := range 48 57.
Definition v_digit1 : Z -> bool := range 49 57.
Definition v_alnum (c : Z) : bool := lower_az c || v_digit c.
(** 0|[1-9][0-9]* *)
Definition v_number_rx : nrx := NAlt (NStr (lit "0")) (NSeq (NCls v_digit1) (NStar (NCls v_digit))).
(** _version.py:10  _canonical_re, without ^ (match begins at the beginning anyway) and without the groups
    (never asked for) *)
Definition canonical_rx : nrx :=
  NSeq (NOpt (NSeq (NSeq (NCls v_digit1) (NStar (NCls v_digit))) (NStr (lit "!"))))
 (NSeq v_number_rx
 (NSeq (NStar (NSeq (NStr (lit ".")) v_number_rx))
 (NSeq (NOpt (NSeq (NSet [lit "a"; lit "b"; lit "rc"]) v_number_rx))
 (NSeq (NOpt (NSeq (NStr (lit ".post")) v_number_rx))
 (NSeq (NOpt (NSeq (NStr (lit ".dev")) v_number_rx))
 (NSeq (NOpt (NSeq (NStr (lit "+")) (NSeq (NPlus (NCls v_alnum)) (NStar (NSeq (NCls (among (lit "-_."))) (NPlus (NCls v_alnum)))))))
       NEnd)))))).
(** _version.py:14-16  is_canonical *)
Definition is_canonical (version : pystr) : bool := match nways canonical_rx version (zlen version) 0 with [] => false | _ :: _ => true end.
(** _version.py:6  __version__ *)
Definition version := lit "1.0.2".
