(** What the proofs of NlpFacts take from_text to give: an intermediate description in terms of the patterns of
    the model, from which the statements of Properties_Nlp are derived.  No statement there uses it. *)
From Verif Require Export SpecNlp.

(** ** documents *)
(** what is left of [a,b) between the boundaries sp: all of it when there are none *)
Definition leftover (a b : Z) (sp : list span) : list span := match sp with [] => [(a, b)] | _ => filter wide (gaps a sp b) end.
(** the spans finditer gives *)
Definition found_spans (r : nrx) (s : pystr) (a b : Z) : list span := map fst (found r s a b).
Section Document.
  Variables (C : classes) (point sep : pystr) (optional : bool) (s : pystr).
  Definition words (a b : Z) : list tree := map (fun x => at_ s (fst x) (snd x) word_desc []) (found_spans (word_rx C) s a b).
  (** the numbers, with the words before, between and behind them *)
  Fixpoint tokens (a : Z) (nums : list tree) (b : Z) : list tree :=
    match nums with
    | [] => words a b
    | t :: r => words a (t_start t) ++ t :: tokens (t_stop t) r b
    end.
  (** t is the tree of a numeral at [a,b) *)
  Definition is_number (x : span) (t : tree) : Prop :=
    exists n, numeral_ok C point sep optional n /\ zsub s (fst x) (snd x) = nu_text n /\ t = num_tree s (fst x) n.
  Definition is_sentence (x : span) (t : tree) : Prop :=
    exists nums, Forall2 is_number (found_spans (number_rx C point sep optional) s (fst x) (snd x)) nums /\
      t = at_ s (fst x) (snd x) sentence_desc (tokens (fst x) nums (snd x)).
  Definition is_paragraph (x : span) (t : tree) : Prop :=
    exists ss, Forall2 is_sentence (leftover (fst x) (snd x) (found_spans (sentence_rx C) s (fst x) (snd x))) ss /\
      t = at_ s (fst x) (snd x) paragraph_desc ss.
  Definition is_document (t : tree) : Prop :=
    exists ps, Forall2 is_paragraph (leftover 0 (zlen s) (found_spans (para_rx 2) s 0 (zlen s))) ps /\
      t = at_ s 0 (zlen s) document_desc ps.
End Document.

