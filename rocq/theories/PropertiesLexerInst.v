(** PropertiesLexerInst.v -- C13, C14: the lexers of the grammar language, with their regexes.
    Statement vocabulary: SpecRegex.v, SpecLexer.v. *)
From Verif Require Import LexerInstMain.

(** C13: the generated lexer turns a text into exactly the tokens it was written from, followed by _STOP; every
    text it accepts was written that way, and every other text leaves a rest that is printed. *)
Theorem C13_written_iff_scanned nd s fuel : digits_ok nd -> length s + 2 <= fuel ->
  exists c, v1_lexer nd s = Ret c /\
  (forall ts, written ts s <-> exists toks stop,
     scan_all c 15 0 fuel lexer_init = Ret (toks ++ [stop], None) /\ is_stop stop /\
     map (fun t => (token_type t, text t)) toks = ts) /\
  ((~ exists ts, written ts s) -> exists toks rest,
     scan_all c 15 0 fuel lexer_init = Ret (toks, Some rest) /\ rest <> []).
Proof. exact (c13_all nd s fuel). Qed.
Print Assumptions C13_written_iff_scanned.

Example C13_example : written ex_v1_tokens ex_v1_text.
Proof. exact ex_v1_written. Qed.

(** C14 is false: the text [epsilon] is scanned as a RULE_REF. *)
Theorem C14_keyword_refuted : exists nd s c toks stop t, digits_ok nd /\ v1_lexer nd s = Ret c /\
  scan_all c 15 0 (length s + 2) lexer_init = Ret (toks ++ [stop], None) /\
  t ∈ toks /\ text t = lit "epsilon" /\ token_type t <> 7.
Proof. exact (c14_refuted). Qed.
Print Assumptions C14_keyword_refuted.

(** C14, in general, generated lexer: only the letter gives EPSILON; the word [epsilon] is a RULE_REF wherever it
    is scanned as a token.  Missing to the full statement: EPSILON for the word. *)
Theorem C14_v1_keyword_partial nd s c ts st t : digits_ok nd -> v1_lexer nd s = Ret c -> scanned (scan c) lexer_init ts st -> t ∈ ts ->
  (token_type t = 7 -> text t = [949%N]) /\ (text t = lit "epsilon" -> token_type t = 2).
Proof. exact (c14_v1 nd s c ts st t). Qed.
Print Assumptions C14_v1_keyword_partial.

Example C14_example : exists c st, v1_lexer ascii_digit ex_v1_text = Ret c /\
  exists t, scanned (scan c) lexer_init [t] st /\ text t = lit "ab".
Proof.
  eexists _, _. split; [apply v1_new|]. eexists. split; [econstructor; [vm_compute; reflexivity|constructor]|reflexivity].
Qed.

(** C14, in general, hand-written lexer: the word [epsilon] is a RULE_REF (7), never an EPSILON (22). *)
Theorem C14_hand_keyword nd s c ts st t : hand_lexer nd s = Ret c -> scanned (scan0 c) lexer_init ts st -> t ∈ ts ->
  text t = lit "epsilon" -> token_type t = 7.
Proof. exact (c14_hand nd s c ts st t). Qed.
Print Assumptions C14_hand_keyword.

Example C14_hand_example : exists c st, hand_lexer ascii_digit (lit "epsilon;") = Ret c /\
  exists t, scanned (scan0 c) lexer_init [t] st /\ text t = lit "epsilon".
Proof.
  eexists _, _. split; [apply hand_new|]. eexists. split; [econstructor; [vm_compute; reflexivity|constructor]|reflexivity].
Qed.
