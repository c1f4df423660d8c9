(** PropertiesReads.v -- C13: the generated lexer of the grammar language on every text; C78: string literals as their author
    means them.  Statement vocabulary: SpecReads.v, SpecRegex.v, SpecLexer.v. *)
From Verif Require Import ReadsProofs.

(** C13: on every text the generated lexer returns exactly the tokens read from it; it ends with _STOP if everything has been
    read, and otherwise prints exactly what cannot be read. *)
Theorem C13_reads_exactly nd s fuel : digits_ok nd -> length s + 2 <= fuel ->
  exists c, v1_lexer nd s = Ret c /\
  forall ts rest, reads s ts rest <-> exists toks, map (fun t => (token_type t, text t)) toks = ts /\
    ((rest = [] /\ exists stop, scan_all c 15 0 fuel lexer_init = Ret (toks ++ [stop], None) /\ is_stop stop) \/
     (rest <> [] /\ scan_all c 15 0 fuel lexer_init = Ret (toks, Some rest))).
Proof. exact (c13_reads nd s fuel). Qed.
Print Assumptions C13_reads_exactly.

Example C13_reads_example : reads ex_reads_text ex_reads_tokens (lit "b ;").
Proof. exact ex_reads. Qed.

(** C13: every text has one reading. *)
Theorem C13_one_reading s : exists ts rest, reads s ts rest /\ forall ts' rest', reads s ts' rest' -> ts' = ts /\ rest' = rest.
Proof. exact (c13_one s). Qed.
Print Assumptions C13_one_reading.

(** C78 full statement: a string literal, a backslash escaping the character behind it, is scanned as one token with its text, whatever
    follows.  False: ['\\('] is not scanned. *)
Theorem C78_literal_refuted : exists x, quoted x /\ forall nd s fuel c toks left, digits_ok nd -> length (x ++ s) + 2 <= fuel ->
  v1_lexer nd (x ++ s) = Ret c -> scan_all c 15 0 fuel lexer_init = Ret (toks, left) ->
  ~ exists t toks', toks = t :: toks' /\ token_type t = 13 /\ text t = x.
Proof. exact (c78_refuted). Qed.
Print Assumptions C78_literal_refuted.

Example C78_refuted_example : quoted (lit "'\('") /\ ~ known_literal (lit "'\('").
Proof. exact ex_bad_quoted. Qed.

(** C78, exactly when it holds: if and only if it has no control character and only the escapes the language knows; otherwise the
    scan stops at its opening quote and prints everything from there on. *)
Theorem C78_literal_iff_partial nd x s fuel : digits_ok nd -> length (x ++ s) + 2 <= fuel -> quoted x ->
  exists c toks left, v1_lexer nd (x ++ s) = Ret c /\ scan_all c 15 0 fuel lexer_init = Ret (toks, left) /\
  ((exists t toks', toks = t :: toks' /\ token_type t = 13 /\ text t = x) <-> known_literal x) /\
  (~ known_literal x -> toks = [] /\ left = Some (x ++ s)).
Proof. exact (c78_exact nd x s fuel). Qed.
Print Assumptions C78_literal_iff_partial.

Example C78_example : quoted (lit "'a\n\u{0x41}'") /\ known_literal (lit "'a\n\u{0x41}'").
Proof. exact ex_known. Qed.
