(** PropertiesHand.v -- C68: the hand-written lexer of the grammar language, with its regexes.
    The vocabulary of the statements is in SpecLexer.v, SpecRegex.v and SpecHand.v. *)
From Verif Require Import HandProofs.

(** C68: on every text the hand-written lexer returns exactly the tokens read from it, and prints exactly what cannot be
    read; blanks and comments are skipped. *)
Theorem C68_reads_exactly nd s fuel : digits_ok nd -> length s + 1 <= fuel ->
  exists c, hand_lexer nd s = Ret c /\
  forall ts rest, hand_reads s ts rest <->
    exists toks, scan_all0 c 0 fuel lexer_init = Ret (toks, Some rest) /\
      map (fun t => (token_type t, text t)) toks = ts.
Proof. exact (c68 nd s fuel). Qed.
Print Assumptions C68_reads_exactly.

Example C68_example : hand_reads ex_hand_text ex_hand_tokens (lit "// no newline").
Proof. exact ex_hand. Qed.

(** C68: every text has one reading. *)
Theorem C68_one_reading s : exists ts rest, hand_reads s ts rest /\ forall ts' rest', hand_reads s ts' rest' -> ts' = ts /\ rest' = rest.
Proof. exact (c68_one s). Qed.
Print Assumptions C68_one_reading.

Example C68_one_example : hand_reads ex_hand_text ex_hand_tokens (lit "// no newline").
Proof. exact ex_hand. Qed.

(** C68: a comment that the end of the text closes instead of a newline is not skipped; it is what is left and printed. *)
Theorem C68_last_comment l : 10%N ∉ l -> hand_reads (lit "//" ++ l) [] (lit "//" ++ l).
Proof. exact (c68_last_comment l). Qed.
Print Assumptions C68_last_comment.

Example C68_last_example : 10%N ∉ lit " x : /y/ ;" /\ hand_reads (lit "// x : /y/ ;") [] (lit "// x : /y/ ;").
Proof. exact ex_last. Qed.
