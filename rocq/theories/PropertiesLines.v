(** PropertiesLines.v -- C84: the report printed while loading depends on the grammar, not on how it is written.  Model: Program.v. *)
From Verif Require Import SameLines.

(** C84: trees of the same grammar, lazy marks and the spelling of ε apart, give the same lines in the same order, and the same result; lines printed
    before a panic included. *)
Theorem C84_lines G r G' r' : grammar_tree G r -> grammar_tree G' r' -> map SpecRewrite.plain_rule G = map SpecRewrite.plain_rule G' ->
  print_load_tree r = print_load_tree r'.
Proof. exact (c84_lines G r G' r'). Qed.
Print Assumptions C84_lines.

Example C84_lines_example : grammar_tree (twice true) (build_grammar (twice true)) /\ grammar_tree (twice false) (build_grammar (twice false)) /\
  map SpecRewrite.plain_rule (twice true) = map SpecRewrite.plain_rule (twice false) /\ build_grammar (twice true) <> build_grammar (twice false) /\
  fst (print_load_tree (build_grammar (twice true))) = [says_token (lit "Xy"); says_alternative].
Proof. exact twice_lines. Qed.
