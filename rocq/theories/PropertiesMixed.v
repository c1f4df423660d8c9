(** PropertiesMixed.v -- C96: lexer rules and parser rules may be mixed in any way.  Model: Visitors.v, Bootstrap.v.  Specification: SpecMixed.v, SpecEbnf.v, SpecRewrite.v. *)
From Verif Require Import MixedMain.

(** C96: two grammars with the same parser rules in the same order and the same lexer rules in the same order load to the same result (a panic
    included): numbers, vocabulary, productions and regexes.  No rule may have the name of a token; texts cannot break this. *)
Theorem C96_load G r G' r' : grammar_tree G r -> grammar_tree G' r' -> mixed G G' -> (forall n, n ∈ parser_rule_names G -> n ∉ terminal_names G) ->
  load_tree r = load_tree r'.
Proof. exact (c96_load G r G' r'). Qed.
Print Assumptions C96_load.

(** The passes for the lexer rules and for the string literals, without the condition on names. *)
Theorem C96_lexer_rules G r G' r' s : grammar_tree G r -> grammar_tree G' r' -> mixed G G' -> visit_children lexer_visitor r s = visit_children lexer_visitor r' s.
Proof. exact (lexer_mixed G r G' r' s). Qed.
Print Assumptions C96_lexer_rules.

Theorem C96_strings G r G' r' s : grammar_tree G r -> grammar_tree G' r' -> mixed G G' -> visit_children strings_visitor r s = visit_children strings_visitor r' s.
Proof. exact (strings_mixed G r G' r' s). Qed.
Print Assumptions C96_strings.

Example C96_example : grammar_tree ex_again (build_grammar ex_again) /\ grammar_tree ex_moved (build_grammar ex_moved) /\ mixed ex_again ex_moved /\
  (forall n, n ∈ parser_rule_names ex_again -> n ∉ terminal_names ex_again) /\ loaded (build_grammar ex_again) = true.
Proof. exact ex_c96. Qed.

(** Two such texts, whatever blanks and comments they use: both are read, and load to the same result. *)
Theorem C96_text nd g d order G ts s G' ts' s' :
  digits_ok nd -> load_ast syntaxis2_json = Ret (g, d) -> iteration_order g order ->
  grammar_tokens G ts -> written ts s -> grammar_tokens G' ts' -> written ts' s' -> mixed G G' ->
  exists r r' n, (forall fuel, n <= fuel -> main_run nd order fuel syntaxis2_json s = Ret (r, [], None, []) /\
                                      main_run nd order fuel syntaxis2_json s' = Ret (r', [], None, [])) /\
    load_tree (retype_rule hand_type r) = load_tree (retype_rule hand_type r').
Proof. exact (c96_text nd g d order G ts s G' ts' s'). Qed.
Print Assumptions C96_text.

Example C96_example_text : grammar_tokens ex_once ex_once_tokens /\ written ex_once_tokens (lit "ab:Xy*;Xy:/x/;") /\
  grammar_tokens ex_moved ex_moved_tokens /\ written ex_moved_tokens (lit "Xy:/x/;ab:Xy*;") /\ mixed ex_once ex_moved.
Proof. split; [exact ex_once_grammar_tokens|]. split; [exact ex_once_written|]. split; [exact ex_moved_grammar_tokens|]. split; [exact ex_moved_written|split; reflexivity]. Qed.

(** The condition on names is needed: a parser rule with the name of a token is loaded before that token, and not after it. *)
Theorem C96_names_needed : exists G r G' r', grammar_tree G r /\ grammar_tree G' r' /\ mixed G G' /\ load_tree r <> load_tree r'.
Proof. exact c96_needed. Qed.
Print Assumptions C96_names_needed.
