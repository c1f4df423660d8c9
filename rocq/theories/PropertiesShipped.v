(** PropertiesShipped.v -- C44, C45, C50: the whole program of main.rs on the shipped grammar file.
    Statement vocabulary: SpecShipped.v, SpecRegex.v, SpecEbnf.v, SpecGrammar.v. *)
From Verif Require Import BootstrapProofs.

(** C44: syntaxis2.json loads to a closed LL(1) grammar whose table does not depend on the iteration order. *)
Theorem C44_shipped_ll1 : exists g d, load_ast syntaxis2_json = Ret (g, d) /\
  closed (nonterminals (g_vocabulary g)) (productions g) /\ ll1 (productions g) /\
  exists tab n, forall order fuel, iteration_order g order -> n <= fuel -> build_table fuel order g = Ret (tab, []).
Proof. exact (c44_shipped). Qed.
Print Assumptions C44_shipped_ll1.

(** C44: main parses every text that writes a grammar to a tree of that grammar (token types renumbered), and
    prints nothing. *)
Theorem C44_parses_written nd g d order G ts s :
  digits_ok nd -> load_ast syntaxis2_json = Ret (g, d) -> iteration_order g order ->
  grammar_tokens G ts -> written ts s ->
  exists r, grammar_tree G (retype_rule hand_type r) /\
    exists n, forall fuel, n <= fuel -> main_run nd order fuel syntaxis2_json s = Ret (r, [], None, []).
Proof. exact (c44_complete nd g d order G ts s). Qed.
Print Assumptions C44_parses_written.

Example C44_written_example : grammar_tokens ex_shipped_grammar ex_shipped_tokens /\ written ex_shipped_tokens ex_shipped_text.
Proof. exact (conj ex_shipped_grammar_tokens ex_shipped_written). Qed.

(** C44, converse: if the parser reports no mismatch then nothing else is printed and the text writes a grammar
    whose tree was returned. *)
Theorem C44_only_written nd g d order fuel s r w rest :
  digits_ok nd -> load_ast syntaxis2_json = Ret (g, d) -> iteration_order g order ->
  main_run nd order fuel syntaxis2_json s = Ret (r, w, rest, []) ->
  w = [] /\ rest = None /\
  exists G ts, grammar_tokens G ts /\ written ts s /\ grammar_tree G (retype_rule hand_type r).
Proof. exact (c44_sound nd g d order fuel s r w rest). Qed.
Print Assumptions C44_only_written.

Example C44_only_example : exists r, main_run ascii_digit shipped_order 3000 syntaxis2_json main_input = Ret (r, [], None, []) /\
  (length (children r) =? 23) = true.
Proof. exact main_runs. Qed.

(** C44: main terminates on every text. *)
Theorem C44_terminates nd g d order s :
  load_ast syntaxis2_json = Ret (g, d) -> iteration_order g order ->
  exists n, forall fuel, n <= fuel -> main_run nd order fuel syntaxis2_json s <> OutOfFuel /\
    main_run nd order fuel syntaxis2_json s = main_run nd order n syntaxis2_json s.
Proof. exact (c44_total nd g d order s). Qed.
Print Assumptions C44_terminates.

(** C45 is false: the visitors panic on the tree main builds for its own text. *)
Theorem C45_visitors_refuted : exists nd g d order fuel s r,
  digits_ok nd /\ load_ast syntaxis2_json = Ret (g, d) /\ iteration_order g order /\
  main_run nd order fuel syntaxis2_json s = Ret (r, [], None, []) /\ load_tree r = Panic.
Proof. exact (c45_refuted). Qed.
Print Assumptions C45_visitors_refuted.

(** C45: they do so on the tree of every text with at least one rule. *)
Theorem C45_visitors_panic nd g d order fuel s r w rest :
  digits_ok nd -> load_ast syntaxis2_json = Ret (g, d) -> iteration_order g order ->
  main_run nd order fuel syntaxis2_json s = Ret (r, w, rest, []) -> children r <> [] -> load_tree r = Panic.
Proof. exact (c45_main_panics nd g d order fuel s r w rest). Qed.
Print Assumptions C45_visitors_panic.

Example C45_panic_example : exists r, main_run ascii_digit shipped_order 3000 syntaxis2_json main_input = Ret (r, [], None, []) /\
  (length (children r) =? 23) = true.
Proof. exact main_runs. Qed.

(** C45: the generated accessors, with the generated numbers, find what the hand-written ones find in the
    renumbered tree. *)
Theorem C45_accessors r : let r' := retype_rule hand_type r in
  let tok := option_map (retype hand_type) in let toks := map (retype hand_type) in
  let ctx := option_map (retype_rule hand_type) in let ctxs := map (retype_rule hand_type) in
  parser_rule_list r' = ctxs (v1_parser_rule_list r) /\ lexer_rule_list r' = ctxs (v1_lexer_rule_list r) /\
  parser_rule_rule_ref r' = tok (v1_parser_rule_rule_ref r) /\ ctx_colon r' = tok (v1_parser_rule_colon r) /\
  parser_rule_block r' = ctx (v1_parser_rule_block r) /\ ctx_semi r' = tok (v1_parser_rule_semi r) /\
  lexer_rule_token_ref r' = tok (v1_lexer_rule_token_ref r) /\ ctx_colon r' = tok (v1_lexer_rule_colon r) /\
  ctx_semi r' = tok (v1_lexer_rule_semi r) /\ lexer_rule_regular r' = ctx (v1_lexer_rule_regular r) /\
  alternative_list r' = ctxs (v1_alternative_list r) /\ or_list r' = toks (v1_or_list r) /\
  element_list r' = ctxs (v1_element_list r) /\ alternative_epsilon r' = ctx (v1_alternative_epsilon r) /\
  epsilon_epsilon r' = tok (v1_epsilon_epsilon r) /\
  element_token_ref r' = tok (v1_element_token_ref r) /\ element_string_literal r' = tok (v1_element_string_literal r) /\
  element_rule_ref r' = tok (v1_element_rule_ref r) /\ element_lparen r' = tok (v1_element_lparen r) /\
  element_rparen r' = tok (v1_element_rparen r) /\ element_block r' = ctx (v1_element_block r) /\
  element_ebnf_suffix r' = ctx (v1_element_ebnf_suffix r) /\
  suffix_star r' = tok (v1_suffix_star r) /\ suffix_plus r' = tok (v1_suffix_plus r) /\
  question_list r' = toks (v1_question_list r) /\
  regular_regular_literal r' = tok (v1_regular_regular_literal r).
Proof. exact (c45_accessors r). Qed.
Print Assumptions C45_accessors.

(** C45 after renumbering the token types: the visitors return iff all references are defined.  Missing to the full
    statement: the renumbering. *)
Theorem C45_renumbered_partial G ts s r : grammar_tokens G ts -> written ts s -> grammar_tree G (retype_rule hand_type r) ->
  (exists out, load_tree (retype_rule hand_type r) = Ret out) <-> references_defined G.
Proof. exact (c45_renumbered G ts s r). Qed.
Print Assumptions C45_renumbered_partial.

Example C45_renumbered_example : exists r, main_run ascii_digit shipped_order 3000 syntaxis2_json main_input = Ret (r, [], None, []) /\
  exists g d, load_tree (retype_rule hand_type r) = Ret (g, d) /\ ~ ll1 (productions g).
Proof. exact main_not_ll1. Qed.

(** C50: the template instantiated with the lexer rules of the shipped file gives the committed lexer: same constants,
    same regexes, same names, hence the same behaviour on every input. *)
Theorem C50_committed_lexer g d nd input : load_ast syntaxis2_json = Ret (g, d) ->
  generated_constants d = v1_constants /\ map ld_regex d = v1_regexes /\ lexer_new nd (map ld_regex d) (lit "_START" :: lit "_STOP" :: map ld_name d) input = v1_lexer nd input.
Proof. exact (c50 g d nd input). Qed.
Print Assumptions C50_committed_lexer.

Example C50_example : load_ast syntaxis2_json = Ret (shipped, rules_of shipped_tree).
Proof. exact shipped_load. Qed.
