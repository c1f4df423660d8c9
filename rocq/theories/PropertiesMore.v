(** PropertiesMore.v -- C99: more parser rules and more alternatives.  Model: Visitors.v, Grammar.v, Lexer.v, Generate.v, Crash.v.  Specification: SpecMore.v, SpecShuffle.v, SpecEbnf.v. *)
From Verif Require Import MoreMain.

(** C99: if a grammar gets more rules and more alternatives and is LL(1) then, it was LL(1) before; ... *)
Theorem C99_ll1 G G' r r' g g' data data' : more_alternatives G G' -> grammar_tree G r -> grammar_tree G' r' -> proper G' ->
  load_tree r = Ret (g, data) -> load_tree r' = Ret (g', data') -> no_collision (g_vocabulary g) G -> no_collision (g_vocabulary g') G' ->
  parser_rule_names G <> [] -> ll1 (productions g') -> ll1 (productions g).
Proof. exact (c99_ll1 G G' r r' g g' data data'). Qed.
Print Assumptions C99_ll1.

(** ... and on every text the larger grammar does what the smaller one did: the same text left over, the same lines, and the same tree but for the rule
    numbers, or the same panic at the end of the input.  Only where the smaller grammar had no entry for a token may the larger one go on. *)
Theorem C99_chain G G' r r' g g' data data' : more_alternatives G G' -> grammar_tree G r -> grammar_tree G' r' -> proper G' ->
  load_tree r = Ret (g, data) -> load_tree r' = Ret (g', data') -> no_collision (g_vocabulary g) G -> no_collision (g_vocabulary g') G' ->
  forall compile order order' ws s, parser_rule_names G <> [] -> ll1 (productions g') -> iteration_order g order -> iteration_order g' order' ->
  exists n, forall fuel, n <= fuel ->
    kept_outcome (chain_log compile order fuel g data ws s) (chain_log compile order' fuel g' data' ws s).
Proof. exact (c99_chain G G' r r' g g' data data'). Qed.
Print Assumptions C99_chain.

(** Parser rules added at the end, for old names or new ones, are such a case. *)
Theorem C99_appended G G2 : lexer_rules_of G2 = [] -> parser_rule_names G <> [] -> more_alternatives G (G ++ G2).
Proof. exact (c99_appended G G2). Qed.
Print Assumptions C99_appended.

Example C99_example : more_alternatives ex_calc ex_calc4 /\ grammar_tree ex_calc (build_grammar ex_calc) /\ grammar_tree ex_calc4 (build_grammar ex_calc4) /\ proper ex_calc4 /\
  load_tree (build_grammar ex_calc) = Ret (grammar_of (build_grammar ex_calc), rules_of (build_grammar ex_calc)) /\
  load_tree (build_grammar ex_calc4) = Ret (grammar_of (build_grammar ex_calc4), rules_of (build_grammar ex_calc4)) /\
  no_collision (g_vocabulary (grammar_of (build_grammar ex_calc))) ex_calc /\ no_collision (g_vocabulary (grammar_of (build_grammar ex_calc4))) ex_calc4 /\
  parser_rule_names ex_calc <> [] /\ ll1 (productions (grammar_of (build_grammar ex_calc4))) /\ ~ productions (grammar_of (build_grammar ex_calc)) ⊆ productions (grammar_of (build_grammar ex_calc4)).
Proof. exact ex_c99. Qed.
Example C99_example_run : (exists t, run_of ex_calc (lit "1+2") = Ret ([], None, ([], inl t))) /\ (exists t, run_of ex_calc4 (lit "1+2") = Ret ([], None, ([], inl t))) /\
  run_of ex_calc (lit "+1") = Ret ([], None, ([], inr (NoEntry 0 0))) /\ (exists t, run_of ex_calc4 (lit "+1") = Ret ([], None, ([], inl t))).
Proof. exact ex_c99_run. Qed.

(** For two grammar files, if an operator applied to a token is applied to tokens only (then there is no collision). *)
Theorem C99_text nd g d order G ts s G' ts' s' :
  digits_ok nd -> load_ast syntaxis2_json = Ret (g, d) -> iteration_order g order ->
  grammar_tokens G ts -> written ts s -> grammar_tokens G' ts' -> written ts' s' -> more_alternatives G G' ->
  proper G' -> references_defined G -> references_defined G' -> tokens_apart G' -> parser_rule_names G <> [] ->
  exists r r' n g1 g2 data, (forall fuel, n <= fuel -> main_run nd order fuel syntaxis2_json s = Ret (r, [], None, []) /\
                                              main_run nd order fuel syntaxis2_json s' = Ret (r', [], None, [])) /\
    load_tree (retype_rule hand_type r) = Ret (g1, data) /\ load_tree (retype_rule hand_type r') = Ret (g2, data) /\
    (ll1 (productions g2) -> forall compile order1 order2 ws text, iteration_order g1 order1 -> iteration_order g2 order2 ->
       exists m, forall fuel, m <= fuel -> kept_outcome (chain_log compile order1 fuel g1 data ws text) (chain_log compile order2 fuel g2 data ws text)).
Proof. exact (c99_text nd g d order G ts s G' ts' s'). Qed.
Print Assumptions C99_text.

Example C99_example_text : grammar_tokens ex_once ex_once_tokens /\ written ex_once_tokens ex_once_text /\
  grammar_tokens ex_added ex_added_tokens /\ written ex_added_tokens (lit "ab:Xy*;cd:Xy*;Xy:/x/;") /\ more_alternatives ex_once ex_added /\
  proper ex_added /\ references_defined ex_once /\ references_defined ex_added /\ tokens_apart ex_added /\ parser_rule_names ex_once <> [].
Proof. exact ex_c99_text. Qed.

(** If the larger grammar is not LL(1), a text that had a tree can panic. *)
Theorem C99_ll1_matters : exists compile G G' r r' g g' data data' order order' fuel ws s t,
  more_alternatives G G' /\ grammar_tree G r /\ grammar_tree G' r' /\ proper G' /\ load_tree r = Ret (g, data) /\ load_tree r' = Ret (g', data') /\
  no_collision (g_vocabulary g) G /\ no_collision (g_vocabulary g') G' /\ iteration_order g order /\ iteration_order g' order' /\
  chain_log compile order fuel g data ws s = Ret ([], None, ([], inl t)) /\
  exists w h, chain_log compile order' fuel g' data' ws s = Ret (w, None, ([], inr h)) /\ h <> NoFuel.
Proof. exact c99_ll1_needed. Qed.
Print Assumptions C99_ll1_matters.
