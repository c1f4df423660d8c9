(** PropertiesShuffle.v -- C98: the parser rules and their alternatives in another order.  Model: Visitors.v, Grammar.v, Lexer.v, Generate.v, Crash.v.  Specification: SpecShuffle.v, SpecEbnf.v. *)
From Verif Require Import ShuffleMain.

(** C98: grammars with the same alternatives under the same names load alike; ... *)
Theorem C98_load G G' r r' : same_alternatives G G' -> grammar_tree G r -> grammar_tree G' r' -> proper G ->
  (exists out, load_tree r = Ret out) -> exists out, load_tree r' = Ret out.
Proof. exact (c98_load G G' r r'). Qed.
Print Assumptions C98_load.

(** ... the lexer rules are the same, with the same numbers, and there are rules of the same names; ... *)
Theorem C98_same G G' r r' g g' data data' : same_alternatives G G' -> grammar_tree G r -> grammar_tree G' r' -> proper G ->
  load_tree r = Ret (g, data) -> load_tree r' = Ret (g', data') -> data = data' /\
  (forall n, get_terminal_id_by_name (g_vocabulary g) n = get_terminal_id_by_name (g_vocabulary g') n) /\
  (forall n, is_Some (get_nonterminal_id_by_name (g_vocabulary g) n) <-> is_Some (get_nonterminal_id_by_name (g_vocabulary g') n)).
Proof. exact (c98_same G G' r r' g g' data data'). Qed.
Print Assumptions C98_same.

(** ... if no token has the number of a rule or nameless rule under the same suffix, in either order, both are LL(1) or neither is, and there are as many productions; ... *)
Theorem C98_ll1 G G' r r' g g' data data' : same_alternatives G G' -> grammar_tree G r -> grammar_tree G' r' -> proper G ->
  load_tree r = Ret (g, data) -> load_tree r' = Ret (g', data') -> no_collision (g_vocabulary g) G -> no_collision (g_vocabulary g') G' ->
  parser_rule_names G <> [] -> (ll1 (productions g) <-> ll1 (productions g')) /\ size (productions g) = size (productions g').
Proof. exact (c98_ll1_iff G G' r r' g g' data data'). Qed.
Print Assumptions C98_ll1.

(** ... and if they are LL(1), every text, right or wrong, goes through the tool chain in the same way, whatever the iteration orders of the two hash sets:
    no conflict, the same text left over, the same lines, and the same tree but for the rule numbers, or a panic at the same token in the rule of the same name. *)
Theorem C98_chain G G' r r' g g' data data' : same_alternatives G G' -> grammar_tree G r -> grammar_tree G' r' -> proper G ->
  load_tree r = Ret (g, data) -> load_tree r' = Ret (g', data') -> no_collision (g_vocabulary g) G -> no_collision (g_vocabulary g') G' ->
  forall compile order order' ws s, parser_rule_names G <> [] -> ll1 (productions g) -> iteration_order g order -> iteration_order g' order' ->
  exists n, forall fuel, n <= fuel ->
    same_outcome (g_vocabulary g) (g_vocabulary g') (chain_log compile order fuel g data ws s) (chain_log compile order' fuel g' data' ws s).
Proof. exact (c98_chain G G' r r' g g' data data'). Qed.
Print Assumptions C98_chain.

(** Parser rules in another order, the first one staying first, are such a case. *)
Theorem C98_shuffled G G' : shuffled G G' -> same_alternatives G G'.
Proof. exact (c98_shuffled G G'). Qed.
Print Assumptions C98_shuffled.

Example C98_example : shuffled ex_calc ex_calc2 /\ grammar_tree ex_calc (build_grammar ex_calc) /\ grammar_tree ex_calc2 (build_grammar ex_calc2) /\ proper ex_calc /\
  load_tree (build_grammar ex_calc) = Ret (grammar_of (build_grammar ex_calc), rules_of (build_grammar ex_calc)) /\
  load_tree (build_grammar ex_calc2) = Ret (grammar_of (build_grammar ex_calc2), rules_of (build_grammar ex_calc2)) /\
  no_collision (g_vocabulary (grammar_of (build_grammar ex_calc))) ex_calc /\ no_collision (g_vocabulary (grammar_of (build_grammar ex_calc2))) ex_calc2 /\
  ll1 (productions (grammar_of (build_grammar ex_calc))) /\ productions (grammar_of (build_grammar ex_calc)) <> productions (grammar_of (build_grammar ex_calc2)).
Proof. exact ex_c98. Qed.

(** Alternatives in another order and a rule in two parts:  expr: term (Plus term)*;  factor: L expr R;  term: factor (Mul factor)*;  factor: Num | L expr R;  *)
Example C98_example_parts : same_alternatives ex_calc ex_calc3 /\ grammar_tree ex_calc3 (build_grammar ex_calc3) /\
  load_tree (build_grammar ex_calc3) = Ret (grammar_of (build_grammar ex_calc3), rules_of (build_grammar ex_calc3)) /\
  no_collision (g_vocabulary (grammar_of (build_grammar ex_calc3))) ex_calc3 /\ productions (grammar_of (build_grammar ex_calc)) <> productions (grammar_of (build_grammar ex_calc3)).
Proof. exact ex_c98_parts. Qed.

(** For two grammar files, if an operator applied to a token is applied to tokens only (then there is no collision). *)
Theorem C98_text nd g d order G ts s G' ts' s' :
  digits_ok nd -> load_ast syntaxis2_json = Ret (g, d) -> iteration_order g order ->
  grammar_tokens G ts -> written ts s -> grammar_tokens G' ts' -> written ts' s' -> same_alternatives G G' ->
  proper G -> references_defined G -> tokens_apart G -> parser_rule_names G <> [] ->
  exists r r' n g1 g2 data, (forall fuel, n <= fuel -> main_run nd order fuel syntaxis2_json s = Ret (r, [], None, []) /\
                                              main_run nd order fuel syntaxis2_json s' = Ret (r', [], None, [])) /\
    load_tree (retype_rule hand_type r) = Ret (g1, data) /\ load_tree (retype_rule hand_type r') = Ret (g2, data) /\
    (ll1 (productions g1) <-> ll1 (productions g2)) /\
    (ll1 (productions g1) -> forall compile order1 order2 ws text, iteration_order g1 order1 -> iteration_order g2 order2 ->
       exists m, forall fuel, m <= fuel ->
         same_outcome (g_vocabulary g1) (g_vocabulary g2) (chain_log compile order1 fuel g1 data ws text) (chain_log compile order2 fuel g2 data ws text)).
Proof. exact (c98_text nd g d order G ts s G' ts' s'). Qed.
Print Assumptions C98_text.

Example C98_example_text : grammar_tokens ex_once ex_once_tokens /\ written ex_once_tokens ex_once_text /\
  grammar_tokens ex_repeated ex_repeated_tokens /\ written ex_repeated_tokens (lit "ab:Xy*;ab:Xy*;Xy:/x/;") /\ same_alternatives ex_once ex_repeated /\
  proper ex_once /\ references_defined ex_once /\ tokens_apart ex_once /\ parser_rule_names ex_once <> [].
Proof. exact ex_c98_text. Qed.

(** The condition on the numbers is needed: with a collision one order can be LL(1) and another not. *)
Theorem C98_collision_matters : exists G G' r r' g g' data data', shuffled G G' /\ grammar_tree G r /\ grammar_tree G' r' /\ proper G /\
  load_tree r = Ret (g, data) /\ load_tree r' = Ret (g', data') /\ ~ ll1 (productions g) /\ ll1 (productions g').
Proof. exact c98_collision. Qed.
Print Assumptions C98_collision_matters.

(** And the first rule must stay first. *)
Theorem C98_first_matters : exists compile G G' r r' g g' data data' order order' fuel ws s t,
  parser_rules_of G ≡ₚ parser_rules_of G' /\ lexer_rules_of G = lexer_rules_of G' /\ grammar_tree G r /\ grammar_tree G' r' /\
  load_tree r = Ret (g, data) /\ load_tree r' = Ret (g', data') /\ iteration_order g order /\ iteration_order g' order' /\
  chain_log compile order fuel g data ws s = Ret ([], None, ([], inl t)) /\
  exists h, chain_log compile order' fuel g' data' ws s = Ret ([], None, ([], inr h)) /\ h <> NoFuel.
Proof. exact c98_first. Qed.
Print Assumptions C98_first_matters.
