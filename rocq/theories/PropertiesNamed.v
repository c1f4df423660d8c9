(** PropertiesNamed.v -- C102: a group gets a name; grammars that match the same.  Model: Visitors.v, Grammar.v, Lexer.v, Generate.v, Chain.v.  Specification: SpecNamed.v, SpecUnused.v, SpecChain.v, SpecEbnf.v. *)
From Verif Require Import NamedMain.

(** C102: two LL(1) grammars with the same lexer rules whose first rules match the same token sequences accept the same texts through the tool chain, whatever their rules look like. *)
Theorem C102_same compile G G' r r' g g' data data' name name' order order' ws s rules ts :
  grammar_tree G r -> grammar_tree G' r' -> proper G -> proper G' -> load_tree r = Ret (g, data) -> load_tree r' = Ret (g', data') ->
  no_collision (g_vocabulary g) G -> no_collision (g_vocabulary g') G' -> head (parser_rule_names G) = Some name -> head (parser_rule_names G') = Some name' ->
  lexer_rules_of G = lexer_rules_of G' -> (forall w, matches_atom G (RuleRef name) w <-> matches_atom G' (RuleRef name') w) ->
  ll1 (productions g) -> ll1 (productions g') -> iteration_order g order -> iteration_order g' order' ->
  engine_ok compile -> compiled compile G rules -> (lit "WHITE_SPACE", ws) ∈ generated_constants data -> tokenized rules s ts ->
  data = data' /\ ((exists t, accepted compile order g data ws s ts t) <-> (exists t', accepted compile order' g' data' ws s ts t')).
Proof. exact (c102_same compile G G' r r' g g' data data' name name' order order' ws s rules ts). Qed.
Print Assumptions C102_same.

(** A group that gets a name of its own, at some or all of its places, leaves what the other rules match as it was; ... *)
Theorem C102_language name body G G' : group_named name body G G' -> forall n w, n <> name -> (matches_atom G' (RuleRef n) w <-> matches_atom G (RuleRef n) w).
Proof. exact (c102_language name body G G'). Qed.
Print Assumptions C102_language.

(** ... so the same texts are accepted. *)
Theorem C102_chain name body G G' : group_named name body G G' -> forall r r' g g' data data', grammar_tree G r -> grammar_tree G' r' -> proper G -> proper G' ->
  load_tree r = Ret (g, data) -> load_tree r' = Ret (g', data') -> no_collision (g_vocabulary g) G -> no_collision (g_vocabulary g') G' ->
  parser_rule_names G <> [] -> head (parser_rule_names G) = head (parser_rule_names G') -> lexer_rules_of G = lexer_rules_of G' ->
  forall compile order order' ws s rules ts, ll1 (productions g) -> ll1 (productions g') -> iteration_order g order -> iteration_order g' order' ->
  engine_ok compile -> compiled compile G rules -> (lit "WHITE_SPACE", ws) ∈ generated_constants data -> tokenized rules s ts ->
  data = data' /\ ((exists t, accepted compile order g data ws s ts t) <-> (exists t', accepted compile order' g' data' ws s ts t')).
Proof. exact (c102_chain name body G G'). Qed.
Print Assumptions C102_chain.

Example C102_example : group_named (lit "more") ex_body ex_sum ex_sum4 /\ grammar_tree ex_sum ex_sum_tree /\ grammar_tree ex_sum4 tree4 /\ proper ex_sum /\ proper ex_sum4 /\
  load_tree ex_sum_tree = Ret (ex_sum_g, rules_of ex_sum_tree) /\ load_tree tree4 = Ret (grammar_of tree4, rules_of tree4) /\
  no_collision (g_vocabulary ex_sum_g) ex_sum /\ no_collision (g_vocabulary (grammar_of tree4)) ex_sum4 /\ parser_rule_names ex_sum <> [] /\
  head (parser_rule_names ex_sum) = head (parser_rule_names ex_sum4) /\ lexer_rules_of ex_sum = lexer_rules_of ex_sum4 /\
  ll1 (productions ex_sum_g) /\ ll1 (productions (grammar_of tree4)) /\
  engine_ok (engine ascii_digit) /\ compiled (engine ascii_digit) ex_sum ex_sum_rules /\ (lit "WHITE_SPACE", 4) ∈ generated_constants (rules_of ex_sum_tree) /\
  tokenized ex_sum_rules (lit "12 +3") ex_sum_cut /\ exists t, accepted (engine ascii_digit) ex_sum_order ex_sum_g (rules_of ex_sum_tree) 4 (lit "12 +3") ex_sum_cut t.
Proof. exact ex_c102. Qed.
Example C102_example_run : exists t t', run_ws ex_sum 4 (lit "12 +3") = Ret ([], None, ([], inl t)) /\ run_ws ex_sum4 4 (lit "12 +3") = Ret ([], None, ([], inl t')) /\
  node_names (Rule t) = [lit "sum"] /\ node_names (Rule t') = [lit "sum"; lit "more"] /\ rule_leaves t = rule_leaves t'.
Proof. exact ex_c102_run. Qed.

(** For two grammar files, if an operator applied to a token is applied to tokens only (then there is no collision). *)
Theorem C102_text nd g d order name body G ts s G' ts' s' :
  digits_ok nd -> load_ast syntaxis2_json = Ret (g, d) -> iteration_order g order ->
  grammar_tokens G ts -> written ts s -> grammar_tokens G' ts' -> written ts' s' -> group_named name body G G' ->
  lexer_rules_of G = lexer_rules_of G' -> head (parser_rule_names G) = head (parser_rule_names G') ->
  proper G -> proper G' -> references_defined G -> references_defined G' -> tokens_apart G -> tokens_apart G' -> parser_rule_names G <> [] ->
  exists r r' n g1 g2 data, (forall fuel, n <= fuel -> main_run nd order fuel syntaxis2_json s = Ret (r, [], None, []) /\
                                              main_run nd order fuel syntaxis2_json s' = Ret (r', [], None, [])) /\
    load_tree (retype_rule hand_type r) = Ret (g1, data) /\ load_tree (retype_rule hand_type r') = Ret (g2, data) /\
    (ll1 (productions g1) -> ll1 (productions g2) -> forall compile order1 order2 ws text rules tks, iteration_order g1 order1 -> iteration_order g2 order2 ->
       engine_ok compile -> compiled compile G rules -> (lit "WHITE_SPACE", ws) ∈ generated_constants data -> tokenized rules text tks ->
       ((exists t, accepted compile order1 g1 data ws text tks t) <-> (exists t', accepted compile order2 g2 data ws text tks t'))).
Proof. exact (c102_text nd g d order name body G ts s G' ts' s'). Qed.
Print Assumptions C102_text.

Example C102_example_text : grammar_tokens ex_nameless ex_nameless_tokens /\ written ex_nameless_tokens (lit "ab:(Xy Xy)*;Xy:/x/;") /\
  grammar_tokens ex_named ex_named_tokens /\ written ex_named_tokens (lit "ab:cd*;cd:Xy Xy;Xy:/x/;") /\ group_named (lit "cd") ex_pairs ex_nameless ex_named /\
  lexer_rules_of ex_nameless = lexer_rules_of ex_named /\ head (parser_rule_names ex_nameless) = head (parser_rule_names ex_named) /\
  proper ex_nameless /\ proper ex_named /\ references_defined ex_nameless /\ references_defined ex_named /\ tokens_apart ex_nameless /\ tokens_apart ex_named /\ parser_rule_names ex_nameless <> [].
Proof. exact ex_c102_text. Qed.
