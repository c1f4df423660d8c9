(** PropertiesUnused.v -- C101: more rules under new names.  Model: Visitors.v, Grammar.v, Lexer.v, Generate.v, Chain.v, Crash.v.  Specification: SpecUnused.v, SpecMore.v, SpecShuffle.v, SpecChain.v, SpecEbnf.v. *)
From Verif Require Import UnusedMain.

(** C101: if a grammar gets more rules, none under a name it has already, its rules match what they matched before; ... *)
Theorem C101_language G G' : new_rules G G' -> references_defined G -> forall n w, n ∈ parser_rule_names G -> (matches_atom G' (RuleRef n) w <-> matches_atom G (RuleRef n) w).
Proof. exact (c101_language G G'). Qed.
Print Assumptions C101_language.

(** ... and if it is LL(1) then, the same texts are accepted through the tool chain, with the same trees but for the rule numbers. *)
Theorem C101_chain G G' r r' g g' data data' : new_rules G G' -> grammar_tree G r -> grammar_tree G' r' -> proper G' ->
  load_tree r = Ret (g, data) -> load_tree r' = Ret (g', data') -> no_collision (g_vocabulary g) G -> no_collision (g_vocabulary g') G' ->
  forall compile order order' ws s rules ts, parser_rule_names G <> [] -> ll1 (productions g') -> iteration_order g order -> iteration_order g' order' ->
  engine_ok compile -> compiled compile G rules -> (lit "WHITE_SPACE", ws) ∈ generated_constants data -> tokenized rules s ts ->
  (forall t, accepted compile order g data ws s ts t -> exists t', accepted compile order' g' data' ws s ts t' /\ unnumbered t = unnumbered t') /\
  (forall t', accepted compile order' g' data' ws s ts t' -> exists t, accepted compile order g data ws s ts t /\ unnumbered t = unnumbered t').
Proof. exact (c101_chain G G' r r' g g' data data'). Qed.
Print Assumptions C101_chain.

(** Rules of new names added at the end are such a case. *)
Theorem C101_appended G G2 : lexer_rules_of G2 = [] -> parser_rule_names G <> [] -> (forall n, n ∈ parser_rule_names G2 -> n ∉ parser_rule_names G) -> new_rules G (G ++ G2).
Proof. exact (c101_appended G G2). Qed.
Print Assumptions C101_appended.

Example C101_example : new_rules ex_sum ex_sum3 /\ grammar_tree ex_sum ex_sum_tree /\ grammar_tree ex_sum3 tree3 /\ proper ex_sum3 /\
  load_tree ex_sum_tree = Ret (ex_sum_g, rules_of ex_sum_tree) /\ load_tree tree3 = Ret (grammar_of tree3, rules_of tree3) /\
  no_collision (g_vocabulary ex_sum_g) ex_sum /\ no_collision (g_vocabulary (grammar_of tree3)) ex_sum3 /\ parser_rule_names ex_sum <> [] /\ ll1 (productions (grammar_of tree3)) /\
  engine_ok (engine ascii_digit) /\ compiled (engine ascii_digit) ex_sum ex_sum_rules /\ (lit "WHITE_SPACE", 4) ∈ generated_constants (rules_of ex_sum_tree) /\
  tokenized ex_sum_rules (lit "12 +3") ex_sum_cut /\ exists t, accepted (engine ascii_digit) ex_sum_order ex_sum_g (rules_of ex_sum_tree) 4 (lit "12 +3") ex_sum_cut t.
Proof. exact ex_c101. Qed.

(** For two grammar files, if an operator applied to a token is applied to tokens only (then there is no collision). *)
Theorem C101_text nd g d order G ts s G' ts' s' :
  digits_ok nd -> load_ast syntaxis2_json = Ret (g, d) -> iteration_order g order ->
  grammar_tokens G ts -> written ts s -> grammar_tokens G' ts' -> written ts' s' -> new_rules G G' ->
  proper G' -> references_defined G -> references_defined G' -> tokens_apart G' -> parser_rule_names G <> [] ->
  exists r r' n g1 g2 data, (forall fuel, n <= fuel -> main_run nd order fuel syntaxis2_json s = Ret (r, [], None, []) /\
                                              main_run nd order fuel syntaxis2_json s' = Ret (r', [], None, [])) /\
    load_tree (retype_rule hand_type r) = Ret (g1, data) /\ load_tree (retype_rule hand_type r') = Ret (g2, data) /\
    (ll1 (productions g2) -> forall compile order1 order2 ws text rules tks, iteration_order g1 order1 -> iteration_order g2 order2 ->
       engine_ok compile -> compiled compile G rules -> (lit "WHITE_SPACE", ws) ∈ generated_constants data -> tokenized rules text tks ->
       (forall t, accepted compile order1 g1 data ws text tks t -> exists t', accepted compile order2 g2 data ws text tks t' /\ unnumbered t = unnumbered t') /\
       (forall t', accepted compile order2 g2 data ws text tks t' -> exists t, accepted compile order1 g1 data ws text tks t /\ unnumbered t = unnumbered t')).
Proof. exact (c101_text nd g d order G ts s G' ts' s'). Qed.
Print Assumptions C101_text.

Example C101_example_text : grammar_tokens ex_once ex_once_tokens /\ written ex_once_tokens ex_once_text /\
  grammar_tokens ex_added ex_added_tokens /\ written ex_added_tokens (lit "ab:Xy*;cd:Xy*;Xy:/x/;") /\ new_rules ex_once ex_added /\
  proper ex_added /\ references_defined ex_once /\ references_defined ex_added /\ tokens_apart ex_added /\ parser_rule_names ex_once <> [].
Proof. exact ex_c101_text. Qed.

(** What happens to texts that are not accepted can change: a rule that no other refers to can turn a panic into a tree and a line. *)
Theorem C101_errors_change : exists compile G G' r r' g g' data order order' fuel ws s h line t,
  new_rules G G' /\ grammar_tree G r /\ grammar_tree G' r' /\ proper G' /\ load_tree r = Ret (g, data) /\ load_tree r' = Ret (g', data) /\
  no_collision (g_vocabulary g) G /\ no_collision (g_vocabulary g') G' /\ ll1 (productions g') /\ iteration_order g order /\ iteration_order g' order' /\
  (lit "WHITE_SPACE", ws) ∈ generated_constants data /\
  chain_log compile order fuel g data ws s = Ret ([], None, ([], inr h)) /\ h <> NoFuel /\ chain_log compile order' fuel g' data ws s = Ret ([], None, ([line], inl t)).
Proof. exact c101_errors. Qed.
Print Assumptions C101_errors_change.
