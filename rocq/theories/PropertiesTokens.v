(** PropertiesTokens.v -- C100: lexer rules in another order, through the whole tool chain.  Model: Visitors.v, Grammar.v, Lexer.v, Generate.v, Crash.v.  Specification: SpecTokens.v, SpecShuffle.v, SpecReorder.v, SpecEbnf.v. *)
From Verif Require Import TokensMain.

(** C100: a grammar whose lexer rules come in another order loads if the first does; ... *)
Theorem C100_load G G' r r' : reordered_tokens G G' -> grammar_tree G r -> grammar_tree G' r' -> proper G ->
  (exists out, load_tree r = Ret out) -> exists out, load_tree r' = Ret out.
Proof. exact (c100_load G G' r r'). Qed.
Print Assumptions C100_load.

(** ... is LL(1) when the first is; ... *)
Theorem C100_ll1 G G' r r' g g' data data' : reordered_tokens G G' -> grammar_tree G r -> grammar_tree G' r' -> proper G ->
  load_tree r = Ret (g, data) -> load_tree r' = Ret (g', data') -> no_collision (g_vocabulary g) G -> no_collision (g_vocabulary g') G' ->
  parser_rule_names G <> [] -> (ll1 (productions g) <-> ll1 (productions g')).
Proof. exact (c100_ll1 G G' r r' g g' data data'). Qed.
Print Assumptions C100_ll1.

(** ... and on every text, if no two lexer rules tie, its generated lexer and parser do the same: the same text left over, the same lines, and the same tree or the
    same panic, but for the numbers of rules and tokens. *)
Theorem C100_chain G G' r r' g g' data data' : reordered_tokens G G' -> grammar_tree G r -> grammar_tree G' r' -> proper G ->
  load_tree r = Ret (g, data) -> load_tree r' = Ret (g', data') -> no_collision (g_vocabulary g) G -> no_collision (g_vocabulary g') G' ->
  parser_rule_names G <> [] -> forall compile order order' ws ws' s, no_ties (generated_lexer compile data s) ->
  (lit "WHITE_SPACE", ws) ∈ generated_constants data -> (lit "WHITE_SPACE", ws') ∈ generated_constants data' ->
  ll1 (productions g) -> iteration_order g order -> iteration_order g' order' ->
  exists n, forall fuel, n <= fuel -> alike (g_vocabulary g) (g_vocabulary g') (chain_log compile order fuel g data ws s) (chain_log compile order' fuel g' data' ws' s).
Proof. exact (c100_chain G G' r r' g g' data data'). Qed.
Print Assumptions C100_chain.

(** Lexer rules none of whose words start alike do not tie. *)
Theorem C100_apart nd data s :
  (forall d d' re re' c x x', d ∈ data -> d' ∈ data -> regex_of_text (ld_regex d) = Some re -> regex_of_text (ld_regex d') = Some re' ->
     lang nd re (c :: x) -> lang nd re' (c :: x') -> ld_name d = ld_name d') ->
  no_ties (generated_lexer (engine nd) data s).
Proof. exact (c100_apart nd data s). Qed.
Print Assumptions C100_apart.

Example C100_example : reordered_tokens ex_sum ex_sum2 /\ grammar_tree ex_sum ex_sum_tree /\ grammar_tree ex_sum2 tree2 /\ proper ex_sum /\
  load_tree ex_sum_tree = Ret (grammar_of ex_sum_tree, rules_of ex_sum_tree) /\ load_tree tree2 = Ret (grammar_of tree2, rules_of tree2) /\
  no_collision (g_vocabulary (grammar_of ex_sum_tree)) ex_sum /\ no_collision (g_vocabulary (grammar_of tree2)) ex_sum2 /\ parser_rule_names ex_sum <> [] /\
  (forall s, no_ties (generated_lexer (engine ascii_digit) (rules_of ex_sum_tree) s)) /\
  (lit "WHITE_SPACE", 4) ∈ generated_constants (rules_of ex_sum_tree) /\ (lit "WHITE_SPACE", 2) ∈ generated_constants (rules_of tree2) /\
  ll1 (productions (grammar_of ex_sum_tree)) /\ productions (grammar_of ex_sum_tree) <> productions (grammar_of tree2).
Proof. exact ex_c100. Qed.
Example C100_example_run : (exists t, run_ws ex_sum 4 (lit "1 + 2") = Ret ([], None, ([], inl t))) /\ (exists t, run_ws ex_sum2 2 (lit "1 + 2") = Ret ([], None, ([], inl t))) /\
  run_ws ex_sum 4 (lit "12 12") = Ret ([], None, ([], inr (NoEntry 1 2))) /\ exists n, run_ws ex_sum2 2 (lit "12 12") = Ret ([], None, ([], inr (NoEntry 1 n))).
Proof. exact ex_c100_run. Qed.

(** For two grammar files, if an operator applied to a token is applied to tokens only (then there is no collision). *)
Theorem C100_text nd g d order G ts s G' ts' s' :
  digits_ok nd -> load_ast syntaxis2_json = Ret (g, d) -> iteration_order g order ->
  grammar_tokens G ts -> written ts s -> grammar_tokens G' ts' -> written ts' s' -> reordered_tokens G G' ->
  proper G -> references_defined G -> tokens_apart G -> parser_rule_names G <> [] ->
  exists r r' n g1 g2 data data', (forall fuel, n <= fuel -> main_run nd order fuel syntaxis2_json s = Ret (r, [], None, []) /\
                                              main_run nd order fuel syntaxis2_json s' = Ret (r', [], None, [])) /\
    load_tree (retype_rule hand_type r) = Ret (g1, data) /\ load_tree (retype_rule hand_type r') = Ret (g2, data') /\
    (ll1 (productions g1) <-> ll1 (productions g2)) /\
    (ll1 (productions g1) -> forall compile order1 order2 ws ws' text, no_ties (generated_lexer compile data text) ->
       (lit "WHITE_SPACE", ws) ∈ generated_constants data -> (lit "WHITE_SPACE", ws') ∈ generated_constants data' -> iteration_order g1 order1 -> iteration_order g2 order2 ->
       exists m, forall fuel, m <= fuel -> alike (g_vocabulary g1) (g_vocabulary g2) (chain_log compile order1 fuel g1 data ws text) (chain_log compile order2 fuel g2 data' ws' text)).
Proof. exact (c100_text nd g d order G ts s G' ts' s'). Qed.
Print Assumptions C100_text.

Example C100_example_text : grammar_tokens ex_last ex_last_tokens /\ written ex_last_tokens (lit "ab:Xy*;Xy:/x/;WHITE_SPACE:/w/;") /\
  grammar_tokens ex_before ex_before_tokens /\ written ex_before_tokens (lit "ab:Xy*;WHITE_SPACE:/w/;Xy:/x/;") /\ reordered_tokens ex_last ex_before /\
  proper ex_last /\ references_defined ex_last /\ tokens_apart ex_last /\ parser_rule_names ex_last <> [].
Proof. exact ex_c100_text. Qed.

(** With ties the order decides which token a text is, and a text with a tree becomes one that panics. *)
Theorem C100_ties_matter : exists compile G G' r r' g g' data data' order order' ws fuel s t h,
  reordered_tokens G G' /\ grammar_tree G r /\ grammar_tree G' r' /\ proper G /\ load_tree r = Ret (g, data) /\ load_tree r' = Ret (g', data') /\
  no_collision (g_vocabulary g) G /\ no_collision (g_vocabulary g') G' /\ ll1 (productions g) /\ iteration_order g order /\ iteration_order g' order' /\
  (lit "WHITE_SPACE", ws) ∈ generated_constants data /\ (lit "WHITE_SPACE", ws) ∈ generated_constants data' /\
  chain_log compile order fuel g data ws s = Ret ([], None, ([], inl t)) /\ chain_log compile order' fuel g' data' ws s = Ret ([], None, ([], inr h)) /\ h <> NoFuel.
Proof. exact c100_ties_needed. Qed.
Print Assumptions C100_ties_matter.
