(** PropertiesGrow.v -- C97: rules added at the end of a grammar.  Model: Visitors.v, Grammar.v, Lexer.v, Generate.v, Crash.v.  Specification: SpecGrow.v, SpecEbnf.v. *)
From Verif Require Import GrowMain.

(** C97: whatever rules are added, every token and every named rule keeps its number, and the lexer rules stay where they were. *)
Theorem C97_numbers G G2 r r' g data g' data' : grammar_tree G r -> grammar_tree (G ++ G2) r' -> load_tree r = Ret (g, data) -> load_tree r' = Ret (g', data') ->
  names_kept (g_vocabulary g) (g_vocabulary g') /\ data `prefix_of` data'.
Proof. exact (c97_numbers G G2 r r' g data g' data'). Qed.
Print Assumptions C97_numbers.

(** If only tokens are added, the larger grammar loads too, with the same productions, the same rules (nameless ones included) and the same parsing
    table and conflicts; the new lexer rules are those with new names, the first one of each name, numbered on from the last one. *)
Theorem C97_tokens G Ts r r' g data : grammar_tree G r -> grammar_tree (G ++ Ts) r' -> Forall token_rule Ts -> load_tree r = Ret (g, data) ->
  exists g' extra, load_tree r' = Ret (g', data ++ extra) /\ productions g' = productions g /\
    rules_kept (g_vocabulary g) (g_vocabulary g') /\ names_kept (g_vocabulary g) (g_vocabulary g') /\
    map ld_name extra = new_names (dom (t_name_to_id (g_vocabulary g))) (lexer_rule_names Ts) /\
    map ld_type extra = seq (length data + 2) (length extra) /\
    (forall fuel order, build_table fuel order g' = build_table fuel order g).
Proof. exact (c97_tokens G Ts r r' g data). Qed.
Print Assumptions C97_tokens.

Example C97_example : grammar_tree ex_sum ex_sum_tree /\ grammar_tree (ex_sum ++ ex_more) (build_grammar (ex_sum ++ ex_more)) /\ Forall token_rule ex_more /\
  load_tree ex_sum_tree = Ret (ex_sum_g, rules_of ex_sum_tree) /\
  new_names (dom (t_name_to_id (g_vocabulary ex_sum_g))) (lexer_rule_names ex_more) = [lit "Digit"; lit "Minus"] /\ length (rules_of ex_sum_tree) = 3.
Proof. exact ex_c97. Qed.

(** And a text in which no new rule matches more than the old ones goes through the tool chain as before: the same conflicts, the same text left over,
    the same lines, a panic at the same place or the same tree. *)
Theorem C97_chain compile G Ts r r' g data g' data' extra order fuel ws s :
  grammar_tree G r -> grammar_tree (G ++ Ts) r' -> Forall token_rule Ts -> load_tree r = Ret (g, data) -> load_tree r' = Ret (g', data') -> data' = data ++ extra ->
  never_longer (map (fun t => compile (ld_regex t)) data) (map (fun t => compile (ld_regex t)) extra) s ->
  chain_log compile order fuel g' data' ws s = chain_log compile order fuel g data ws s.
Proof. exact (c97_chain compile G Ts r r' g data g' data' extra order fuel ws s). Qed.
Print Assumptions C97_chain.

Example C97_example_chain :
  load_tree (build_grammar (ex_sum ++ ex_more)) = Ret (grammar_of (build_grammar (ex_sum ++ ex_more)), rules_of (build_grammar (ex_sum ++ ex_more))) /\
  rules_of (build_grammar (ex_sum ++ ex_more)) = rules_of ex_sum_tree ++ [LexerRuleData 5 (lit "Digit") (lit "^([0-9])"); LexerRuleData 6 (lit "Minus") (lit "^(-)")] /\
  never_longer (map (fun t => engine ascii_digit (ld_regex t)) (rules_of ex_sum_tree))
    (map (fun t => engine ascii_digit (ld_regex t)) [LexerRuleData 5 (lit "Digit") (lit "^([0-9])"); LexerRuleData 6 (lit "Minus") (lit "^(-)")]) (lit "12 +3").
Proof. exact ex_c97_chain. Qed.

(** A token that matches more can change what a text means; ... *)
Theorem C97_longer_matters : exists compile G Ts r r' g data g' data' order fuel ws s,
  grammar_tree G r /\ grammar_tree (G ++ Ts) r' /\ Forall token_rule Ts /\ load_tree r = Ret (g, data) /\ load_tree r' = Ret (g', data') /\
  chain_log compile order fuel g' data' ws s <> chain_log compile order fuel g data ws s.
Proof. exact c97_longer. Qed.
Print Assumptions C97_longer_matters.

(** ... and a parser rule more gives other numbers to the nameless rules, so that old productions are no longer there. *)
Theorem C97_nameless_move : exists G G2 r r' g data g' data',
  grammar_tree G r /\ grammar_tree (G ++ G2) r' /\ load_tree r = Ret (g, data) /\ load_tree r' = Ret (g', data') /\ ~ productions g ⊆ productions g'.
Proof. exact c97_nameless. Qed.
Print Assumptions C97_nameless_move.
