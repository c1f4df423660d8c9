(** PropertiesEarliest.v -- C86: the first report is at the first token that cannot stand there. *)
From Verif Require Import ChainEarliest.

(** C86: as long as the tokens begin a sentence (and the end of input) there is no report about them; ... *)
Theorem C86_no_early_report g order fuel tab v toks fuel' r mm n :
  iteration_order g order -> closed (nonterminals (g_vocabulary g)) (productions g) ->
  build_table fuel order g = Ret (tab, []) -> parse v tab toks fuel' = Ret (r, mm) ->
  begins_sentence (productions g) (take n toks) -> Forall (fun m => n <= fst m) mm.
Proof. exact (c86_later g order fuel tab v toks fuel' r mm n). Qed.
Print Assumptions C86_no_early_report.

(** ... no sentence begins with the tokens up to the first reported one; ... *)
Theorem C86_first_report g order fuel tab v toks fuel' r k u mm :
  iteration_order g order -> closed (nonterminals (g_vocabulary g)) (productions g) ->
  build_table fuel order g = Ret (tab, []) -> parse v tab toks fuel' = Ret (r, (k, u) :: mm) ->
  ~ begins_sentence (productions g) (take (S k) toks).
Proof. exact (c86_first g order fuel tab v toks fuel' r k u mm). Qed.
Print Assumptions C86_first_report.

(** ... but, if every nonterminal derives something, some sentence does with the expected token in its place. *)
Theorem C86_expected g order fuel tab w0 v toks fuel' r k u mm :
  iteration_order g order -> closed (nonterminals (g_vocabulary g)) (productions g) -> 0 ∈ nonterminals (g_vocabulary g) ->
  (forall b, b ∈ nonterminals (g_vocabulary g) -> exists w, derives (productions g) [NT b] (map T w)) ->
  build_table fuel order g = Ret (tab, w0) -> parse v tab toks fuel' = Ret (r, (k, u) :: mm) ->
  exists w, derives (productions g) [NT 0] (types (take k toks) ++ T u :: map T w).
Proof. exact (c86_before g order fuel tab w0 v toks fuel' r k u mm). Qed.
Print Assumptions C86_expected.

Example C86_example : build_table 100 ex_order ex_g = Ret (ex_tab, []) /\
  exists r, parse ex_voc ex_tab (map GrammarMain.tk [3; 5; 1; 1]) 20 = Ret (r, [(2, 4)]) /\ rule_leaves r = map GrammarMain.tk [3; 5; 1].
Proof. exact ex_reported. Qed.

(** C86 in terms of the grammar as it is written, through the whole tool chain of C85: the report is at the first token that the grammar does
    not allow there, and the reported type is the one of a token that it allows. *)
Theorem C86_chain compile G r g data name rules order ws s ts fuel t w rest k u mm :
  grammar_tree G r -> proper G -> load_tree r = Ret (g, data) -> no_collision (g_vocabulary g) G -> head (parser_rule_names G) = Some name ->
  iteration_order g order -> engine_ok compile -> compiled compile G rules -> (lit "WHITE_SPACE", ws) ∈ generated_constants data ->
  ll1 (productions g) -> tokenized rules s ts ->
  chain_run compile order fuel g data ws s = Ret (t, w, rest, (k, u) :: mm) ->
  let names := map fst (visible ts) in
  k <= length names /\
  (k < length names -> ~ exists more, matches_atom G (RuleRef name) (take (S k) names ++ more)) /\
  (k = length names -> ~ matches_atom G (RuleRef name) names) /\
  (rules_match G -> exists expected more, get_terminal_id_by_name (g_vocabulary g) expected = Some u /\
     matches_atom G (RuleRef name) (take k names ++ expected :: more)).
Proof. exact (c86_chain compile G r g data name rules order ws s ts fuel t w rest k u mm). Qed.
Print Assumptions C86_chain.

Example C86_example_chain : (grammar_tree ex_sum ex_sum_tree /\ proper ex_sum /\ load_tree ex_sum_tree = Ret (ex_sum_g, rules_of ex_sum_tree) /\
  no_collision (g_vocabulary ex_sum_g) ex_sum /\ head (parser_rule_names ex_sum) = Some (lit "sum") /\ iteration_order ex_sum_g ex_sum_order /\
  engine_ok (engine ascii_digit) /\ compiled (engine ascii_digit) ex_sum ex_sum_rules /\
  (lit "WHITE_SPACE", 4) ∈ generated_constants (rules_of ex_sum_tree) /\ ll1 (productions ex_sum_g)) /\
  rules_match ex_sum /\
  tokenized ex_sum_rules (lit "12++") [(lit "Num", lit "12"); (lit "Plus", lit "+"); (lit "Plus", lit "+")] /\
  exists t, chain_run (engine ascii_digit) ex_sum_order 1000 ex_sum_g (rules_of ex_sum_tree) 4 (lit "12++") = Ret (t, [], None, [(2, 2)]).
Proof. split; [exact ex_sum_hyps|]. split; [exact ex_sum_rules_match|]. split; [exact ex_twice_tokenized|exact ex_twice_run]. Qed.
