(** PropertiesOutput.v -- C81, C82: what loading a grammar prints, and the standard output of main.
    Statement vocabulary: SpecOutput.v, SpecVisitor.v, SpecEbnf.v, SpecShipped.v. *)
From Verif Require Import OutputMain.

(** C81: printing changes nothing: the visitors that print return exactly what the silent ones of Visitors.v return. *)
Theorem C81_same r g data : (exists lines, out_load_tree r = Ret (g, data, lines)) <-> load_tree r = Ret (g, data).
Proof. exact (c81_same r g data). Qed.
Print Assumptions C81_same.

(** C81: for every tree, what is printed before the productions are built: the repeated tokens, the illegal literals, the
    rules that have the name of a token; everything after that is about productions. *)
Theorem C81_definitions r g data lines : out_load_tree r = Ret (g, data, lines) ->
  exists rest, lines = report_definitions says_token [lit "_START"; lit "_STOP"] (outermost_below is_rule_index r) ++ rest /\
    forall l, l ∈ rest -> l = says_alternative \/ l = says_group.
Proof. exact (c81_definitions r g data lines). Qed.
Print Assumptions C81_definitions.

(** C81: and what the lexer-rule visitor prints. *)
Theorem C81_lexer_rules r data next x s' lines :
  visit_children out_lexer_visitor r (LexerState data next, []) = Ret (x, (s', lines)) ->
  visit_children lexer_visitor r (LexerState data next) = Ret (x, s') /\
  lines = report_definitions says_again (map ld_name data) (outermost_below (fun i => i =? LEXER_RULE) r).
Proof. exact (c81_lexer r data next x s' lines). Qed.
Print Assumptions C81_lexer_rules.

Example C81_lexer_example : match visit_children out_lexer_visitor (build_grammar ex_dups) (LexerState [] 2, []) with
  | Ret (_, (_, lines)) => lines = [says_again (lit "A")] | _ => False end.
Proof. vm_compute. reflexivity. Qed.

(** C81: for a grammar, without collisions, the whole report, line by line. *)
Theorem C81_report_partial G r g data lines :
  grammar_tree G r -> proper G -> out_load_tree r = Ret (g, data, lines) -> no_collision (g_vocabulary g) G -> lines = report G.
Proof. exact (c81_report G r g data lines). Qed.
Print Assumptions C81_report_partial.

Example C81_report_example : grammar_tree ex_dups (build_grammar ex_dups) /\ proper ex_dups /\
  exists g data, out_load_tree (build_grammar ex_dups) = Ret (g, data, [says_token (lit "A"); says_group; says_alternative]) /\
    no_collision (g_vocabulary g) ex_dups.
Proof. exact ex_dups_meets. Qed.

(** C81: nothing is printed iff there are no duplicates, of tokens, of alternatives in a rule, of alternatives in a group. *)
Theorem C81_silent_partial G r g data lines :
  grammar_tree G r -> proper G -> out_load_tree r = Ret (g, data, lines) -> no_collision (g_vocabulary g) G ->
  (lines = [] <-> no_duplicates G).
Proof. exact (c81_silent G r g data lines). Qed.
Print Assumptions C81_silent_partial.

Example C81_silent_example : exists g data, out_load_tree ex_list_tree = Ret (g, data, []) /\ no_duplicates ex_list.
Proof. exact ex_list_silent. Qed.

(** C81 is false of rules: a rule defined twice is never reported. *)
Theorem C81_rules_refuted : exists G r g data, grammar_tree G r /\ proper G /\ references_defined G /\ no_collision (g_vocabulary g) G /\
  out_load_tree r = Ret (g, data, []) /\ ~ NoDup (parser_rule_names G).
Proof. exact c81_rules_refuted. Qed.
Print Assumptions C81_rules_refuted.

(** C81 is false where numbers collide (C41): an alternative that is no duplicate is reported as one. *)
Theorem C81_spurious_refuted : exists G r g data lines, grammar_tree G r /\ proper G /\ no_duplicates G /\
  out_load_tree r = Ret (g, data, lines) /\ says_alternative ∈ lines.
Proof. exact c81_spurious_refuted. Qed.
Print Assumptions C81_spurious_refuted.

(** C82: main prints, in this order: the report on the grammar file, the conflicts, the text the lexer could not read,
    one line for each mismatch. *)
Theorem C82_lines nd order fuel file s r w rest mm : main_run nd order fuel file s = Ret (r, w, rest, mm) ->
  exists ast g d lines, from_value file = Ret (Some ast) /\ out_load_tree ast = Ret (g, d, lines) /\
    main_stdout nd order fuel file s = Ret (unlines (lines ++ map line_conflict w ++ option_list rest ++ replicate (length mm) says_mismatch)).
Proof. exact (c82_lines nd order fuel file s r w rest mm). Qed.
Print Assumptions C82_lines.

(** C82: a conflict line names both productions: different conflicts are printed differently. *)
Theorem C82_conflict c c' : line_conflict c = line_conflict c' -> c = c'.
Proof. exact (c82_conflict c c'). Qed.
Print Assumptions C82_conflict.

Example C82_conflict_example : line_conflict (Production 4 [NT 3; T 2], Production 4 []) =
  lit "Production { left: 4, right: [NonTerminal(3), Terminal(2)] }, Production { left: 4, right: [] }".
Proof. exact ex_conflict. Qed.

(** C82: the layout of a conflict line. *)
Theorem C82_conflict_text c : exists a b, shows_production (fst c) a /\ shows_production (snd c) b /\ line_conflict c = a ++ lit ", " ++ b.
Proof. exact (c82_conflict_text c). Qed.
Print Assumptions C82_conflict_text.

(** C82: numbers are printed in decimal. *)
Theorem C82_decimal n : decimal n (usize_to_string n).
Proof. exact (to_uint_decimal n). Qed.
Print Assumptions C82_decimal.

Example C82_decimal_example : decimal 120 (lit "120") /\ usize_to_string 120 = lit "120".
Proof. split; [exact (to_uint_decimal 120)|reflexivity]. Qed.

(** C82: with the shipped file there are only the last two kinds, whatever the iteration order. *)
Theorem C82_shipped nd g d order fuel s o : load_ast syntaxis2_json = Ret (g, d) -> iteration_order g order ->
  main_stdout nd order fuel syntaxis2_json s = Ret o <->
  exists r rest mm, main_run nd order fuel syntaxis2_json s = Ret (r, [], rest, mm) /\ o = unlines (option_list rest ++ replicate (length mm) says_mismatch).
Proof. exact (c82_shipped nd g d order fuel s o). Qed.
Print Assumptions C82_shipped.

Example C82_shipped_example : main_stdout ascii_digit shipped_order 3000 syntaxis2_json (lit "ab: Cd )") = Ret (unlines [says_mismatch]).
Proof. exact ex_stdout. Qed.

(** C82: main runs to its end in silence exactly on the texts that write a grammar. *)
Theorem C82_silent nd g d order s : digits_ok nd -> load_ast syntaxis2_json = Ret (g, d) -> iteration_order g order ->
  (exists fuel, main_stdout nd order fuel syntaxis2_json s = Ret []) <-> exists G ts, grammar_tokens G ts /\ written ts s.
Proof. exact (c82_silent nd g d order s). Qed.
Print Assumptions C82_silent.

Example C82_silent_example : grammar_tokens ex_shipped_grammar ex_shipped_tokens /\ written ex_shipped_tokens ex_shipped_text.
Proof. exact (conj ex_shipped_grammar_tokens ex_shipped_written). Qed.
