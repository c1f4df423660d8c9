(** PropertiesRewrite.v -- C83: the productions are the documented rewriting; C84: loading depends on the grammar, not on how it is written.
    Statement vocabulary: SpecRewrite.v, SpecClash.v (first_operand), SpecSource.v (plain forms), SpecEbnf.v (occurs, trees), SpecShipped.v (texts). *)
From Verif Require Import RewriteProofs SameProofs SameMain.

(** C83, for every grammar that loads: the productions are the rewriting in which an operand of a suffix is taken to be the first operand of that
    suffix with the same number; there is one nonterminal for each suffix and number and one for each list of right-hand sides, and no other. *)
Theorem C83_all G r g data : grammar_tree G r -> proper G -> load_tree r = Ret (g, data) ->
  exists f, stands_for G (g_vocabulary g) f /\ one_each_number G f /\
    forall p, p ∈ productions g <-> rewritten G (g_vocabulary g) f (first_operand (number f) G) p.
Proof. exact (c83_all G r g data). Qed.
Print Assumptions C83_all.

Example C83_example_all : grammar_tree g41 (build_grammar g41) /\ proper g41 /\
  load_tree (build_grammar g41) = Ret (grammar_of (build_grammar g41), rules_of (build_grammar g41)) /\
  (size (productions (grammar_of (build_grammar g41))) =? 5) = true.
Proof. exact ex_all_clash. Qed.

(** C83 in full reads: one nonterminal for each construct and the operands as they are written --
      grammar_tree G r -> proper G -> load_tree r = Ret (g, data) ->
      exists f, stands_for G (g_vocabulary g) f /\ one_each G f /\ forall p, p ∈ productions g <-> rewritten G (g_vocabulary g) f (fun _ a => a) p.
    This is false, ... *)
Theorem C83_rewriting_refuted : exists G r g data, grammar_tree G r /\ proper G /\ references_defined G /\ load_tree r = Ret (g, data) /\
  ~ exists f, stands_for G (g_vocabulary g) f /\ one_each G f.
Proof. exact c83_refuted. Qed.
Print Assumptions C83_rewriting_refuted.

(** ... and true of grammars without clashing numbers (those of C40). *)
Theorem C83_rewriting_partial G r g data :
  grammar_tree G r -> proper G -> load_tree r = Ret (g, data) -> no_collision (g_vocabulary g) G ->
  exists f, stands_for G (g_vocabulary g) f /\ one_each G f /\ forall p, p ∈ productions g <-> rewritten G (g_vocabulary g) f (fun _ a => a) p.
Proof. exact (c83 G r g data). Qed.
Print Assumptions C83_rewriting_partial.

Example C83_example : (grammar_tree ex_list ex_list_tree /\ proper ex_list /\ load_tree ex_list_tree = Ret (ex_list_g, rules_of ex_list_tree) /\
  no_collision (g_vocabulary ex_list_g) ex_list) /\ (size (productions ex_list_g) =? 10) = true.
Proof. exact ex_c83. Qed.

(** C84: trees of the same grammar, lazy marks and the spelling of ε apart, load to the same result (a panic included); ... *)
Theorem C84_load G r G' r' : grammar_tree G r -> grammar_tree G' r' -> map plain_rule G = map plain_rule G' -> load_tree r = load_tree r'.
Proof. exact (c84_load G r G' r'). Qed.
Print Assumptions C84_load.

(** ... they give the same lexer rules and the same string literals; ... *)
Theorem C84_lexer_rules G r G' r' s : grammar_tree G r -> grammar_tree G' r' -> map plain_rule G = map plain_rule G' ->
  visit_children lexer_visitor r s = visit_children lexer_visitor r' s.
Proof. exact (lexer_same G r G' r' s). Qed.
Print Assumptions C84_lexer_rules.

Theorem C84_strings G r G' r' s : grammar_tree G r -> grammar_tree G' r' -> map plain_rule G = map plain_rule G' ->
  visit_children strings_visitor r s = visit_children strings_visitor r' s.
Proof. exact (strings_same G r G' r' s). Qed.
Print Assumptions C84_strings.

Example C84_example : grammar_tree ex_once (build_grammar ex_once) /\ grammar_tree ex_again (build_grammar ex_again) /\
  map plain_rule ex_once = map plain_rule ex_again /\ build_grammar ex_once <> build_grammar ex_again /\ loaded (build_grammar ex_once) = true.
Proof. exact ex_same. Qed.

(** ... and so do two texts, whatever blanks, comments and spellings of the colon and of ε they use. *)
Theorem C84_text nd g d order G ts s G' ts' s' :
  digits_ok nd -> load_ast syntaxis2_json = Ret (g, d) -> iteration_order g order ->
  grammar_tokens G ts -> written ts s -> grammar_tokens G' ts' -> written ts' s' -> map plain_rule G = map plain_rule G' ->
  exists r r' n, (forall fuel, n <= fuel -> main_run nd order fuel syntaxis2_json s = Ret (r, [], None, []) /\
                                      main_run nd order fuel syntaxis2_json s' = Ret (r', [], None, [])) /\
    load_tree (retype_rule hand_type r) = load_tree (retype_rule hand_type r').
Proof. exact (c84_text nd g d order G ts s G' ts' s'). Qed.
Print Assumptions C84_text.

Example C84_example_text : grammar_tokens ex_once ex_once_tokens /\ written ex_once_tokens (lit "ab:Xy*;Xy:/x/;") /\
  grammar_tokens ex_again ex_again_tokens /\ written ex_again_tokens (lit "ab ::= Xy *? ;  Xy : /x/ ;").
Proof. split; [exact ex_once_grammar_tokens|]. split; [exact ex_once_written|]. split; [exact ex_again_grammar_tokens|exact ex_again_written]. Qed.
