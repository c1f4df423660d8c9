(** PropertiesShape.v -- C89: the typed accessors (rule_ref, block, alternative_list, ...) give back the whole tree.
    Statement vocabulary: SpecShape.v (described), SpecTree.v (node_of), SpecEbnf.v (grammar_tree), SpecShipped.v. *)
From Verif Require Import ShapeProofs.

(** C89, generated accessors: a tree main builds without reporting a mismatch is a rule_list, and at every node the
    accessors of its rule return all children, each once and in the positions of the grammar. *)
Theorem C89_parsed nd g d order fuel s r w rest :
  digits_ok nd -> load_ast syntaxis2_json = Ret (g, d) -> iteration_order g order ->
  main_run nd order fuel syntaxis2_json s = Ret (r, w, rest, []) ->
  rule_index r = RULE_LIST /\ forall x, node_of x r -> described v1_accessors x.
Proof. exact (c89_main nd g d order fuel s r w rest). Qed.
Print Assumptions C89_parsed.

Example C89_parsed_example : exists r, main_run ascii_digit shipped_order 3000 syntaxis2_json main_input = Ret (r, [], None, []) /\
  (length (children r) =? 23) = true.
Proof. exact main_runs. Qed.

(** C89: conversely every tree whose nodes are all described this way is the tree of a grammar. *)
Theorem C89_generated_exact r : (exists G, grammar_tree G (retype_rule hand_type r)) <->
  rule_index r = RULE_LIST /\ forall x, node_of x r -> described v1_accessors x.
Proof. exact (c89_v1 r). Qed.
Print Assumptions C89_generated_exact.

(** C89, hand-written accessors: the same for the trees they are made for. *)
Theorem C89_exact r : (exists G, grammar_tree G r) <->
  rule_index r = RULE_LIST /\ forall x, node_of x r -> described hand_accessors x.
Proof. exact (c89_hand r). Qed.
Print Assumptions C89_exact.

Example C89_exact_example : grammar_tree ex_shape_grammar ex_shape_tree /\
  ~ described hand_accessors (RuleCtx (lit "parser_rule") [Terminal (token_new RULE_REF (lit "RULE_REF") (lit "aa"))] PARSER_RULE).
Proof. exact ex_shape. Qed.
