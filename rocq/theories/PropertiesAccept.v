(** PropertiesAccept.v -- C64: accept, enter and exit of the contexts. *)
From Verif Require Import AcceptProofs.

(** C64. accept of the trait of a node's rule is the visitor's visit of the node. *)
Theorem C64_accept {S R} (v : visitor S R) r s :
  (rule_index r = RULE_LIST -> rule_list_accept r v s = visit v r s) /\
  (rule_index r = PARSER_RULE -> parser_rule_accept r v s = visit v r s) /\
  (rule_index r = BLOCK -> block_accept r v s = visit v r s) /\
  (rule_index r = ALTERNATIVE -> alternative_accept r v s = visit v r s) /\
  (rule_index r = EPSILON_RULE -> epsilon_accept r v s = visit v r s) /\
  (rule_index r = ELEMENT -> element_accept r v s = visit v r s) /\
  (rule_index r = EBNF_SUFFIX -> ebnf_suffix_accept r v s = visit v r s) /\
  (rule_index r = LEXER_RULE -> lexer_rule_accept r v s = visit v r s) /\
  (rule_index r = REGULAR -> regular_accept r v s = visit v r s).
Proof. exact (c64_accept v r s). Qed.
Print Assumptions C64_accept.

(** A parser rule accepted by a visitor that overrides visit_parser_rule and by one that does not. *)
Definition counting : visitor nat nat :=
  Visitor _ _ None (Some (fun r n => Ret (length (children r), S n))) None None None None None None None
    (fun _ n => Ret (7, n)) (fun _ n => Ret (8, n)) (fun n => Ret (0, n)) (fun a b n => Ret (a + b, n)) (fun _ _ n => Ret (true, n)).
Definition some_rule : rule_ctx := RuleCtx (lit "parser_rule") [Terminal (Token 2 (lit "RULE_REF") (Position 0 0) (Position 0 1) 0 (lit "a") 0 0 1)] PARSER_RULE.
Example C64_accept_example : parser_rule_accept some_rule counting 4 = Ret (1, 5) /\ block_accept some_rule counting 4 = Ret (7, 4).
Proof. split; reflexivity. Qed.

(** C64. enter and exit of the trait of a node's rule are the calls the walker makes for the node. *)
Theorem C64_listener {S} (l : listener S) r s :
  (rule_index r = RULE_LIST -> rule_list_enter r l s = l_enter l r s /\ rule_list_exit r l s = l_exit l r s) /\
  (rule_index r = PARSER_RULE -> parser_rule_enter r l s = l_enter l r s /\ parser_rule_exit r l s = l_exit l r s) /\
  (rule_index r = BLOCK -> block_enter r l s = l_enter l r s /\ block_exit r l s = l_exit l r s) /\
  (rule_index r = ALTERNATIVE -> alternative_enter r l s = l_enter l r s /\ alternative_exit r l s = l_exit l r s) /\
  (rule_index r = EPSILON_RULE -> epsilon_enter r l s = l_enter l r s /\ epsilon_exit r l s = l_exit l r s) /\
  (rule_index r = ELEMENT -> element_enter r l s = l_enter l r s /\ element_exit r l s = l_exit l r s) /\
  (rule_index r = EBNF_SUFFIX -> ebnf_suffix_enter r l s = l_enter l r s /\ ebnf_suffix_exit r l s = l_exit l r s) /\
  (rule_index r = LEXER_RULE -> lexer_rule_enter r l s = l_enter l r s /\ lexer_rule_exit r l s = l_exit l r s) /\
  (rule_index r = REGULAR -> regular_enter r l s = l_enter l r s /\ regular_exit r l s = l_exit l r s).
Proof. exact (c64_listener l r s). Qed.
Print Assumptions C64_listener.

(** C64. load_ast behind from_reader calls accept of RuleListContext on the root whatever rule the root is of: its name and rule index are irrelevant. *)
Theorem C64_root n n' cs i i' : load_tree_accept (RuleCtx n cs i) = load_tree_accept (RuleCtx n' cs i').
Proof. exact (c64_root n n' cs i i'). Qed.
Print Assumptions C64_root.

Example C64_root_example : exists g d, load_tree_accept (RuleCtx (lit "anything") [] 77) = Ret (g, d) /\
  load_tree_accept (RuleCtx (lit "rule_list") [] 0) = Ret (g, d).
Proof. eexists _, _. split; reflexivity. Qed.

(** C64. With the calls of accept unfolded: the function of C48 and the later properties. *)
Theorem C64_load r : load_tree_accept r = load_tree r.
Proof. exact (accept_load r). Qed.
Print Assumptions C64_load.
