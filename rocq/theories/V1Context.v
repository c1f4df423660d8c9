(** V1Context.v -- model of the accessors of src/tool/v1/syntaxis_context.rs (token types of v1/syntaxis_lexer.rs:24-38,
    rule ids of v1/syntaxis_parser.rs:20-28), and the accessors of src/tool/syntaxis/syntaxis_context.rs that the
    visitors do not use. *)
From Verif Require Export Context.

(** syntaxis/syntaxis_context.rs:151-153, 161-163, 183-189 (colon, semi of both rules), 219-221, 265-267, 295-301, 337-339 *)
Definition ctx_colon (ctx : rule_ctx) : option token := get_terminal ctx COLON 0.
Definition ctx_semi (ctx : rule_ctx) : option token := get_terminal ctx SEMI 0.
Definition or_list (ctx : rule_ctx) : list token := get_terminals ctx OR.
Definition epsilon_epsilon (ctx : rule_ctx) : option token := get_terminal ctx EPSILON 0.
Definition element_lparen (ctx : rule_ctx) : option token := get_terminal ctx LPAREN 0.
Definition element_rparen (ctx : rule_ctx) : option token := get_terminal ctx RPAREN 0.
Definition question_list (ctx : rule_ctx) : list token := get_terminals ctx QUESTION.

(** RuleListContext -- v1/syntaxis_context.rs:111-128 *)
Definition v1_parser_rule_list (ctx : rule_ctx) : list rule_ctx := get_rule_contexts ctx 1.
Definition v1_lexer_rule_list (ctx : rule_ctx) : list rule_ctx := get_rule_contexts ctx 7.
(** ParserRuleContext -- v1/syntaxis_context.rs:135-151 *)
Definition v1_parser_rule_rule_ref (ctx : rule_ctx) : option token := get_terminal ctx 2 0.
Definition v1_parser_rule_colon (ctx : rule_ctx) : option token := get_terminal ctx 4 0.
Definition v1_parser_rule_block (ctx : rule_ctx) : option rule_ctx := get_rule_context ctx 2 0.
Definition v1_parser_rule_semi (ctx : rule_ctx) : option token := get_terminal ctx 5 0.
(** LexerRuleContext -- v1/syntaxis_context.rs:161-178 *)
Definition v1_lexer_rule_token_ref (ctx : rule_ctx) : option token := get_terminal ctx 3 0.
Definition v1_lexer_rule_colon (ctx : rule_ctx) : option token := get_terminal ctx 4 0.
Definition v1_lexer_rule_semi (ctx : rule_ctx) : option token := get_terminal ctx 5 0.
Definition v1_lexer_rule_regular (ctx : rule_ctx) : option rule_ctx := get_rule_context ctx 8 0.
(** BlockContext -- v1/syntaxis_context.rs:187-198 *)
Definition v1_alternative_list (ctx : rule_ctx) : list rule_ctx := get_rule_contexts ctx 3.
Definition v1_or_list (ctx : rule_ctx) : list token := get_terminals ctx 6.
(** AlternativeContext -- v1/syntaxis_context.rs:206-219 *)
Definition v1_element_list (ctx : rule_ctx) : list rule_ctx := get_rule_contexts ctx 5.
Definition v1_alternative_epsilon (ctx : rule_ctx) : option rule_ctx := get_rule_context ctx 4 0.
(** EpsilonContext -- v1/syntaxis_context.rs:227-230 *)
Definition v1_epsilon_epsilon (ctx : rule_ctx) : option token := get_terminal ctx 7 0.
(** ElementContext -- v1/syntaxis_context.rs:239-270 *)
Definition v1_element_token_ref (ctx : rule_ctx) : option token := get_terminal ctx 3 0.
Definition v1_element_string_literal (ctx : rule_ctx) : option token := get_terminal ctx 13 0.
Definition v1_element_rule_ref (ctx : rule_ctx) : option token := get_terminal ctx 2 0.
Definition v1_element_lparen (ctx : rule_ctx) : option token := get_terminal ctx 11 0.
Definition v1_element_rparen (ctx : rule_ctx) : option token := get_terminal ctx 12 0.
Definition v1_element_block (ctx : rule_ctx) : option rule_ctx := get_rule_context ctx 2 0.
Definition v1_element_ebnf_suffix (ctx : rule_ctx) : option rule_ctx := get_rule_context ctx 6 0.
(** EbnfSuffixContext -- v1/syntaxis_context.rs:279-290 *)
Definition v1_suffix_star (ctx : rule_ctx) : option token := get_terminal ctx 8 0.
Definition v1_suffix_plus (ctx : rule_ctx) : option token := get_terminal ctx 9 0.
Definition v1_question_list (ctx : rule_ctx) : list token := get_terminals ctx 10.
(** RegularContext -- v1/syntaxis_context.rs:299-302 *)
Definition v1_regular_regular_literal (ctx : rule_ctx) : option token := get_terminal ctx 14 0.

(** The constants of the committed generated lexer -- v1/syntaxis_lexer.rs:20-38 *)
Definition v1_constants : list (str * nat) :=
  [ (lit "_START", 0); (lit "_STOP", 1); (lit "RULE_REF", 2); (lit "TOKEN_REF", 3); (lit "COLON", 4); (lit "SEMI", 5);
    (lit "OR", 6); (lit "EPSILON", 7); (lit "STAR", 8); (lit "PLUS", 9); (lit "QUESTION", 10); (lit "LPAREN", 11);
    (lit "RPAREN", 12); (lit "STRING_LITERAL", 13); (lit "REGULAR_LITERAL", 14); (lit "WHITE_SPACE", 15) ].
