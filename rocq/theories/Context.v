(** Context.v -- model of the accessors of src/tool/syntaxis/syntaxis_context.rs *)
From Verif Require Export Base Ast Walker.

(** Token types of the hand-written lexer -- syntaxis/syntaxis_lexer.rs:28-44 *)
Definition TOKEN_REF := 6.
Definition RULE_REF := 7.
Definition COLON := 8.
Definition OR := 9.
Definition SEMI := 10.
Definition STAR := 11.
Definition PLUS := 12.
Definition QUESTION := 13.
Definition LPAREN := 16.
Definition RPAREN := 17.
Definition STRING_LITERAL := 19.
Definition REGULAR_LITERAL := 21.
Definition EPSILON := 22.

(** RuleListContext -- syntaxis_context.rs:116-131 *)
Definition parser_rule_list (ctx : rule_ctx) : list rule_ctx := get_rule_contexts ctx PARSER_RULE.
Definition lexer_rule_list (ctx : rule_ctx) : list rule_ctx := get_rule_contexts ctx LEXER_RULE.

(** ParserRuleContext -- syntaxis_context.rs:146-160 *)
Definition parser_rule_rule_ref (ctx : rule_ctx) : option token := get_terminal ctx RULE_REF 0.
Definition parser_rule_block (ctx : rule_ctx) : option rule_ctx := get_rule_context ctx BLOCK 0.

(** LexerRuleContext -- syntaxis_context.rs:178-196 *)
Definition lexer_rule_token_ref (ctx : rule_ctx) : option token := get_terminal ctx TOKEN_REF 0.
Definition lexer_rule_regular (ctx : rule_ctx) : option rule_ctx := get_rule_context ctx REGULAR 0.

(** BlockContext -- syntaxis_context.rs:210-217 *)
Definition alternative_list (ctx : rule_ctx) : list rule_ctx := get_rule_contexts ctx ALTERNATIVE.

(** AlternativeContext -- syntaxis_context.rs:236-250 *)
Definition element_list (ctx : rule_ctx) : list rule_ctx := get_rule_contexts ctx ELEMENT.
Definition alternative_epsilon (ctx : rule_ctx) : option rule_ctx := get_rule_context ctx EPSILON_RULE 0.

(** ElementContext -- syntaxis_context.rs:282-313 *)
Definition element_token_ref (ctx : rule_ctx) : option token := get_terminal ctx TOKEN_REF 0.
Definition element_string_literal (ctx : rule_ctx) : option token := get_terminal ctx STRING_LITERAL 0.
Definition element_rule_ref (ctx : rule_ctx) : option token := get_terminal ctx RULE_REF 0.
Definition element_block (ctx : rule_ctx) : option rule_ctx := get_rule_context ctx BLOCK 0.
Definition element_ebnf_suffix (ctx : rule_ctx) : option rule_ctx := get_rule_context ctx EBNF_SUFFIX 0.

(** EbnfSuffixContext -- syntaxis_context.rs:328-335 *)
Definition suffix_star (ctx : rule_ctx) : option token := get_terminal ctx STAR 0.
Definition suffix_plus (ctx : rule_ctx) : option token := get_terminal ctx PLUS 0.

(** RegularContext -- syntaxis_context.rs:354-357 *)
Definition regular_regular_literal (ctx : rule_ctx) : option token := get_terminal ctx REGULAR_LITERAL 0.
