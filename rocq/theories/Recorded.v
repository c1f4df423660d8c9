(** Recorded.v -- the outputs recorded in the comments of the tests, generated by tools/mkrecorded.py. *)
From Verif Require Export Base.

(** tests/grammar_test.rs:4-36 (tests/first_set_test.rs and tests/follow_set_test.rs have the same lines in other orders) *)
Definition recorded_productions : list str :=
  [lit "16 -> STAR;";
   lit "16 -> PLUS;";
   lit "16 -> QUESTION;";
   lit "epsilon -> EPSILON;";
   lit "11 -> OR alternative;";
   lit "alternative -> 13;";
   lit "alternative -> epsilon;";
   lit "12 ->;";
   lit "12 -> 11 12;";
   lit "15 ->;";
   lit "15 -> ebnf_suffix;";
   lit "ebnf_suffix -> 16 17;";
   lit "10 ->;";
   lit "10 -> 9 10;";
   lit "rule_list -> 10;";
   lit "13 -> element;";
   lit "13 -> element 13;";
   lit "block -> alternative 12;";
   lit "element -> 14 15;";
   lit "17 ->;";
   lit "17 -> QUESTION;";
   lit "lexer_rule -> TOKEN_REF COLON regular SEMI;";
   lit "parser_rule -> RULE_REF COLON block SEMI;";
   lit "regular -> REGULAR_LITERAL;";
   lit "9 -> parser_rule;";
   lit "9 -> lexer_rule;";
   lit "14 -> TOKEN_REF;";
   lit "14 -> STRING_LITERAL;";
   lit "14 -> RULE_REF;";
   lit "14 -> LPAREN block RPAREN;"].

(** tests/first_set_test.rs:47-84: the name of a rule, its tokens, whether it can be empty *)
Definition recorded_first : list (str * list str * bool) :=
  [(lit "element", [lit "STRING_LITERAL"; lit "TOKEN_REF"; lit "RULE_REF"; lit "LPAREN"], false);
   (lit "epsilon", [lit "EPSILON"], false);
   (lit "16", [lit "QUESTION"; lit "PLUS"; lit "STAR"], false);
   (lit "14", [lit "TOKEN_REF"; lit "RULE_REF"; lit "LPAREN"; lit "STRING_LITERAL"], false);
   (lit "regular", [lit "REGULAR_LITERAL"], false);
   (lit "17", [lit "QUESTION"], true);
   (lit "ebnf_suffix", [lit "QUESTION"; lit "PLUS"; lit "STAR"], false);
   (lit "9", [lit "TOKEN_REF"; lit "RULE_REF"], false);
   (lit "11", [lit "OR"], false);
   (lit "rule_list", [lit "RULE_REF"; lit "TOKEN_REF"], true);
   (lit "parser_rule", [lit "RULE_REF"], false);
   (lit "15", [lit "QUESTION"; lit "STAR"; lit "PLUS"], true);
   (lit "13", [lit "TOKEN_REF"; lit "LPAREN"; lit "STRING_LITERAL"; lit "RULE_REF"], false);
   (lit "block", [lit "TOKEN_REF"; lit "STRING_LITERAL"; lit "RULE_REF"; lit "EPSILON"; lit "LPAREN"], false);
   (lit "alternative", [lit "EPSILON"; lit "TOKEN_REF"; lit "RULE_REF"; lit "STRING_LITERAL"; lit "LPAREN"], false);
   (lit "10", [lit "TOKEN_REF"; lit "RULE_REF"], true);
   (lit "lexer_rule", [lit "TOKEN_REF"], false);
   (lit "12", [lit "OR"], true)].

(** tests/follow_set_test.rs:43-95 *)
Definition recorded_follow : list (str * list str) :=
  [(lit "rule_list", [lit "_STOP"]);
   (lit "alternative", [lit "OR"; lit "SEMI"; lit "RPAREN"]);
   (lit "parser_rule", [lit "_STOP"; lit "TOKEN_REF"; lit "RULE_REF"]);
   (lit "block", [lit "SEMI"; lit "RPAREN"]);
   (lit "epsilon", [lit "SEMI"; lit "RPAREN"; lit "OR"]);
   (lit "element", [lit "RPAREN"; lit "SEMI"; lit "LPAREN"; lit "OR"; lit "STRING_LITERAL"; lit "TOKEN_REF"; lit "RULE_REF"]);
   (lit "regular", [lit "SEMI"]);
   (lit "ebnf_suffix", [lit "TOKEN_REF"; lit "RULE_REF"; lit "LPAREN"; lit "STRING_LITERAL"; lit "OR"; lit "RPAREN"; lit "SEMI"]);
   (lit "lexer_rule", [lit "_STOP"; lit "TOKEN_REF"; lit "RULE_REF"]);
   (lit "16", [lit "RPAREN"; lit "SEMI"; lit "QUESTION"; lit "RULE_REF"; lit "OR"; lit "TOKEN_REF"; lit "LPAREN"; lit "STRING_LITERAL"]);
   (lit "9", [lit "TOKEN_REF"; lit "_STOP"; lit "RULE_REF"]);
   (lit "14", [lit "STRING_LITERAL"; lit "STAR"; lit "RULE_REF"; lit "RPAREN"; lit "SEMI"; lit "OR"; lit "QUESTION"; lit "LPAREN"; lit "PLUS"; lit "TOKEN_REF"]);
   (lit "12", [lit "SEMI"; lit "RPAREN"]);
   (lit "11", [lit "RPAREN"; lit "OR"; lit "SEMI"]);
   (lit "17", [lit "TOKEN_REF"; lit "RPAREN"; lit "SEMI"; lit "STRING_LITERAL"; lit "OR"; lit "RULE_REF"; lit "LPAREN"]);
   (lit "15", [lit "OR"; lit "RPAREN"; lit "SEMI"; lit "LPAREN"; lit "TOKEN_REF"; lit "RULE_REF"; lit "STRING_LITERAL"]);
   (lit "10", [lit "_STOP"]);
   (lit "13", [lit "SEMI"; lit "RPAREN"; lit "OR"])].
