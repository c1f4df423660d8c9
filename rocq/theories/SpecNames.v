(** SpecNames.v -- the token types of the two lexers of the grammar language, by the names of their constants. *)
From Verif Require Export SpecLexer.

(** v1/syntaxis_lexer.rs:20-38 *)
Definition v1_constants : list (str * nat) :=
  [(lit "_START", 0); (lit "_STOP", 1); (lit "RULE_REF", 2); (lit "TOKEN_REF", 3); (lit "COLON", 4); (lit "SEMI", 5);
   (lit "OR", 6); (lit "EPSILON", 7); (lit "STAR", 8); (lit "PLUS", 9); (lit "QUESTION", 10); (lit "LPAREN", 11);
   (lit "RPAREN", 12); (lit "STRING_LITERAL", 13); (lit "REGULAR_LITERAL", 14); (lit "WHITE_SPACE", 15)].

(** syntaxis_lexer.rs:21-44 *)
Definition hand_constants : list (str * nat) :=
  [(lit "_START", 0); (lit "_STOP", 1); (lit "LINE_COMMENT", 2); (lit "BLOCK_COMMENT", 3); (lit "WS", 4);
   (lit "FRAGMENT", 5); (lit "TOKEN_REF", 6); (lit "RULE_REF", 7); (lit "COLON", 8); (lit "OR", 9); (lit "SEMI", 10);
   (lit "STAR", 11); (lit "PLUS", 12); (lit "QUESTION", 13); (lit "DOT", 14); (lit "NOT", 15); (lit "LPAREN", 16);
   (lit "RPAREN", 17); (lit "POUND", 18); (lit "STRING_LITERAL", 19); (lit "RANGE", 20); (lit "REGULAR_LITERAL", 21);
   (lit "EPSILON", 22)].
