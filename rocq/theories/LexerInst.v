(** LexerInst.v -- the two lexers of the grammar language: their regexes and token names. *)
From Verif Require Export Regex.

(** v1/syntaxis_lexer.rs:46-59; raw strings, so the texts are as written there.  [949] is the Greek
    letter epsilon. *)
Definition v1_regexes : list str :=
  [ lit "^([a-z][a-zA-Z0-9_]+)";
    lit "^([A-Z][a-zA-Z0-9_]+)";
    lit "^(::=|:=|->|=>|:|=)";
    lit "^(;)";
    lit "^(\|)";
    lit "^(" ++ [949%N] ++ lit "|epsilon)";
    lit "^(\*)";
    lit "^(\+)";
    lit "^(\?)";
    lit "^(\()";
    lit "^(\))";
    lit "^('([^\a\d\n\r\t\f\v\\']|(\\\\|\\'|\\a|\\d|\\n|\\r|\\t|\\f|\\v|\\u\{(0x|0)?[a-f0-9]+\})|\d)*')";
    lit "^(/(\\/|[^/])+/)";
    lit "^([ \r\n\t\f]+)" ].

(** v1/syntaxis_lexer.rs:64-67 *)
Definition v1_names : list str :=
  [ lit "_START"; lit "_STOP"; lit "RULE_REF"; lit "TOKEN_REF"; lit "COLON"; lit "SEMI"; lit "OR";
    lit "EPSILON"; lit "STAR"; lit "PLUS"; lit "QUESTION"; lit "LPAREN"; lit "RPAREN";
    lit "STRING_LITERAL"; lit "REGULAR_LITERAL"; lit "WHITE_SPACE" ].

(** SyntaxisLexer::new -- v1/syntaxis_lexer.rs:42-70 *)
Definition v1_lexer (nd : N -> bool) (input : str) : res lexer_cfg :=
  lexer_new nd v1_regexes v1_names input.

(** The hand-written lexer -- syntaxis_lexer.rs:47-67 *)
Definition hand_regexes : list str :=
  [ lit "^//.*?\n";
    lit "^(?s)/\*.*?\*/";
    lit "^[ \t\r\n]+";
    lit "^fragment";
    lit "^[A-Z][a-zA-Z0-9_]+";
    lit "^[a-z][a-zA-Z0-9_]+";
    lit "^(::=|:=|->|=>|:|=)";
    lit "^\|";
    lit "^;";
    lit "^\*";
    lit "^\+";
    lit "^\?";
    lit "^\.";
    lit "^\~";
    lit "^\(";
    lit "^\)";
    lit "^#";
    lit "^'((\\\\|\\'|\\a|\\d|\\n|\\r|\\t|\\f|\\v|\\u\{(0x|0)?[a-f0-9]+\})|\d|[^\a\d\n\r\t\f\v\\'])*'";
    lit "^\.\.";
    lit "^/(\\/|[^/])+/";
    lit "^(" ++ [949%N] ++ lit "|epsilon)" ].

(** syntaxis_lexer.rs:69-73 *)
Definition hand_names : list str :=
  [ lit "_START"; lit "_STOP"; lit "LINE_COMMENT"; lit "BLOCK_COMMENT"; lit "WS"; lit "FRAGMENT";
    lit "TOKEN_REF"; lit "RULE_REF"; lit "COLON"; lit "OR"; lit "SEMI"; lit "STAR"; lit "PLUS";
    lit "QUEStION"; lit "DOT"; lit "NOT"; lit "LPAREN"; lit "RPAREN"; lit "POUND";
    lit "STRING_LITERAL"; lit "RANGE"; lit "REGULAR_LITERAL"; lit "EPSILON" ].

(** SyntaxisLexer::new -- syntaxis_lexer.rs:44-80 *)
Definition hand_lexer (nd : N -> bool) (input : str) : res lexer_cfg :=
  lexer_new nd hand_regexes hand_names input.

