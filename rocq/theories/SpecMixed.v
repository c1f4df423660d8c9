(** SpecMixed.v -- the parser rules and the lexer rules of a grammar. *)
From Verif Require Export SpecRewrite.

(** The parser rules, and the lexer rules, each in their order. *)
Definition parser_rules_of (G : list rule) : list rule := omap (fun r => match r with ParserRule _ _ => Some r | LexerRule _ _ => None end) G.
Definition lexer_rules_of (G : list rule) : list rule := omap (fun r => match r with LexerRule _ _ => Some r | ParserRule _ _ => None end) G.
(** The same parser rules in the same order, the same lexer rules in the same order, mixed in some other way; lazy marks and the spelling of ε apart. *)
Definition mixed (G G' : list rule) : Prop :=
  parser_rules_of (map SpecRewrite.plain_rule G) = parser_rules_of (map SpecRewrite.plain_rule G') /\
  lexer_rules_of (map SpecRewrite.plain_rule G) = lexer_rules_of (map SpecRewrite.plain_rule G').
