(** SpecChain.v -- what the lexer rules of a grammar make of a text. *)
From Verif Require Export SpecEbnf SpecForest SpecVisitor SpecLexer.

(** The lexer rules of a grammar; a second rule for a name does not count. *)
Definition lexer_rules (G : list rule) : list (str * str) :=
  first_occurrences fst [lit "_START"; lit "_STOP"] (omap (fun r => match r with LexerRule n x => Some (n, x) | ParserRule _ _ => None end) G).

(** The engine: what it finds is a beginning of the text. *)
Definition engine_ok (compile : str -> matcher) : Prop :=
  forall x s e, compile x s = Some e -> exists m rest, s = m ++ rest /\ blen m = e.
(** Each rule with the match function of its regex: what is between the slashes, \/ standing for /, anchored at the start. *)
Definition compiled (compile : str -> matcher) (G : list rule) (rules : list (str * matcher)) : Prop :=
  Forall2 (fun e d => fst d = fst e /\ exists x, regex_of (snd e) x /\ snd d = compile x) (lexer_rules G) rules.

(** The text cut into tokens: each the longest match of any rule, of the first such rule. *)
Inductive tokenized (rules : list (str * matcher)) : str -> list (str * str) -> Prop :=
| tokenized_nil : tokenized rules [] []
| tokenized_cons i name m w rest ts : rules !! i = Some (name, m) -> wins (map snd rules) (w ++ rest) i (blen w) ->
    tokenized rules rest ts -> tokenized rules (w ++ rest) ((name, w) :: ts).

(** The tokens that are not dropped. *)
Definition visible (ts : list (str * str)) : list (str * str) := filter (fun t => fst t <> lit "WHITE_SPACE") ts.
