(** SpecMore.v -- more parser rules and more alternatives. *)
From Verif Require Export SpecShuffle.

(** G' has all alternatives of G under the same names and may have more; the first rule has the same name, and the lexer rules are the same. *)
Definition more_alternatives (G G' : list rule) : Prop :=
  (forall n alt, offers G n alt -> offers G' n alt) /\ (forall n, n ∈ parser_rule_names G -> n ∈ parser_rule_names G') /\
  lexer_rules_of G = lexer_rules_of G' /\ head (parser_rule_names G) = head (parser_rule_names G').

(** What is kept of a run of the parser: the lines and the tree (but for the rule numbers), or the lines and the end of the input in mid-sentence;
    if there was no entry for a token, the lines up to there. *)
Definition kept_run (x x' : logged rule_ctx) : Prop :=
  match x with
  | (lines, inl t) => exists t', x' = (lines, inl t') /\ unnumbered t = unnumbered t'
  | (lines, inr (NoToken c)) => x' = (lines, inr (NoToken c))
  | (lines, inr _) => lines `prefix_of` fst x'
  end.
Definition kept_outcome (x x' : res (list (production * production) * option str * logged rule_ctx)) : Prop :=
  match x, x' with
  | Ret (w, rest, run), Ret (w', rest', run') => w = [] /\ w' = [] /\ rest = rest' /\ kept_run run run'
  | Panic, Panic => True
  | OutOfFuel, OutOfFuel => True
  | _, _ => False
  end.
