(** PropertiesEntry.v -- C53: the nine entry points of the generated parser, each on a sentence of its rule followed by
    the end of the input.  The full claim -- every entry point returns the tree of its rule -- fails: a nonterminal that
    may still continue is looked up with _STOP, which only follows rule_list in the grammar, and the lookup panics.
    Statement vocabulary: SpecShipped.v (concrete syntax), SpecEbnf.v (trees); rule numbers in Walker.v. *)
From Verif Require Import EntryProofs.

(** C53 is false of block: the one-reference block panics. *)
Theorem C53_block_refuted : exists g d order tab toks stop, load_ast syntaxis2_json = Ret (g, d) /\ iteration_order g order /\
  build_table 1000 order g = Ret (tab, []) /\ alternatives_tokens [Sequence [Element (RuleRef (lit "b")) None]] (map (fun t => (token_type t, text t)) toks) /\
  token_type stop = 1 /\ exists n, forall fuel, n <= fuel -> entry (g_vocabulary g) tab (toks ++ [stop]) fuel BLOCK = Panic.
Proof. exact (c53_refuted). Qed.
Print Assumptions C53_block_refuted.

(** C53 for rule_list, for every grammar text's tokens. *)
Theorem C53_rule_list g d order fuel0 tab w0 G ts toks stop rest :
  load_ast syntaxis2_json = Ret (g, d) -> iteration_order g order -> build_table fuel0 order g = Ret (tab, w0) ->
  grammar_tokens G ts -> map (fun t => (token_type t, text t)) toks = ts -> token_type stop = 1 ->
  exists c n, grammar_tree G (retype_rule hand_type c) /\ forall fuel, n <= fuel ->
    entry (g_vocabulary g) tab (toks ++ stop :: rest) fuel RULE_LIST = Ret (c, []).
Proof. exact (c53_rule_list g d order fuel0 tab w0 G ts toks stop rest). Qed.
Print Assumptions C53_rule_list.

(** C53 for parser_rule and lexer_rule. *)
Theorem C53_rules g d order fuel0 tab w0 r ts toks stop rest :
  load_ast syntaxis2_json = Ret (g, d) -> iteration_order g order -> build_table fuel0 order g = Ret (tab, w0) ->
  rule_tokens r ts -> map (fun t => (token_type t, text t)) toks = ts -> token_type stop = 1 ->
  exists c n, rule_tree r (retype_rule hand_type c) /\ forall fuel, n <= fuel ->
    entry (g_vocabulary g) tab (toks ++ stop :: rest) fuel (match r with ParserRule _ _ => PARSER_RULE | LexerRule _ _ => LEXER_RULE end) = Ret (c, []).
Proof. exact (c53_rules g d order fuel0 tab w0 r ts toks stop rest). Qed.
Print Assumptions C53_rules.

Example C53_rules_example : rule_tokens (ParserRule (lit "a") [Sequence [Element (RuleRef (lit "b")) (Some (Star, true))]; Epsilon])
  [(V1_RULE_REF, lit "a"); (V1_COLON, lit ":"); (V1_RULE_REF, lit "b"); (V1_STAR, lit "*"); (V1_QUESTION, lit "?"); (V1_OR, lit "|"); (V1_EPSILON, lit "epsilon"); (V1_SEMI, lit ";")].
Proof. exact ex_rule_tokens. Qed.

(** C53 for epsilon and regular. *)
Theorem C53_leaf g d order fuel0 tab w0 e stop rest :
  load_ast syntaxis2_json = Ret (g, d) -> iteration_order g order -> build_table fuel0 order g = Ret (tab, w0) -> token_type stop = 1 ->
  exists n, forall fuel, n <= fuel ->
    (token_type e = V1_EPSILON ->
      entry (g_vocabulary g) tab (e :: stop :: rest) fuel EPSILON_RULE = Ret (RuleCtx (lit "epsilon") [Terminal e] EPSILON_RULE, [])) /\
    (token_type e = V1_REGULAR_LITERAL ->
      entry (g_vocabulary g) tab (e :: stop :: rest) fuel REGULAR = Ret (RuleCtx (lit "regular") [Terminal e] REGULAR, [])).
Proof. exact (c53_leaf g d order fuel0 tab w0 e stop rest). Qed.
Print Assumptions C53_leaf.

(** What block does instead, on every sentence of its rule. *)
Theorem C53_block_panics g d order fuel0 tab w0 alts ts toks stop rest :
  load_ast syntaxis2_json = Ret (g, d) -> iteration_order g order -> build_table fuel0 order g = Ret (tab, w0) ->
  alternatives_tokens alts ts -> map (fun t => (token_type t, text t)) toks = ts -> token_type stop = 1 ->
  exists n, forall fuel, n <= fuel -> entry (g_vocabulary g) tab (toks ++ stop :: rest) fuel BLOCK = Panic.
Proof. exact (c53_block g d order fuel0 tab w0 alts ts toks stop rest). Qed.
Print Assumptions C53_block_panics.

(** C53 for alternative: exactly the epsilon alternative works. *)
Theorem C53_alternative_partial g d order fuel0 tab w0 a ts toks stop rest :
  load_ast syntaxis2_json = Ret (g, d) -> iteration_order g order -> build_table fuel0 order g = Ret (tab, w0) ->
  alternative_tokens a ts -> map (fun t => (token_type t, text t)) toks = ts -> token_type stop = 1 ->
  exists c n, alternative_tree a (retype_rule hand_type c) /\ forall fuel, n <= fuel ->
    entry (g_vocabulary g) tab (toks ++ stop :: rest) fuel ALTERNATIVE = match a with Epsilon => Ret (c, []) | Sequence _ => Panic end.
Proof. exact (c53_alternative g d order fuel0 tab w0 a ts toks stop rest). Qed.
Print Assumptions C53_alternative_partial.

(** C53 for element: exactly the elements with a lazy suffix work. *)
Theorem C53_element_partial g d order fuel0 tab w0 a s ts toks stop rest :
  load_ast syntaxis2_json = Ret (g, d) -> iteration_order g order -> build_table fuel0 order g = Ret (tab, w0) ->
  element_tokens (Element a s) ts -> map (fun t => (token_type t, text t)) toks = ts -> token_type stop = 1 ->
  exists c n, element_tree (Element a s) (retype_rule hand_type c) /\ forall fuel, n <= fuel ->
    entry (g_vocabulary g) tab (toks ++ stop :: rest) fuel ELEMENT = match s with Some (_, true) => Ret (c, []) | _ => Panic end.
Proof. exact (c53_element g d order fuel0 tab w0 a s ts toks stop rest). Qed.
Print Assumptions C53_element_partial.

(** C53 for ebnf_suffix: exactly the lazy suffixes work. *)
Theorem C53_suffix_partial g d order fuel0 tab w0 k b ts toks stop rest :
  load_ast syntaxis2_json = Ret (g, d) -> iteration_order g order -> build_table fuel0 order g = Ret (tab, w0) ->
  suffix_tokens (Some (k, b)) ts -> map (fun t => (token_type t, text t)) toks = ts -> token_type stop = 1 ->
  exists c n, suffix_tree (Some (k, b)) [Rule (retype_rule hand_type c)] /\ forall fuel, n <= fuel ->
    entry (g_vocabulary g) tab (toks ++ stop :: rest) fuel EBNF_SUFFIX = if b then Ret (c, []) else Panic.
Proof. exact (c53_suffix g d order fuel0 tab w0 k b ts toks stop rest). Qed.
Print Assumptions C53_suffix_partial.

Example C53_suffix_example : suffix_tokens (Some (Star, true)) [(V1_STAR, lit "*"); (V1_QUESTION, lit "?")] /\ suffix_tokens (Some (Plus, false)) [(V1_PLUS, lit "+")].
Proof. split; constructor. Qed.
