(** PropertiesLiteral.v -- C57: what the regexes of string literals match.
    Statement vocabulary: SpecLiteral.v (denotes, unescaped_meta, matches_exactly), Regex.v (compile). *)
From Verif Require Import LiteralProofs.

(** C57 full statement: the regex of a literal matches exactly the text the literal stands for.  False: a dot in a
    literal matches any character. *)
Theorem C57_dot_refuted : exists body w, denotes body w /\ forall nd, exists m s,
  compile nd (lit "^(" ++ literal_regex body ++ lit ")") = Some m /\ m s <> None /\ forall s', s <> w ++ s'.
Proof. exact (c57_dot). Qed.
Print Assumptions C57_dot_refuted.

(** C57: false for an escaped backslash too: the literal's own text need not match. *)
Theorem C57_backslash_refuted : exists body w, denotes body w /\ forall nd, exists m,
  compile nd (lit "^(" ++ literal_regex body ++ lit ")") = Some m /\ (nd 92%N = false -> m w = None).
Proof. exact (c57_backslash). Qed.
Print Assumptions C57_backslash_refuted.

(** C57: and a parenthesis makes a regex the lexer cannot be constructed from. *)
Theorem C57_parenthesis_refuted : exists body w, denotes body w /\ forall nd, compile nd (lit "^(" ++ literal_regex body ++ lit ")") = None.
Proof. exact (c57_unopened). Qed.
Print Assumptions C57_parenthesis_refuted.

(** C57 for every literal whose text has none of the unescaped metacharacters: the regex compiles, and matches a text
    exactly when the text starts with the literal's text, and then exactly that prefix.  Missing for the full claim: the
    characters of unescaped_meta, for which it is false. *)
Theorem C57_regex_partial nd body w : denotes body w -> Forall (.∉ unescaped_meta) w ->
  exists m, compile nd (lit "^(" ++ literal_regex body ++ lit ")") = Some m /\ matches_exactly m w.
Proof. exact (c57_regex nd body w). Qed.
Print Assumptions C57_regex_partial.

Example C57_regex_example : denotes (lit "+\n'*") [43; 10; 39; 42]%N /\ Forall (.∉ unescaped_meta) [43; 10; 39; 42]%N /\
  literal_regex (lit "+\n'*") = (lit "\+" ++ [10%N] ++ lit "'\*").
Proof. exact ex_literal. Qed.

(** C57 for the string-literal visitor: on every tree, the rule collected for the i-th distinct literal matches exactly
    that literal's text. *)
Theorem C57_collected_partial nd r x s' i d a body b w :
  visit_children strings_visitor r strings_new = Ret (x, s') -> st_data s' !! i = Some d ->
  first_occurrences id [] (literal_texts r) !! i = Some (a :: body ++ [b]) ->
  denotes body w -> Forall (.∉ unescaped_meta) w ->
  exists m, compile nd (ld_regex d) = Some m /\ matches_exactly m w.
Proof. exact (c57_literals nd r x s' i d a body b w). Qed.
Print Assumptions C57_collected_partial.
