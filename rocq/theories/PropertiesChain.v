(** PropertiesChain.v -- the tool chain of a user's grammar (C85). *)
From Verif Require Import ChainEvery.

(** C85: the lexer generated for the grammar cuts a text as the lexer rules say; the cut is unique. *)
Theorem C85_rules compile G r g data : grammar_tree G r -> proper G -> load_tree r = Ret (g, data) -> exists rules, compiled compile G rules.
Proof. exact (c85_rules compile G r g data). Qed.
Print Assumptions C85_rules.

Theorem C85_unique compile G rules s ts ts' : engine_ok compile -> compiled compile G rules -> tokenized rules s ts -> tokenized rules s ts' -> ts = ts'.
Proof. exact (c85_unique compile G rules s ts ts'). Qed.
Print Assumptions C85_unique.

(** The parser starts at the first rule of the grammar. *)
Theorem C85_first_rule G r g data name : grammar_tree G r -> proper G -> load_tree r = Ret (g, data) -> head (parser_rule_names G) = Some name ->
  get_nonterminal_id_by_name (g_vocabulary g) name = Some 0.
Proof. exact (first_rule G r g data name). Qed.
Print Assumptions C85_first_rule.

(** A conflict is reported exactly when the grammar is not LL(1), text left over exactly when the lexer rules do not cut all of it. *)
Theorem C85_reports compile G r g data rules order ws s fuel t w rest mm :
  grammar_tree G r -> proper G -> load_tree r = Ret (g, data) ->
  iteration_order g order -> engine_ok compile -> compiled compile G rules -> (lit "WHITE_SPACE", ws) ∈ generated_constants data ->
  chain_run compile order fuel g data ws s = Ret (t, w, rest, mm) ->
  (w = [] <-> ll1 (productions g)) /\ (rest = None <-> exists ts, tokenized rules s ts).
Proof. exact (c85_reports_every compile G r g data rules order ws s fuel t w rest mm). Qed.
Print Assumptions C85_reports.

(** For an LL(1) grammar a text that is cut into tokens is parsed, to a tree of the first rule with all its visible tokens as leaves and
    without any report, exactly when the grammar as it is written allows the names of these tokens, whatever the order of iteration. *)
Theorem C85_accepts compile G r g data name rules order ws s ts :
  grammar_tree G r -> proper G -> load_tree r = Ret (g, data) -> no_collision (g_vocabulary g) G -> head (parser_rule_names G) = Some name ->
  iteration_order g order -> engine_ok compile -> compiled compile G rules -> (lit "WHITE_SPACE", ws) ∈ generated_constants data ->
  ll1 (productions g) -> tokenized rules s ts ->
  (exists t n, (forall fuel, n <= fuel -> chain_run compile order fuel g data ws s = Ret (t, [], None, [])) /\
     tree_of (g_vocabulary g) G name t /\ map (fun t => (token_name t, text t)) (rule_leaves t) = visible ts) <->
  matches_atom G (RuleRef name) (map fst (visible ts)).
Proof. exact (c85_accepts_all compile G r g data name rules order ws s ts). Qed.
Print Assumptions C85_accepts.

(** Without any report about text or tokens (the grammar LL(1) or not) the text is cut into tokens and the tree is one of the first rule
    whose leaves begin the visible tokens and the end of input. *)
Theorem C85_silent compile G r g data name rules order ws s fuel t w :
  grammar_tree G r -> proper G -> load_tree r = Ret (g, data) -> no_collision (g_vocabulary g) G -> head (parser_rule_names G) = Some name ->
  iteration_order g order -> engine_ok compile -> compiled compile G rules -> (lit "WHITE_SPACE", ws) ∈ generated_constants data ->
  chain_run compile order fuel g data ws s = Ret (t, w, None, []) ->
  exists ts more, tokenized rules s ts /\ tree_of (g_vocabulary g) G name t /\
    map fst (visible ts) ++ [lit "_STOP"] = map token_name (rule_leaves t) ++ more.
Proof. exact (c85_silent_all compile G r g data name rules order ws s fuel t w). Qed.
Print Assumptions C85_silent.

Example C85_example : grammar_tree ex_sum ex_sum_tree /\ proper ex_sum /\ load_tree ex_sum_tree = Ret (ex_sum_g, rules_of ex_sum_tree) /\
  no_collision (g_vocabulary ex_sum_g) ex_sum /\ head (parser_rule_names ex_sum) = Some (lit "sum") /\ iteration_order ex_sum_g ex_sum_order /\
  engine_ok (engine ascii_digit) /\ compiled (engine ascii_digit) ex_sum ex_sum_rules /\
  (lit "WHITE_SPACE", 4) ∈ generated_constants (rules_of ex_sum_tree) /\ ll1 (productions ex_sum_g).
Proof. exact ex_sum_hyps. Qed.
Example C85_example_text : tokenized ex_sum_rules (lit "12 +3") [(lit "Num", lit "12"); (lit "WHITE_SPACE", lit " "); (lit "Plus", lit "+"); (lit "Num", lit "3")] /\
  matches_atom ex_sum (RuleRef (lit "sum")) [lit "Num"; lit "Plus"; lit "Num"].
Proof. split; [exact ex_sum_tokenized|exact ex_sum_matches]. Qed.
Example C85_example_run : map (fun t => (token_name t, text t)) <$>
  match chain_run (engine ascii_digit) ex_sum_order 1000 ex_sum_g (rules_of ex_sum_tree) 4 (lit "12 +3") with
  | Ret (t, [], None, []) => Some (rule_leaves t)
  | _ => None
  end = Some [(lit "Num", lit "12"); (lit "Plus", lit "+"); (lit "Num", lit "3")].
Proof. exact ex_sum_run. Qed.

(** C85, from the text of a grammar: main reads it, load_ast makes a grammar and lexer rules of the tree (token types renumbered, C45), and with these
    the texts of the grammar are parsed. *)
Theorem C85_text nd g d order G ts0 s0 name :
  digits_ok nd -> load_ast syntaxis2_json = Ret (g, d) -> iteration_order g order ->
  grammar_tokens G ts0 -> written ts0 s0 -> proper G -> references_defined G -> head (parser_rule_names G) = Some name ->
  exists r n g' data, (forall fuel, n <= fuel -> main_run nd order fuel syntaxis2_json s0 = Ret (r, [], None, [])) /\
    load_tree (retype_rule hand_type r) = Ret (g', data) /\
    (no_collision (g_vocabulary g') G -> ll1 (productions g') -> forall compile rules order' ws s ts,
       iteration_order g' order' -> engine_ok compile -> compiled compile G rules -> (lit "WHITE_SPACE", ws) ∈ generated_constants data ->
       tokenized rules s ts ->
       (exists t n, (forall fuel, n <= fuel -> chain_run compile order' fuel g' data ws s = Ret (t, [], None, [])) /\
          tree_of (g_vocabulary g') G name t /\ map (fun t => (token_name t, text t)) (rule_leaves t) = visible ts) <->
       matches_atom G (RuleRef name) (map fst (visible ts))).
Proof. exact (c85_text nd g d order G ts0 s0 name). Qed.
Print Assumptions C85_text.

Example C85_example_grammar_text : written ex_sum_grammar_tokens (lit "sum: Num (Plus Num)*;Num: /[0-9]+/;Plus: /\+/;WHITE_SPACE: /[ ]+/;") /\
  grammar_tokens ex_sum ex_sum_grammar_tokens /\ references_defined ex_sum.
Proof. split; [exact ex_sum_is_written|]. split; [exact ex_sum_is_grammar|exact ex_sum_defined]. Qed.

(** no_collision speaks about numbers; it follows from a condition on the text of the grammar alone: an operator applied to a token is applied to tokens only. *)
Theorem C85_text_apart nd g d order G ts0 s0 name :
  digits_ok nd -> load_ast syntaxis2_json = Ret (g, d) -> iteration_order g order ->
  grammar_tokens G ts0 -> written ts0 s0 -> proper G -> references_defined G -> head (parser_rule_names G) = Some name ->
  exists r n g' data, (forall fuel, n <= fuel -> main_run nd order fuel syntaxis2_json s0 = Ret (r, [], None, [])) /\
    load_tree (retype_rule hand_type r) = Ret (g', data) /\
    (tokens_apart G -> ll1 (productions g') -> forall compile rules order' ws s ts,
       iteration_order g' order' -> engine_ok compile -> compiled compile G rules -> (lit "WHITE_SPACE", ws) ∈ generated_constants data ->
       tokenized rules s ts ->
       (exists t n, (forall fuel, n <= fuel -> chain_run compile order' fuel g' data ws s = Ret (t, [], None, [])) /\
          tree_of (g_vocabulary g') G name t /\ map (fun t => (token_name t, text t)) (rule_leaves t) = visible ts) <->
       matches_atom G (RuleRef name) (map fst (visible ts))).
Proof. exact (c85_text_every nd g d order G ts0 s0 name). Qed.
Print Assumptions C85_text_apart.

(** C85 for every LL(1) grammar that loads, with operands recognised by their number alone (first_operand, SpecClash.v). *)
Theorem C85_accepts_every compile G r g data name rules order ws s :
  grammar_tree G r -> proper G -> load_tree r = Ret (g, data) -> head (parser_rule_names G) = Some name ->
  iteration_order g order -> engine_ok compile -> compiled compile G rules -> (lit "WHITE_SPACE", ws) ∈ generated_constants data ->
  ll1 (productions g) ->
  exists number : atom -> nat,
    (forall n t, get_terminal_id_by_name (g_vocabulary g) n = Some t -> number (TokenRef n) = t) /\
    (forall n i, get_nonterminal_id_by_name (g_vocabulary g) n = Some i -> number (RuleRef n) = i) /\
    (forall alts sx, occurs (Element (Group alts) sx) G ->
       is_nonterminal_id (g_vocabulary g) (number (Group alts)) = true /\
       get_nonterminal_name_by_id (g_vocabulary g) (number (Group alts)) = None) /\
    forall ts, tokenized rules s ts ->
      (exists t n, (forall fuel, n <= fuel -> chain_run compile order fuel g data ws s = Ret (t, [], None, [])) /\
         rule_name t = name /\ map (fun t => (token_name t, text t)) (rule_leaves t) = visible ts) <->
      reads_atom G (first_operand number G) (RuleRef name) (map fst (visible ts)).
Proof. exact (c85_every compile G r g data name rules order ws s). Qed.
Print Assumptions C85_accepts_every.

(** The condition on collisions in C85_accepts is needed: with  a: X* Y c*; b: X; c: Z;  X and c are both numbered 2, and xyx is parsed without a report. *)
Example C85_example_clash : (grammar_tree ex_clash ex_clash_tree /\ proper ex_clash /\ load_tree ex_clash_tree = Ret (ex_clash_g, rules_of ex_clash_tree) /\
  head (parser_rule_names ex_clash) = Some (lit "a") /\ iteration_order ex_clash_g ex_clash_order /\
  engine_ok (engine ascii_digit) /\ compiled (engine ascii_digit) ex_clash ex_clash_rules /\
  (lit "WHITE_SPACE", 5) ∈ generated_constants (rules_of ex_clash_tree) /\ ll1 (productions ex_clash_g)) /\
  tokenized ex_clash_rules (lit "xyx") [(lit "X", lit "x"); (lit "Y", lit "y"); (lit "X", lit "x")] /\
  map (fun t => (token_name t, text t)) <$>
    match chain_run (engine ascii_digit) ex_clash_order 1000 ex_clash_g (rules_of ex_clash_tree) 5 (lit "xyx") with
    | Ret (t, [], None, []) => Some (rule_leaves t)
    | _ => None
    end = Some [(lit "X", lit "x"); (lit "Y", lit "y"); (lit "X", lit "x")] /\
  ~ matches_atom ex_clash (RuleRef (lit "a")) [lit "X"; lit "Y"; lit "X"].
Proof. split; [exact ex_clash_hyps|]. split; [exact ex_clash_tokenized|]. split; [exact ex_clash_run|exact ex_clash_not]. Qed.
