(** PropertiesAny.v -- C87 on every text, also where the lexer rules cut only a part of it; for grammars with clashing numbers; and from
    the text of a grammar.  Statement vocabulary: SpecAny.v, SpecChain.v, SpecCrash.v, SpecClash.v. *)
From Verif Require Import ChainAny.

(** Every text is cut up in exactly one way; with nothing left over it is [tokenized]. *)
Theorem C87_cut rules compile G r g data s : grammar_tree G r -> proper G -> load_tree r = Ret (g, data) -> engine_ok compile -> compiled compile G rules ->
  (exists ws, (lit "WHITE_SPACE", ws) ∈ generated_constants data) -> exists ts left, cut_up rules s ts left.
Proof. exact (c87_cut rules compile G r g data s). Qed.
Print Assumptions C87_cut.
Theorem C87_cut_unique rules s ts left ts' left' : cut_up rules s ts left -> cut_up rules s ts' left' -> ts = ts' /\ left = left'.
Proof. exact (cut_unique rules s ts left ts' left'). Qed.
Print Assumptions C87_cut_unique.
Theorem C87_cut_all rules s ts : cut_up rules s ts None <-> tokenized rules s ts.
Proof. exact (cut_tokenized rules s ts). Qed.
Print Assumptions C87_cut_all.

(** C87 for every text: what the lexer rules do not cut is printed, then the parser runs on the tokens before it, without the end of input.
    As before the first line or the panic is at the first token (or missing token) that the grammar does not allow there. *)
Theorem C87_any_text compile G r g data name rules order ws s ts left :
  grammar_tree G r -> proper G -> load_tree r = Ret (g, data) -> no_collision (g_vocabulary g) G -> head (parser_rule_names G) = Some name ->
  iteration_order g order -> engine_ok compile -> compiled compile G rules -> (lit "WHITE_SPACE", ws) ∈ generated_constants data ->
  ll1 (productions g) -> cut_up rules s ts left ->
  let input := parser_input ts left in let W := matches_atom G (RuleRef name) in
  exists n out, (forall fuel, n <= fuel -> chain_log compile order fuel g data ws s = Ret ([], left, out)) /\ snd out <> inr NoFuel /\
    (forall k, first_trouble out = Some k ->
       k <= length input /\ (k < length input -> ~ begins W (take (S k) input)) /\ (rules_match G -> begins W (take k input))) /\
    (first_trouble out = None -> exists t more, out = ([], inl t) /\ W (map token_name (rule_leaves t)) /\
       input = map token_name (rule_leaves t) ++ more) /\
    (left = None -> W (map fst (visible ts)) -> first_trouble out = None).
Proof. exact (c87_any compile G r g data name rules order ws s ts left). Qed.
Print Assumptions C87_any_text.

Example C87_example_any : cut_up ex_sum_rules (lit "12@3") [(lit "Num", lit "12")] (Some (lit "@3")) /\
  chain_log (engine ascii_digit) ex_sum_order 1000 ex_sum_g (rules_of ex_sum_tree) 4 (lit "12@3") = Ret ([], Some (lit "@3"), ([], inr (NoToken 1))).
Proof. split; [exact ex_at_cut|exact ex_at_run]. Qed.

(** C87 for every LL(1) grammar that loads, whatever numbers clash (operands recognised by their number, SpecClash.v). *)
Theorem C87_every compile G r g data name rules order ws s ts left :
  grammar_tree G r -> proper G -> load_tree r = Ret (g, data) -> head (parser_rule_names G) = Some name ->
  iteration_order g order -> engine_ok compile -> compiled compile G rules -> (lit "WHITE_SPACE", ws) ∈ generated_constants data ->
  ll1 (productions g) -> cut_up rules s ts left ->
  exists number : atom -> nat,
    (forall n t, get_terminal_id_by_name (g_vocabulary g) n = Some t -> number (TokenRef n) = t) /\
    (forall n i, get_nonterminal_id_by_name (g_vocabulary g) n = Some i -> number (RuleRef n) = i) /\
    (forall alts sx, occurs (Element (Group alts) sx) G ->
       is_nonterminal_id (g_vocabulary g) (number (Group alts)) = true /\
       get_nonterminal_name_by_id (g_vocabulary g) (number (Group alts)) = None) /\
  let input := parser_input ts left in let W := reads_atom G (first_operand number G) (RuleRef name) in
  exists n out, (forall fuel, n <= fuel -> chain_log compile order fuel g data ws s = Ret ([], left, out)) /\ snd out <> inr NoFuel /\
    (forall k, first_trouble out = Some k ->
       k <= length input /\ (k < length input -> ~ begins W (take (S k) input)) /\ (rules_read number G -> begins W (take k input))) /\
    (first_trouble out = None -> exists t more, out = ([], inl t) /\ W (map token_name (rule_leaves t)) /\
       input = map token_name (rule_leaves t) ++ more) /\
    (left = None -> W (map fst (visible ts)) -> first_trouble out = None).
Proof. exact (c87_every compile G r g data name rules order ws s ts left). Qed.
Print Assumptions C87_every.

Example C87_example_clash : (grammar_tree ex_clash ex_clash_tree /\ proper ex_clash /\ load_tree ex_clash_tree = Ret (ex_clash_g, rules_of ex_clash_tree) /\
  head (parser_rule_names ex_clash) = Some (lit "a") /\ iteration_order ex_clash_g ex_clash_order /\
  engine_ok (engine ascii_digit) /\ compiled (engine ascii_digit) ex_clash ex_clash_rules /\
  (lit "WHITE_SPACE", 5) ∈ generated_constants (rules_of ex_clash_tree) /\ ll1 (productions ex_clash_g)) /\
  cut_up ex_clash_rules (lit "xyz") [(lit "X", lit "x"); (lit "Y", lit "y"); (lit "Z", lit "z")] None /\ (forall number, rules_read number ex_clash) /\
  chain_log (engine ascii_digit) ex_clash_order 1000 ex_clash_g (rules_of ex_clash_tree) 5 (lit "xyz") = Ret ([], None, ([], inr (NoEntry 2 3))).
Proof. split; [exact ex_clash_hyps|]. split; [exact ex_clash_cut|]. split; [exact ex_clash_read|exact ex_clash_log]. Qed.

(** C87 from the text of a grammar, with a condition on the text that excludes clashes. *)
Theorem C87_text nd g d order G ts0 s0 name :
  digits_ok nd -> load_ast syntaxis2_json = Ret (g, d) -> iteration_order g order ->
  grammar_tokens G ts0 -> written ts0 s0 -> proper G -> references_defined G -> tokens_apart G -> head (parser_rule_names G) = Some name ->
  exists r n g' data, (forall fuel, n <= fuel -> main_run nd order fuel syntaxis2_json s0 = Ret (r, [], None, [])) /\
    load_tree (retype_rule hand_type r) = Ret (g', data) /\
    (ll1 (productions g') -> forall compile rules order' ws s ts left,
       iteration_order g' order' -> engine_ok compile -> compiled compile G rules -> (lit "WHITE_SPACE", ws) ∈ generated_constants data ->
       cut_up rules s ts left ->
       let input := parser_input ts left in let W := matches_atom G (RuleRef name) in
       exists n out, (forall fuel, n <= fuel -> chain_log compile order' fuel g' data ws s = Ret ([], left, out)) /\ snd out <> inr NoFuel /\
         (forall k, first_trouble out = Some k ->
            k <= length input /\ (k < length input -> ~ begins W (take (S k) input)) /\ (rules_match G -> begins W (take k input))) /\
         (first_trouble out = None -> exists t more, out = ([], inl t) /\ W (map token_name (rule_leaves t)) /\
            input = map token_name (rule_leaves t) ++ more) /\
         (left = None -> W (map fst (visible ts)) -> first_trouble out = None)).
Proof. exact (c87_text nd g d order G ts0 s0 name). Qed.
Print Assumptions C87_text.

Example C87_example_grammar_text : written ex_sum_grammar_tokens (lit "sum: Num (Plus Num)*;Num: /[0-9]+/;Plus: /\+/;WHITE_SPACE: /[ ]+/;") /\
  grammar_tokens ex_sum ex_sum_grammar_tokens /\ proper ex_sum /\ references_defined ex_sum /\ tokens_apart ex_sum.
Proof. split; [exact ex_sum_is_written|]. split; [exact ex_sum_is_grammar|]. split; [exact (proj1 (proj2 ex_sum_hyps))|]. split; [exact ex_sum_defined|exact ex_sum_apart]. Qed.
