(** PropertiesCrash.v -- C87: where wrong input is noticed, also by a run that panics. *)
From Verif Require Import ChainCrash MainCrashExample.

(** The runs of C87 are the runs of Parser.v, with the lines printed before a panic and its place. *)
Theorem C87_same_run voc tab toks fuel : parse voc tab toks fuel = forget_log (log_parse voc tab toks fuel).
Proof. exact (c87_same voc tab toks fuel). Qed.
Print Assumptions C87_same_run.

(** C87: with a table without conflicts every run ends ... *)
Theorem C87_ends g order fuel tab v toks :
  iteration_order g order -> closed (nonterminals (g_vocabulary g)) (productions g) -> build_table fuel order g = Ret (tab, []) ->
  exists n out, snd out <> inr NoFuel /\ forall fuel', n <= fuel' -> log_parse v tab toks fuel' = out.
Proof. exact (c87_terminates g order fuel tab v toks). Qed.
Print Assumptions C87_ends.

(** ... and as long as the tokens begin a sentence (and the end of input) there is no report about them and no panic at them; ... *)
Theorem C87_no_early_trouble g order fuel tab v toks fuel' n :
  iteration_order g order -> closed (nonterminals (g_vocabulary g)) (productions g) -> build_table fuel order g = Ret (tab, []) ->
  begins_sentence (productions g) (take n toks) -> n <= length toks ->
  let '(mm, x) := log_parse v tab toks fuel' in
  Forall (fun m => n <= fst m) mm /\ (forall e k, x = inr e -> halt_cursor e = Some k -> n <= k).
Proof. exact (c87_no_early g order fuel tab v toks fuel' n). Qed.
Print Assumptions C87_no_early_trouble.

(** ... if every nonterminal derives something, the tokens before the first report (or panic) begin a sentence and with that token they do
    not; ... *)
Theorem C87_first_trouble g order fuel tab v toks fuel' k :
  iteration_order g order -> closed (nonterminals (g_vocabulary g)) (productions g) -> 0 ∈ nonterminals (g_vocabulary g) ->
  (forall b, b ∈ nonterminals (g_vocabulary g) -> exists w, derives (productions g) [NT b] (map T w)) ->
  build_table fuel order g = Ret (tab, []) -> first_trouble (log_parse v tab toks fuel') = Some k ->
  k <= length toks /\ begins_sentence (productions g) (take k toks) /\ (k < length toks -> ~ begins_sentence (productions g) (take (S k) toks)).
Proof. exact (c87_exact g order fuel tab v toks fuel' k). Qed.
Print Assumptions C87_first_trouble.

(** ... whatever the table, the tokens before it followed by what the parser expected begin a sentential form; ... *)
Theorem C87_before_trouble g order fuel tab w0 v toks fuel' k :
  iteration_order g order -> closed (nonterminals (g_vocabulary g)) (productions g) -> build_table fuel order g = Ret (tab, w0) ->
  first_trouble (log_parse v tab toks fuel') = Some k ->
  k <= length toks /\ exists γ, derives (productions g) [NT 0] (types (take k toks) ++ γ) /\
    forall x, expected_next (log_parse v tab toks fuel') = Some x -> head γ = Some x.
Proof. exact (c87_before g order fuel tab w0 v toks fuel' k). Qed.
Print Assumptions C87_before_trouble.

(** ... and without any the tree holds a sentence that the tokens begin with. *)
Theorem C87_no_trouble g order fuel tab w v toks fuel' :
  iteration_order g order -> closed (nonterminals (g_vocabulary g)) (productions g) -> build_table fuel order g = Ret (tab, w) ->
  first_trouble (log_parse v tab toks fuel') = None -> snd (log_parse v tab toks fuel') <> inr NoFuel ->
  exists r s rest, log_parse v tab toks fuel' = ([], inl r) /\ toks = s ++ rest /\ sentence (productions g) 0 s /\ rule_leaves r = s.
Proof. exact (c87_quiet g order fuel tab w v toks fuel'). Qed.
Print Assumptions C87_no_trouble.

(** One run prints a line about token 2 and panics at token 4, the other panics at token 2 without a line. *)
Example C87_example : build_table 100 ex_order ex_g = Ret (ex_tab, []) /\
  log_parse ex_voc ex_tab (map GrammarMain.tk [3; 5; 1; 2; 1]) 20 = ([(2, 4)], inr (NoEntry 4 1)) /\
  log_parse ex_voc ex_tab (map GrammarMain.tk [3; 5; 5; 1]) 20 = ([], inr (NoEntry 2 2)).
Proof. exact ex_crash. Qed.

Example C87_example_derivable : forall b, b ∈ nonterminals (g_vocabulary ex_sum_g) -> exists w, derives (productions ex_sum_g) [NT b] (map T w).
Proof. exact ex_sum_derivable. Qed.

(** C87 in terms of the grammar as it is written, through the whole tool chain of C85: for every input that the token rules cut up, the program
    ends or panics; the first line or the panic is at the first token (the end of the input counts as one) that the grammar does not allow
    there; without either a beginning of the input is a word of the grammar, and for a word of the grammar there is neither. *)
Theorem C87_chain compile G r g data name rules order ws s ts :
  grammar_tree G r -> proper G -> load_tree r = Ret (g, data) -> no_collision (g_vocabulary g) G -> head (parser_rule_names G) = Some name ->
  iteration_order g order -> engine_ok compile -> compiled compile G rules -> (lit "WHITE_SPACE", ws) ∈ generated_constants data ->
  ll1 (productions g) -> tokenized rules s ts ->
  let input := map fst (visible ts) ++ [lit "_STOP"] in
  exists n out, (forall fuel, n <= fuel -> chain_log compile order fuel g data ws s = Ret ([], None, out)) /\ snd out <> inr NoFuel /\
    (forall k, first_trouble out = Some k ->
       k <= length input /\ (k < length input -> ~ can_begin G name (take (S k) input)) /\ (rules_match G -> can_begin G name (take k input))) /\
    (first_trouble out = None -> exists t more, out = ([], inl t) /\ matches_atom G (RuleRef name) (map token_name (rule_leaves t)) /\
       input = map token_name (rule_leaves t) ++ more) /\
    (matches_atom G (RuleRef name) (map fst (visible ts)) -> first_trouble out = None).
Proof. exact (c87_chain compile G r g data name rules order ws s ts). Qed.
Print Assumptions C87_chain.

Example C87_example_chain : (grammar_tree ex_sum ex_sum_tree /\ proper ex_sum /\ load_tree ex_sum_tree = Ret (ex_sum_g, rules_of ex_sum_tree) /\
  no_collision (g_vocabulary ex_sum_g) ex_sum /\ head (parser_rule_names ex_sum) = Some (lit "sum") /\ iteration_order ex_sum_g ex_sum_order /\
  engine_ok (engine ascii_digit) /\ compiled (engine ascii_digit) ex_sum ex_sum_rules /\
  (lit "WHITE_SPACE", 4) ∈ generated_constants (rules_of ex_sum_tree) /\ ll1 (productions ex_sum_g)) /\
  rules_match ex_sum /\
  tokenized ex_sum_rules (lit "12+") [(lit "Num", lit "12"); (lit "Plus", lit "+")] /\
  chain_log (engine ascii_digit) ex_sum_order 1000 ex_sum_g (rules_of ex_sum_tree) 4 (lit "12+") = Ret ([], None, ([(2, 2)], inr (NoToken 3))) /\
  tokenized ex_sum_rules (lit "12 12") [(lit "Num", lit "12"); (lit "WHITE_SPACE", lit " "); (lit "Num", lit "12")] /\
  chain_log (engine ascii_digit) ex_sum_order 1000 ex_sum_g (rules_of ex_sum_tree) 4 (lit "12 12") = Ret ([], None, ([], inr (NoEntry 1 2))).
Proof.
  split; [exact ex_sum_hyps|]. split; [exact ex_sum_rules_match|]. split; [exact ex_half_tokenized|]. split; [exact ex_half_run|].
  split; [exact ex_pair_tokenized|exact ex_pair_run].
Qed.

(** C87 for main with the committed grammar and any input: main ends or panics; the first line or the panic is at the first token that no
    grammar file has there; and there is neither if and only if the input writes a grammar. *)
Theorem C87_main nd g d order s c :
  digits_ok nd -> load_ast syntaxis2_json = Ret (g, d) -> iteration_order g order -> v1_lexer nd s = Ret c ->
  exists n out toks rest, (forall fuel, n <= fuel -> scan_all c 15 0 fuel lexer_init = Ret (toks, rest) /\
      main_log nd order fuel syntaxis2_json s = Ret ([], rest, out)) /\ snd out <> inr NoFuel /\
    (forall k, first_trouble out = Some k -> let input := map token_type toks in
       k <= length input /\ file_can_begin (take k input) /\ (k < length input -> ~ file_can_begin (take (S k) input))) /\
    (first_trouble out = None <-> exists G ts, grammar_tokens G ts /\ written ts s).
Proof. exact (c87_main nd g d order s c). Qed.
Print Assumptions C87_main.

(** A colon is missing: a line about the second token, then a panic at the third; a semicolon is missing: a panic at the end of the input. *)
Example C87_main_example : main_log ascii_digit shipped_order 3000 syntaxis2_json (lit "ab cd ; AB : /x/ ;") = Ret ([], None, ([(1, 4)], inr (NoEntry 2 2))) /\
  main_log ascii_digit shipped_order 3000 syntaxis2_json (lit "ab : cd") = Ret ([], None, ([], inr (NoEntry 3 15))).
Proof. exact ex_main_crash. Qed.
