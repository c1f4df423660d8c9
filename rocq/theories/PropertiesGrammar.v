(** PropertiesGrammar.v -- C23-C30 and C32-C38: FIRST, FOLLOW, the LL(1) table and the parser.
    The vocabulary of the statements is in SpecGrammar.v. [ex_g] (GrammarMain.v) is
    expr: term rest; rest (unnamed): '+' term rest | ε; term: '(' expr ')' | ID. *)
From Verif Require Import GrammarMain.

(** C23: first_set terminates for every grammar and iteration order, and panics exactly when a production
    has an undefined left side or inspects an undefined nonterminal (one behind a nullable prefix). *)
Theorem C23_first_terminates g :
  exists n, forall order fuel, iteration_order g order -> n <= fuel ->
    first_set fuel order g <> OutOfFuel /\
    (first_set fuel order g = Panic <->
       exists p, p ∈ productions g /\
         (left p ∉ nonterminals (g_vocabulary g) \/
          exists α b β, right p = α ++ NT b :: β /\ nullable (productions g) α /\
                        b ∉ nonterminals (g_vocabulary g))).
Proof. exact (c23_first_terminates g). Qed.
Print Assumptions C23_first_terminates.

Example C23_example_panics : first_set 50 [Production 0 [NT 7]] (Grammar [] ex_voc {[ Production 0 [NT 7] ]}) = Panic.
Proof. by vm_compute. Qed.

(** C23: in particular it never panics on a closed grammar. *)
Theorem C23_first_returns g :
  closed (nonterminals (g_vocabulary g)) (productions g) ->
  exists n, forall order fuel, iteration_order g order -> n <= fuel ->
    exists result cache, first_set fuel order g = Ret (result, cache).
Proof. exact (c23_first_returns g). Qed.
Print Assumptions C23_first_returns.

Example C23_example_closed : closed (nonterminals (g_vocabulary ex_g)) (productions ex_g).
Proof. exact ex_closed. Qed.

(** C24: for every iteration order and every fuel that gives a result, the sets are the textbook ones. *)
Theorem C24_first_exact g order fuel result cache :
  iteration_order g order -> first_set fuel order g = Ret (result, cache) ->
  dom result = nonterminals (g_vocabulary g) /\
  forall A c, result !! A = Some c ->
    (allow_epsilon c = true <-> nullable (productions g) [NT A]) /\
    (forall t, t ∈ cset c <-> starts (productions g) [NT A] t).
Proof. exact (c24_first_exact g order fuel result cache). Qed.
Print Assumptions C24_first_exact.

Example C24_example : exists result cache c, first_set 100 ex_order ex_g = Ret (result, cache) /\
  result !! 0 = Some c /\ allow_epsilon c = false.
Proof. exact (first_epsb_spec 100 ex_order ex_g 0 ltac:(by vm_compute)). Qed.

(** C24: the result does not depend on the iteration order. *)
Theorem C24_first_order_independent g order1 order2 fuel1 fuel2 out1 out2 :
  iteration_order g order1 -> iteration_order g order2 ->
  first_set fuel1 order1 g = Ret out1 -> first_set fuel2 order2 g = Ret out2 -> out1 = out2.
Proof. exact (c24_first_order_independent g order1 order2 fuel1 fuel2 out1 out2). Qed.
Print Assumptions C24_first_order_independent.

(** C25: the per-production FIRST sets are exact. *)
Theorem C25_production_first_exact g order fuel result cache :
  iteration_order g order -> first_set fuel order g = Ret (result, cache) ->
  dom cache = productions g /\
  forall p c, cache !! p = Some c ->
    (allow_epsilon c = true <-> nullable (productions g) (right p)) /\
    (forall t, t ∈ cset c <-> starts (productions g) (right p) t).
Proof. exact (c25_production_first_exact g order fuel result cache). Qed.
Print Assumptions C25_production_first_exact.

Example C25_example : iteration_order ex_g ex_order /\ Production 2 [T 2; NT 1; NT 2] ∈ productions ex_g.
Proof. split; [exact ex_order_ok|apply in_prods; by vm_compute]. Qed.

(** C26: follow_set terminates without panic on closed grammars having nonterminal 0. *)
Theorem C26_follow_returns g :
  closed (nonterminals (g_vocabulary g)) (productions g) -> 0 ∈ nonterminals (g_vocabulary g) ->
  exists n, forall order1 order2 fuel1 fuel2 first cache,
    iteration_order g order1 -> iteration_order g order2 ->
    first_set fuel1 order1 g = Ret (first, cache) -> n <= fuel2 ->
    exists follow, follow_set fuel2 order2 g first = Ret follow.
Proof. exact (c26_follow_returns g). Qed.
Print Assumptions C26_follow_returns.

(** C26: without nonterminal 0 it panics. *)
Theorem C26_follow_needs_start g order fuel first :
  0 ∉ nonterminals (g_vocabulary g) -> follow_set fuel order g first = Panic.
Proof. exact (c26_follow_needs_start g order fuel first). Qed.
Print Assumptions C26_follow_needs_start.

(** C26: exactness of FOLLOW. *)
Theorem C26_follow_exact g order1 order2 fuel1 fuel2 first cache follow :
  iteration_order g order1 -> iteration_order g order2 ->
  first_set fuel1 order1 g = Ret (first, cache) ->
  follow_set fuel2 order2 g first = Ret follow ->
  dom follow = nonterminals (g_vocabulary g) /\
  forall A s, follow !! A = Some s -> forall t, t ∈ s <->
    (exists X, follows_in (productions g) X A t) \/ (t = 1 /\ ends_in (productions g) 0 A).
Proof. exact (c26_follow_exact g order1 order2 fuel1 fuel2 first cache follow). Qed.
Print Assumptions C26_follow_exact.

Example C26_example : exists first cache follow s, first_set 100 ex_order ex_g = Ret (first, cache) /\
  follow_set 100 ex_order ex_g first = Ret follow /\ follow !! 1 = Some s /\ 4 ∈ s.
Proof. exact (follow_hasb_spec 100 ex_order ex_g 1 4 ltac:(by vm_compute)). Qed.

(** C27 is false: a rule that the start rule cannot reach still contributes to FOLLOW.
    Full statement: [forall A s t, follow !! A = Some s -> t ∈ s <-> textbook_follow P A t]. *)
Theorem C27_textbook_follow_refuted :
  exists g order fuel first cache follow A s t,
    iteration_order g order /\ closed (nonterminals (g_vocabulary g)) (productions g) /\
    0 ∈ nonterminals (g_vocabulary g) /\
    first_set fuel order g = Ret (first, cache) /\ follow_set fuel order g first = Ret follow /\
    follow !! A = Some s /\ t ∈ s /\ ~ textbook_follow (productions g) A t.
Proof. exact (c27_refuted). Qed.
Print Assumptions C27_textbook_follow_refuted.

(** C27, what is true: the full statement holds when every rule is reachable. *)
Theorem C27_textbook_follow_partial g order1 order2 fuel1 fuel2 first cache follow :
  iteration_order g order1 -> iteration_order g order2 ->
  (forall p, p ∈ productions g -> reachable (productions g) (left p)) ->
  first_set fuel1 order1 g = Ret (first, cache) ->
  follow_set fuel2 order2 g first = Ret follow ->
  forall A s, follow !! A = Some s -> forall t, t ∈ s <-> textbook_follow (productions g) A t.
Proof. exact (c27_textbook g order1 order2 fuel1 fuel2 first cache follow). Qed.
Print Assumptions C27_textbook_follow_partial.

Example C27_example : forall p, p ∈ productions ex_g -> reachable (productions ex_g) (left p).
Proof. exact ex_reachable. Qed.

(** C28: the pipeline first_set, follow_set, ll1_table of main never panics on closed grammars. *)
Theorem C28_table_returns g :
  closed (nonterminals (g_vocabulary g)) (productions g) -> 0 ∈ nonterminals (g_vocabulary g) ->
  exists n, forall order fuel, iteration_order g order -> n <= fuel ->
    exists tab w, build_table fuel order g = Ret (tab, w).
Proof. exact (c28_table_returns g). Qed.
Print Assumptions C28_table_returns.

(** C28: table entries are exactly the predicted ones. *)
Theorem C28_table_entries g order fuel tab w :
  iteration_order g order -> closed (nonterminals (g_vocabulary g)) (productions g) ->
  build_table fuel order g = Ret (tab, w) ->
  (forall A t, is_Some (tab !! (A, t)) <->
     exists p, p ∈ productions g /\ left p = A /\
       (starts (productions g) (right p) t \/
        (nullable (productions g) (right p) /\ follows (productions g) A t))) /\
  (forall A t p, tab !! (A, t) = Some p ->
     p ∈ productions g /\ left p = A /\
       (starts (productions g) (right p) t \/
        (nullable (productions g) (right p) /\ follows (productions g) A t))).
Proof. exact (c28_table_entries g order fuel tab w). Qed.
Print Assumptions C28_table_entries.

Example C28_example : build_table 100 ex_order ex_g = Ret (ex_tab, []) /\ ex_tab !! (2, 4) = Some (Production 2 []).
Proof. exact (conj ex_table ex_tab_24). Qed.

(** C29: no warning iff LL(1); every warning names two productions sharing a predicting token. *)
Theorem C29_warnings_iff_not_ll1 g order fuel tab w :
  iteration_order g order -> closed (nonterminals (g_vocabulary g)) (productions g) ->
  build_table fuel order g = Ret (tab, w) ->
  (w = [] <-> ll1 (productions g)) /\
  (forall p q, (p, q) ∈ w -> p ∈ productions g /\ q ∈ productions g /\ left p = left q /\
     exists t, predicts (productions g) p t /\ predicts (productions g) q t).
Proof. exact (c29_warnings g order fuel tab w). Qed.
Print Assumptions C29_warnings_iff_not_ll1.

Example C29_example_conflict : exists tab p q w,
  build_table 10 [Production 0 [T 2]; Production 0 [T 2; T 3]] g30 = Ret (tab, (p, q) :: w) /\ p <> q.
Proof. exact g30_warns. Qed.

(** C30 is false for conflicting grammars: the table depends on the iteration order.
    Full statement: [tab1 = tab2] for any two iteration orders of the same closed grammar. *)
Theorem C30_order_independent_refuted :
  exists g order1 order2 fuel tab1 w1 tab2 w2,
    iteration_order g order1 /\ iteration_order g order2 /\
    closed (nonterminals (g_vocabulary g)) (productions g) /\
    build_table fuel order1 g = Ret (tab1, w1) /\ build_table fuel order2 g = Ret (tab2, w2) /\
    tab1 <> tab2.
Proof. exact (c30_refuted). Qed.
Print Assumptions C30_order_independent_refuted.

(** C30, what is true: if one run reports no conflict then every run gives the same table (and no
    conflict). *)
Theorem C30_order_independent_partial g order1 order2 fuel1 fuel2 tab1 tab2 w :
  iteration_order g order1 -> iteration_order g order2 ->
  closed (nonterminals (g_vocabulary g)) (productions g) ->
  build_table fuel1 order1 g = Ret (tab1, []) -> build_table fuel2 order2 g = Ret (tab2, w) ->
  tab1 = tab2 /\ w = [].
Proof. exact (c30_order_indep g order1 order2 fuel1 fuel2 tab1 tab2 w). Qed.
Print Assumptions C30_order_independent_partial.

Example C30_example : build_table 100 ex_order ex_g = Ret (ex_tab, []).
Proof. exact ex_table. Qed.

(** C30: in general the entry is the last predicted production in iteration order. *)
Theorem C30_last_production_wins g order fuel tab w :
  iteration_order g order -> closed (nonterminals (g_vocabulary g)) (productions g) ->
  build_table fuel order g = Ret (tab, w) ->
  forall A t p, tab !! (A, t) = Some p ->
    exists o1 o2, order = o1 ++ p :: o2 /\
      forall q, q ∈ o2 -> left q = A -> ~ predicts (productions g) q t.
Proof. exact (c30_last_wins g order fuel tab w). Qed.
Print Assumptions C30_last_production_wins.

(** C32: a tree returned without a mismatch is a derivation of the consumed tokens. *)
Theorem C32_parse_sound g order fuel tab w v toks fuel' i A r j mm :
  iteration_order g order -> closed (nonterminals (g_vocabulary g)) (productions g) ->
  build_table fuel order g = Ret (tab, w) ->
  parse_ast v tab toks fuel' i A = Ret (r, j, mm) -> mm = [] ->
  i <= j <= length toks /\
  derives (productions g) [NT A] (types (segment toks i j)) /\
  exists p, p ∈ productions g /\ left p = A /\
    parses (productions g) v (right p) (segment toks i j) (children r) /\
    r = RuleCtx (get_nonterminal_name_with_default v A) (children r) A.
Proof. exact (c32_parse_sound g order fuel tab w v toks fuel' i A r j mm). Qed.
Print Assumptions C32_parse_sound.

Example C32_example : exists r, parse_ast ex_voc ex_tab (ex_toks ++ [tk 1]) 20 0 0 = Ret (r, 7, []) /\
  rule_display r = lit "expr (term (t ) t term (t expr (term (t ) t term (t ) ) t ) )".
Proof. exact ex_parse. Qed.

(** C33: every sentence of any rule, followed by a token of the rule's FOLLOW, at any position. *)
Theorem C33_parse_complete g order fuel tab v A s t rest pre :
  iteration_order g order -> closed (nonterminals (g_vocabulary g)) (productions g) ->
  build_table fuel order g = Ret (tab, []) ->
  sentence (productions g) A s -> follows (productions g) A (token_type t) ->
  exists p cs, p ∈ productions g /\ left p = A /\ parses (productions g) v (right p) s cs /\
    exists n, forall fuel', n <= fuel' ->
      parse_ast v tab (pre ++ s ++ t :: rest) fuel' (length pre) A =
        Ret (RuleCtx (get_nonterminal_name_with_default v A) cs A, length pre + length s, []).
Proof. exact (c33_parse_complete g order fuel tab v A s t rest pre). Qed.
Print Assumptions C33_parse_complete.

Example C33_example : sentence (productions ex_g) 0 ex_toks.
Proof. exact ex_sentence. Qed.

(** C33: every sentence of the start rule followed by _STOP is parsed to its tree. *)
Theorem C33_parse_start_complete g order fuel tab v s t rest :
  iteration_order g order -> closed (nonterminals (g_vocabulary g)) (productions g) ->
  build_table fuel order g = Ret (tab, []) ->
  sentence (productions g) 0 s -> token_type t = 1 ->
  exists p cs, p ∈ productions g /\ left p = 0 /\ parses (productions g) v (right p) s cs /\
    exists n, forall fuel', n <= fuel' ->
      parse v tab (s ++ t :: rest) fuel' =
        Ret (RuleCtx (get_nonterminal_name_with_default v 0) cs 0, []).
Proof. exact (c33_parse_start g order fuel tab v s t rest). Qed.
Print Assumptions C33_parse_start_complete.

(** C34: with a conflict-free table the parser terminates on every token list. *)
Theorem C34_parse_terminates g order fuel tab v toks i A :
  iteration_order g order -> closed (nonterminals (g_vocabulary g)) (productions g) ->
  build_table fuel order g = Ret (tab, []) ->
  exists n, forall fuel', n <= fuel' ->
    parse_ast v tab toks fuel' i A <> OutOfFuel /\
    parse_ast v tab toks fuel' i A = parse_ast v tab toks n i A.
Proof. exact (c34_parse_terminates g order fuel tab v toks i A). Qed.
Print Assumptions C34_parse_terminates.

Example C34_example : build_table 100 ex_order ex_g = Ret (ex_tab, []) /\
  parse ex_voc ex_tab (map tk [4; 4]) 20 = Panic.
Proof. split; [exact ex_table|by vm_compute]. Qed.

(** C35 is false: with a left-recursive rule the parser recurses without end on a sentence of the
    grammar (no recursion depth suffices). Full statement: [exists n, parse v tab toks n <> OutOfFuel]. *)
Theorem C35_parse_terminates_refuted :
  exists g order fuel tab w toks,
    iteration_order g order /\ closed (nonterminals (g_vocabulary g)) (productions g) /\
    build_table fuel order g = Ret (tab, w) /\ sentence (productions g) 0 toks /\
    forall fuel', parse (g_vocabulary g) tab (toks ++ [tk 1]) fuel' = OutOfFuel.
Proof. exact (c35_refuted). Qed.
Print Assumptions C35_parse_terminates_refuted.

(** C36 is false: tokens after the sentence are ignored.
    Full statement: [parse v tab toks n = Ret (r, mm) -> exists s t, toks = s ++ [t] /\\ ... sentence P 0 s]. *)
Theorem C36_only_sentences_refuted :
  exists g order fuel tab v toks fuel' r,
    iteration_order g order /\ closed (nonterminals (g_vocabulary g)) (productions g) /\
    build_table fuel order g = Ret (tab, []) /\
    parse v tab toks fuel' = Ret (r, []) /\
    ~ (exists s t, toks = s ++ [t] /\ token_type t = 1 /\ sentence (productions g) 0 s).
Proof. exact (c36_refuted). Qed.
Print Assumptions C36_only_sentences_refuted.

(** C36 is false in a second way: a mismatching token is only printed, the tree is still returned. *)
Theorem C36_mismatch_accepted_refuted :
  exists g order fuel tab v toks fuel' r mm,
    iteration_order g order /\ closed (nonterminals (g_vocabulary g)) (productions g) /\
    build_table fuel order g = Ret (tab, []) /\
    parse v tab toks fuel' = Ret (r, mm) /\ mm <> [] /\
    ~ (exists s rest, toks = s ++ rest /\ sentence (productions g) 0 s).
Proof. exact (c36_mismatch_refuted). Qed.
Print Assumptions C36_mismatch_accepted_refuted.

(** C36, what is true: without a mismatch a prefix of the tokens is a sentence, and it is what the tree holds. *)
Theorem C36_only_sentences_partial g order fuel tab w v toks fuel' r :
  iteration_order g order -> closed (nonterminals (g_vocabulary g)) (productions g) ->
  build_table fuel order g = Ret (tab, w) ->
  parse v tab toks fuel' = Ret (r, []) ->
  exists s rest, toks = s ++ rest /\ sentence (productions g) 0 s /\ rule_leaves r = s.
Proof. exact (c36_prefix_sentence g order fuel tab w v toks fuel' r). Qed.
Print Assumptions C36_only_sentences_partial.

Example C36_example : exists r, parse_ast ex_voc ex_tab (ex_toks ++ [tk 1]) 20 0 0 = Ret (r, 7, []) /\
  rule_display r = lit "expr (term (t ) t term (t expr (term (t ) t term (t ) ) t ) )".
Proof. exact ex_parse. Qed.

(** C37: for any table, vocabulary and token list whatsoever, mismatches or not. *)
Theorem C37_leaves_and_names v tab toks fuel i A r j mm :
  parse_ast v tab toks fuel i A = Ret (r, j, mm) ->
  i <= j <= length toks /\ rule_leaves r = segment toks i j /\
  rule_index r = A /\ rule_name r = get_nonterminal_name_with_default v A /\
  Forall (named_tree v) (children r).
Proof. exact (c37_leaves v tab toks fuel i A r j mm). Qed.
Print Assumptions C37_leaves_and_names.

Example C37_example : exists r j mm, parse_ast ex_voc ex_tab (map tk [3; 5; 1; 1]) 20 0 0 = Ret (r, j, mm) /\ mm <> [].
Proof. exact ex_mismatch. Qed.

(** C38: one tree per sentence (for any rule with a nonempty FOLLOW set). *)
Theorem C38_unambiguous g order fuel tab v A s t p1 cs1 p2 cs2 :
  iteration_order g order -> closed (nonterminals (g_vocabulary g)) (productions g) ->
  build_table fuel order g = Ret (tab, []) ->
  follows (productions g) A t ->
  p1 ∈ productions g -> left p1 = A -> parses (productions g) v (right p1) s cs1 ->
  p2 ∈ productions g -> left p2 = A -> parses (productions g) v (right p2) s cs2 ->
  cs1 = cs2.
Proof. exact (c38_unambiguous g order fuel tab v A s t p1 cs1 p2 cs2). Qed.
Print Assumptions C38_unambiguous.

Example C38_example : follows (productions ex_g) 0 1.
Proof. exact (or_intror (conj eq_refl (ex_intro _ [] (rtc_refl _ _)))). Qed.

(** C38: one tree per sentence of the start rule. *)
Theorem C38_unambiguous_start g order fuel tab v s p1 cs1 p2 cs2 :
  iteration_order g order -> closed (nonterminals (g_vocabulary g)) (productions g) ->
  build_table fuel order g = Ret (tab, []) ->
  p1 ∈ productions g -> left p1 = 0 -> parses (productions g) v (right p1) s cs1 ->
  p2 ∈ productions g -> left p2 = 0 -> parses (productions g) v (right p2) s cs2 ->
  cs1 = cs2.
Proof. exact (c38_unambiguous_start g order fuel tab v s p1 cs1 p2 cs2). Qed.
Print Assumptions C38_unambiguous_start.
