(** PropertiesForest.v -- C51, C52: the parser of a loaded grammar and the trees the grammar prescribes.
    Statement vocabulary: SpecForest.v, SpecEbnf.v, SpecGrammar.v. *)
From Verif Require Import ForestProofs.

(** C51: the parse forests of the productions are the forests that the definition prescribes: generated nonterminals
    leave no node, named rules leave one that carries their name and id. *)
Theorem C51_trees G r g data name id w cs :
  grammar_tree G r -> proper G -> load_tree r = Ret (g, data) -> no_collision (g_vocabulary g) G ->
  get_nonterminal_id_by_name (g_vocabulary g) name = Some id ->
  parses (productions g) (g_vocabulary g) [NT id] w cs <->
  forest_atom (g_vocabulary g) G (RuleRef name) cs /\ leaves cs = w.
Proof. exact (c51 G r g data name id w cs). Qed.
Print Assumptions C51_trees.

Example C51_example : tree_of (g_vocabulary ex_list_g) ex_list (lit "list") ex_list_parsed /\
  map token_type (rule_leaves ex_list_parsed) = [2; 6; 3; 4; 5].
Proof. exact (conj ex_list_tree_of eq_refl). Qed.

(** C51: there is such a tree exactly for the token sequences whose names match. *)
Theorem C51_tree_exists G r g data name w :
  grammar_tree G r -> proper G -> load_tree r = Ret (g, data) -> no_collision (g_vocabulary g) G ->
  is_Some (get_nonterminal_id_by_name (g_vocabulary g) name) ->
  (exists t, tree_of (g_vocabulary g) G name t /\ rule_leaves t = w) <->
  exists names, Forall2 (fun n t => get_terminal_id_by_name (g_vocabulary g) n = Some (token_type t)) names w /\
    matches_atom G (RuleRef name) names.
Proof. exact (c51_matches G r g data name w). Qed.
Print Assumptions C51_tree_exists.

(** C51: whatever table of productions it is given, a tree that the parser returns without a mismatch is a tree the
    definition prescribes, over the tokens it consumed. *)
Theorem C51_parsed G r g data name id tab toks fuel i t j :
  grammar_tree G r -> proper G -> load_tree r = Ret (g, data) -> no_collision (g_vocabulary g) G ->
  (forall A a p, tab !! (A, a) = Some p -> p ∈ productions g /\ left p = A) ->
  get_nonterminal_id_by_name (g_vocabulary g) name = Some id ->
  parse_ast (g_vocabulary g) tab toks fuel i id = Ret (t, j, []) ->
  tree_of (g_vocabulary g) G name t /\ i <= j <= length toks /\ rule_leaves t = segment toks i j.
Proof. exact (c51_parsed G r g data name id tab toks fuel i t j). Qed.
Print Assumptions C51_parsed.

(** C52: with a conflict-free table, the parser returns every tree of the first rule from its leaves followed by
    _STOP, without a mismatch. *)
Theorem C52_parse_complete G r g data name order fuel tab t stop rest :
  grammar_tree G r -> proper G -> load_tree r = Ret (g, data) -> no_collision (g_vocabulary g) G ->
  iteration_order g order -> build_table fuel order g = Ret (tab, []) ->
  get_nonterminal_id_by_name (g_vocabulary g) name = Some 0 ->
  tree_of (g_vocabulary g) G name t -> token_type stop = 1 ->
  exists n, forall fuel', n <= fuel' -> parse (g_vocabulary g) tab (rule_leaves t ++ stop :: rest) fuel' = Ret (t, []).
Proof. exact (c52_complete G r g data name order fuel tab t stop rest). Qed.
Print Assumptions C52_parse_complete.

Example C52_example : grammar_tree ex_list ex_list_tree /\ proper ex_list /\ load_tree ex_list_tree = Ret (ex_list_g, rules_of ex_list_tree) /\
  no_collision (g_vocabulary ex_list_g) ex_list /\ iteration_order ex_list_g ex_list_order /\
  build_table 1000 ex_list_order ex_list_g = Ret (ex_list_tab, []) /\ get_nonterminal_id_by_name (g_vocabulary ex_list_g) (lit "list") = Some 0.
Proof. exact ex_list_all. Qed.

(** C52: a tree returned without a mismatch is a tree of the first rule, and its leaves are the first tokens (any
    table, with or without conflicts). *)
Theorem C52_parse_sound G r g data name order fuel tab w toks fuel' t :
  grammar_tree G r -> proper G -> load_tree r = Ret (g, data) -> no_collision (g_vocabulary g) G ->
  iteration_order g order -> build_table fuel order g = Ret (tab, w) ->
  get_nonterminal_id_by_name (g_vocabulary g) name = Some 0 ->
  parse (g_vocabulary g) tab toks fuel' = Ret (t, []) ->
  tree_of (g_vocabulary g) G name t /\ exists rest, toks = rule_leaves t ++ rest.
Proof. exact (c52_sound G r g data name order fuel tab w toks fuel' t). Qed.
Print Assumptions C52_parse_sound.

(** C52, any rule as entry point at any position, followed by a token of its FOLLOW. *)
Theorem C52_entry_complete G r g data name id order fuel tab t next pre rest :
  grammar_tree G r -> proper G -> load_tree r = Ret (g, data) -> no_collision (g_vocabulary g) G ->
  iteration_order g order -> build_table fuel order g = Ret (tab, []) ->
  get_nonterminal_id_by_name (g_vocabulary g) name = Some id ->
  tree_of (g_vocabulary g) G name t -> follows (productions g) id (token_type next) ->
  exists n, forall fuel', n <= fuel' ->
    parse_ast (g_vocabulary g) tab (pre ++ rule_leaves t ++ next :: rest) fuel' (length pre) id = Ret (t, length pre + length (rule_leaves t), []).
Proof. exact (c52_entry_complete G r g data name id order fuel tab t next pre rest). Qed.
Print Assumptions C52_entry_complete.

(** C52, any rule as entry point at any position. *)
Theorem C52_entry_sound G r g data name id order fuel tab w toks fuel' i t j :
  grammar_tree G r -> proper G -> load_tree r = Ret (g, data) -> no_collision (g_vocabulary g) G ->
  iteration_order g order -> build_table fuel order g = Ret (tab, w) ->
  get_nonterminal_id_by_name (g_vocabulary g) name = Some id ->
  parse_ast (g_vocabulary g) tab toks fuel' i id = Ret (t, j, []) ->
  tree_of (g_vocabulary g) G name t /\ i <= j <= length toks /\ rule_leaves t = segment toks i j.
Proof. exact (c52_entry_sound G r g data name id order fuel tab w toks fuel' i t j). Qed.
Print Assumptions C52_entry_sound.

(** C52: with a conflict-free table the tree of a token sequence is unique. *)
Theorem C52_unique G r g data name order fuel tab t1 t2 :
  grammar_tree G r -> proper G -> load_tree r = Ret (g, data) -> no_collision (g_vocabulary g) G ->
  iteration_order g order -> build_table fuel order g = Ret (tab, []) ->
  get_nonterminal_id_by_name (g_vocabulary g) name = Some 0 ->
  tree_of (g_vocabulary g) G name t1 -> tree_of (g_vocabulary g) G name t2 -> rule_leaves t1 = rule_leaves t2 -> t1 = t2.
Proof. exact (c52_unique G r g data name order fuel tab t1 t2). Qed.
Print Assumptions C52_unique.
