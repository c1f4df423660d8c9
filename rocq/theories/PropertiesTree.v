(** PropertiesTree.v -- C15-C18: syntax trees, their accessors, the walker and the visitor.
    Statement vocabulary: SpecTree.v. *)
From Verif Require Import TreeProofs.

(** C15: get_terminals / get_terminal. *)
Theorem C15_get_terminals_exact r ty :
  map Terminal (get_terminals r ty) = filter (is_terminal_child ty) (children r) /\
  forall i, get_terminal r ty i = get_terminals r ty !! i.
Proof. exact (c15_terminals r ty). Qed.
Print Assumptions C15_get_terminals_exact.

Example C15_example : map Terminal (get_terminals ex_tree 7) = [Terminal (tk 7); Terminal (tk 7)] /\ get_terminal ex_tree 7 2 = None.
Proof. split; reflexivity. Qed.

(** C15: get_errornodes / get_errornode. *)
Theorem C15_get_errornodes_exact r ty :
  map Error (get_errornodes r ty) = filter (is_error_child ty) (children r) /\
  forall i, get_errornode r ty i = get_errornodes r ty !! i.
Proof. exact (c15_errornodes r ty). Qed.
Print Assumptions C15_get_errornodes_exact.

Example C15_example_errors : get_errornodes ex_tree 12 = [].
Proof. reflexivity. Qed.

(** C15: get_rule_contexts / get_rule_context. *)
Theorem C15_get_rule_contexts_exact r ty :
  map Rule (get_rule_contexts r ty) = filter (is_rule_child ty) (children r) /\
  forall i, get_rule_context r ty i = get_rule_contexts r ty !! i.
Proof. exact (c15_rule_contexts r ty). Qed.
Print Assumptions C15_get_rule_contexts_exact.

Example C15_example_rules : length (get_rule_contexts ex_tree 6) = 1 /\ get_rule_contexts ex_tree 5 = [].
Proof. split; reflexivity. Qed.

(** C16 is false: a node beginning (or ending) with an empty rule node has the text "", even when it
    covers tokens; here the whole input, scanned and parsed without complaint with a conflict-free table.
    Full statement: [node_of n root -> exists x, get_text n (input c) = Ret x /\ covers (input c) n x]. *)
Theorem C16_get_text_refuted :
  exists c ws fuel toks g order tab fuel' root j,
    lexer_ok c /\ ws <> 1 /\ length (input c) + 2 <= fuel /\
    scan_all c ws 0 fuel lexer_init = Ret (toks, None) /\
    iteration_order g order /\ closed (nonterminals (g_vocabulary g)) (productions g) /\
    build_table fuel order g = Ret (tab, []) /\
    parse_ast (g_vocabulary g) tab toks fuel' 0 0 = Ret (root, j, []) /\
    forall x, covers (input c) root x -> get_text root (input c) = Ret [] /\ x = input c /\ input c <> [].
Proof. exact (c16_refuted). Qed.
Print Assumptions C16_get_text_refuted.

(** C16 is false: after a (printed) mismatch the _STOP token can be in the tree; get_text then panics. *)
Theorem C16_get_text_panic_refuted :
  exists c ws fuel toks g order tab fuel' root j mm,
    lexer_ok c /\ ws <> 1 /\ length (input c) + 2 <= fuel /\
    scan_all c ws 0 fuel lexer_init = Ret (toks, None) /\
    iteration_order g order /\ closed (nonterminals (g_vocabulary g)) (productions g) /\
    build_table fuel order g = Ret (tab, []) /\
    parse_ast (g_vocabulary g) tab toks fuel' 0 0 = Ret (root, j, mm) /\
    get_text root (input c) = Panic.
Proof. exact (c16_panic_refuted). Qed.
Print Assumptions C16_get_text_panic_refuted.

(** C16, what is true: nodes without _STOP whose edges are tokens (or that have no token at all). *)
Theorem C16_get_text_partial c ws chan fuel toks printed v tab fuel' i A root j mm n :
  lexer_ok c -> ws <> 1 -> length (input c) + 2 <= fuel ->
  scan_all c ws chan fuel lexer_init = Ret (toks, printed) ->
  parse_ast v tab toks fuel' i A = Ret (root, j, mm) -> node_of n root ->
  Forall (fun t => token_type t <> 1) (rule_leaves n) ->
  (rule_leaves n = [] \/ (left_edge n /\ right_edge n)) ->
  exists x, get_text n (input c) = Ret x /\ covers (input c) n x.
Proof. exact (c16_get_text c ws chan fuel toks printed v tab fuel' i A root j mm n). Qed.
Print Assumptions C16_get_text_partial.

Example C16_example : left_edge ex_tree /\ right_edge ex_tree /\ ~ left_edge (RuleCtx (lit "s") [Rule (RuleCtx (lit "opt") [] 1); Terminal (tk 3)] 0).
Proof. exact ex_tree_edges. Qed.

(** C16: in all remaining cases the text is empty. *)
Theorem C16_get_text_otherwise n input : ~ left_edge n \/ ~ right_edge n -> get_text n input = Ret [].
Proof. exact (c16_get_text_empty_edge n input). Qed.
Print Assumptions C16_get_text_otherwise.

(** C16: no panic unless the node contains the _STOP token. *)
Theorem C16_get_text_no_panic_partial c ws chan fuel toks printed v tab fuel' i A root j mm n :
  lexer_ok c -> ws <> 1 -> length (input c) + 2 <= fuel ->
  scan_all c ws chan fuel lexer_init = Ret (toks, printed) ->
  parse_ast v tab toks fuel' i A = Ret (root, j, mm) -> node_of n root ->
  Forall (fun t => token_type t <> 1) (rule_leaves n) ->
  get_text n (input c) <> Panic.
Proof. exact (c16_get_text_no_panic c ws chan fuel toks printed v tab fuel' i A root j mm n). Qed.
Print Assumptions C16_get_text_no_panic_partial.

(** C16: after a parse without mismatch, if no rule mentions _STOP: no panic on any node, and the right text
    whenever the node's edges are tokens. *)
Theorem C16_get_text_sentence_partial c ws chan fuel toks printed g order fuel1 tab wn v fuel' i A root j n :
  lexer_ok c -> ws <> 1 -> length (input c) + 2 <= fuel ->
  scan_all c ws chan fuel lexer_init = Ret (toks, printed) ->
  iteration_order g order -> closed (nonterminals (g_vocabulary g)) (productions g) ->
  (forall p, p ∈ productions g -> T 1 ∉ right p) ->
  build_table fuel1 order g = Ret (tab, wn) ->
  parse_ast v tab toks fuel' i A = Ret (root, j, []) -> node_of n root ->
  get_text n (input c) <> Panic /\
  (rule_leaves n = [] \/ (left_edge n /\ right_edge n) ->
   exists x, get_text n (input c) = Ret x /\ covers (input c) n x).
Proof. exact (c16_no_mismatch c ws chan fuel toks printed g order fuel1 tab wn v fuel' i A root j n). Qed.
Print Assumptions C16_get_text_sentence_partial.

(** C17: the calls are properly nested, leaf calls adjacent, handlers those of the rule index; and every
    listener whatsoever is driven by exactly this call sequence. *)
Theorem C17_walk_nested r :
  nested_node r (walk recorder r []) /\
  forall (S : Type) (l : listener S) s, walk l r s = fold_left (perform l) (walk recorder r []) s.
Proof. exact (c17_walk r). Qed.
Print Assumptions C17_walk_nested.

Example C17_example : length (walk recorder ex_tree []) = 18.
Proof. exact ex_tree_calls. Qed.

(** C17: every node exactly once, in document order (exits in closing order); the specific handlers exactly
    for the nodes with a known index. *)
Theorem C17_walk_order r :
  omap (fun c => match c with EnterEvery n => Some n | _ => None end) (walk recorder r []) = opening_order r /\
  omap (fun c => match c with ExitEvery n => Some n | _ => None end) (walk recorder r []) = closing_order r /\
  omap (fun c => match c with EnterTerminal t => Some (Terminal t) | EnterError t => Some (Error t) | _ => None end)
    (walk recorder r []) = leaf_nodes r /\
  omap (fun c => match c with EnterRule k n => Some (k, n) | _ => None end) (walk recorder r []) =
    map (fun n => (rule_index n, n)) (filter (fun n => rule_index n <= 8) (opening_order r)) /\
  omap (fun c => match c with ExitRule k n => Some (k, n) | _ => None end) (walk recorder r []) =
    map (fun n => (rule_index n, n)) (filter (fun n => rule_index n <= 8) (closing_order r)).
Proof. exact (c17_order r). Qed.
Print Assumptions C17_walk_order.

(** C18: visit dispatches on the rule index, for every visitor. *)
Theorem C18_dispatch {S R} (v : visitor S R) r s :
  let self f := match f with Some f => f r s | None => visit_children v r s end in
  (rule_index r = 0 -> visit v r s = self (v_rule_list v)) /\
  (rule_index r = 1 -> visit v r s = self (v_parser_rule v)) /\
  (rule_index r = 2 -> visit v r s = self (v_block v)) /\
  (rule_index r = 3 -> visit v r s = self (v_alternative v)) /\
  (rule_index r = 4 -> visit v r s = self (v_epsilon v)) /\
  (rule_index r = 5 -> visit v r s = self (v_element v)) /\
  (rule_index r = 6 -> visit v r s = self (v_ebnf_suffix v)) /\
  (rule_index r = 7 -> visit v r s = self (v_lexer_rule v)) /\
  (rule_index r = 8 -> visit v r s = self (v_regular v)) /\
  (8 < rule_index r -> visit v r s = visit_children v r s).
Proof. exact (c18_dispatch v r s). Qed.
Print Assumptions C18_dispatch.

(** C18: without overrides, with any (stateful, possibly panicking) leaf hooks: the hooks run once per leaf,
    in document order. *)
Theorem C18_leaves_in_order {S R} (v : visitor S R) d agg r s :
  no_overrides v ->
  (forall s, v_default_result v s = Ret (d, s)) ->
  (forall a b s, v_aggregate_result v a b s = Ret (agg a b, s)) ->
  (forall r a s, v_should_visit_next_child v r a s = Ret (true, s)) ->
  (let! (_, s') := visit v r s in Ret s') = rfold (visit_leaf v) (leaf_nodes r) s.
Proof. exact (c18_leaves v d agg r s). Qed.
Print Assumptions C18_leaves_in_order.

Example C18_example : no_overrides (default_visitor nat) /\ leaf_nodes ex_tree = [Terminal (tk 7); Terminal (tk 11); Error (tk 12); Terminal (tk 7)].
Proof. split; [intros i; do 9 (destruct i as [|i]; [reflexivity|]); reflexivity|reflexivity]. Qed.

(** C18: the leaves in document order carry the tokens of the tree. *)
Theorem C18_leaf_tokens r :
  rule_leaves r = omap (fun a => match a with Terminal t | Error t => Some t | Rule _ => None end) (leaf_nodes r).
Proof. exact (c18_leaf_tokens r). Qed.
Print Assumptions C18_leaf_tokens.

(** C18: visit_children folds the children's results left to right and stops at the first child for which
    should_visit_next_child is false; later children are not visited. *)
Theorem C18_aggregates_until_stopped {R} (v : visitor (list ast) R) d agg b vt ve :
  no_overrides v ->
  (forall s, v_default_result v s = Ret (d, s)) ->
  (forall x y s, v_aggregate_result v x y s = Ret (agg x y, s)) ->
  (forall r x s, v_should_visit_next_child v r x s = Ret (b r x, s)) ->
  (forall t s, v_terminal v t s = Ret (vt t, s ++ [Terminal t])) ->
  (forall t s, v_errornode v t s = Ret (ve t, s ++ [Error t])) ->
  exists (val : ast -> R) (seen : ast -> list ast) (cut : rule_ctx -> nat),
    (forall r s, visit v r s = Ret (val (Rule r), s ++ seen (Rule r))) /\
    (forall t, val (Terminal t) = vt t /\ seen (Terminal t) = [Terminal t]) /\
    (forall t, val (Error t) = ve t /\ seen (Error t) = [Error t]) /\
    (forall r, val (Rule r) = folded agg d val (take (cut r) (children r)) /\
       seen (Rule r) = concat (map seen (take (cut r) (children r))) /\
       cut r <= length (children r) /\
       (forall j, j < cut r -> b r (folded agg d val (take j (children r))) = true) /\
       (cut r < length (children r) -> b r (folded agg d val (take (cut r) (children r))) = false)).
Proof. exact (c18_visit_children v d agg b vt ve). Qed.
Print Assumptions C18_aggregates_until_stopped.
