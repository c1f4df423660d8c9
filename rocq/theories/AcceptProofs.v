(** AcceptProofs.v -- C64: accept, enter and exit of the contexts. *)
From Verif Require Export Accept SpecTree TreeProofs.

Lemma c64_accept {S R} (v : visitor S R) r s :
  (rule_index r = RULE_LIST -> rule_list_accept r v s = visit v r s) /\
  (rule_index r = PARSER_RULE -> parser_rule_accept r v s = visit v r s) /\
  (rule_index r = BLOCK -> block_accept r v s = visit v r s) /\
  (rule_index r = ALTERNATIVE -> alternative_accept r v s = visit v r s) /\
  (rule_index r = EPSILON_RULE -> epsilon_accept r v s = visit v r s) /\
  (rule_index r = ELEMENT -> element_accept r v s = visit v r s) /\
  (rule_index r = EBNF_SUFFIX -> ebnf_suffix_accept r v s = visit v r s) /\
  (rule_index r = LEXER_RULE -> lexer_rule_accept r v s = visit v r s) /\
  (rule_index r = REGULAR -> regular_accept r v s = visit v r s).
Proof. rewrite visit_unfold. split_and!; intros ->; reflexivity. Qed.

Lemma c64_listener {S} (l : listener S) r s :
  (rule_index r = RULE_LIST -> rule_list_enter r l s = l_enter l r s /\ rule_list_exit r l s = l_exit l r s) /\
  (rule_index r = PARSER_RULE -> parser_rule_enter r l s = l_enter l r s /\ parser_rule_exit r l s = l_exit l r s) /\
  (rule_index r = BLOCK -> block_enter r l s = l_enter l r s /\ block_exit r l s = l_exit l r s) /\
  (rule_index r = ALTERNATIVE -> alternative_enter r l s = l_enter l r s /\ alternative_exit r l s = l_exit l r s) /\
  (rule_index r = EPSILON_RULE -> epsilon_enter r l s = l_enter l r s /\ epsilon_exit r l s = l_exit l r s) /\
  (rule_index r = ELEMENT -> element_enter r l s = l_enter l r s /\ element_exit r l s = l_exit l r s) /\
  (rule_index r = EBNF_SUFFIX -> ebnf_suffix_enter r l s = l_enter l r s /\ ebnf_suffix_exit r l s = l_exit l r s) /\
  (rule_index r = LEXER_RULE -> lexer_rule_enter r l s = l_enter l r s /\ lexer_rule_exit r l s = l_exit l r s) /\
  (rule_index r = REGULAR -> regular_enter r l s = l_enter l r s /\ regular_exit r l s = l_exit l r s).
Proof. unfold l_enter, l_exit. split_and!; intros ->; split; reflexivity. Qed.

(** Which trait accept is called through decides, not the node. *)
Lemma c64_by_trait {S R} (v : visitor S R) f n cs i s : v_rule_list v = Some f ->
  rule_list_accept (RuleCtx n cs i) v s = f (RuleCtx n cs i) s.
Proof. intros H. unfold rule_list_accept, method. by rewrite H. Qed.

Lemma loop_root {S R} (v : visitor S R) rec r r' cs : (forall x s, v_should_visit_next_child v r x s = v_should_visit_next_child v r' x s) ->
  forall x s, visit_loop v rec r cs x s = visit_loop v rec r' cs x s.
Proof.
  intros H. induction cs as [|c cs IH]; intros x s; [done|]. cbn [visit_loop]. rewrite H.
  destruct (v_should_visit_next_child v r' x s) as [[b s1]| |]; [|done..]. cbn [rbind]. destruct b; [|done].
  destruct (match c with Terminal t => _ | Rule c => _ | Error t => _ end) as [[y s2]| |]; [|done..]. cbn [rbind].
  destruct (v_aggregate_result v x y s2) as [[z s3]| |]; [|done..]. cbn [rbind]. apply IH.
Qed.

Lemma accept_load r : load_tree_accept r = load_tree r.
Proof. reflexivity. Qed.

Lemma c64_root n n' cs i i' : load_tree_accept (RuleCtx n cs i) = load_tree_accept (RuleCtx n' cs i').
Proof.
  unfold load_tree_accept, rule_list_accept, method. cbn [v_rule_list literal_visitor symbol_visitor].
  assert (forall s, visit_children literal_visitor (RuleCtx n cs i) s = visit_children literal_visitor (RuleCtx n' cs i') s) as E1.
  { intros s. unfold visit_children. cbn [v_default_result literal_visitor rbind children]. by apply loop_root. }
  assert (forall s, visit_children symbol_visitor (RuleCtx n cs i) s = visit_children symbol_visitor (RuleCtx n' cs i') s) as E2.
  { intros s. unfold visit_children. cbn [v_default_result symbol_visitor rbind children]. by apply loop_root. }
  rewrite E1. destruct (visit_children literal_visitor _ _) as [[[] s1]| |]; [|done..]. cbn [rbind].
  rewrite E2. destruct (visit_children symbol_visitor _ _) as [[[] s2]| |]; [|done..]. reflexivity.
Qed.
