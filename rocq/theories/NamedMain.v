(** NamedMain.v -- C102: texts and concrete cases. *)
From Verif Require Export NamedProofs.

Lemma c102_chain name body G G' : group_named name body G G' -> forall r r' g g' data data', grammar_tree G r -> grammar_tree G' r' -> proper G -> proper G' ->
  load_tree r = Ret (g, data) -> load_tree r' = Ret (g', data') -> no_collision (g_vocabulary g) G -> no_collision (g_vocabulary g') G' ->
  parser_rule_names G <> [] -> head (parser_rule_names G) = head (parser_rule_names G') -> lexer_rules_of G = lexer_rules_of G' ->
  forall compile order order' ws s rules ts, ll1 (productions g) -> ll1 (productions g') -> iteration_order g order -> iteration_order g' order' ->
  engine_ok compile -> compiled compile G rules -> (lit "WHITE_SPACE", ws) ∈ generated_constants data -> tokenized rules s ts ->
  data = data' /\ ((exists t, accepted compile order g data ws s ts t) <-> (exists t', accepted compile order' g' data' ws s ts t')).
Proof.
  intros H r r' g g' data data' HT HT' Hp Hp' Hl Hl' Hc Hc' Hne Hh El compile order order' ws s rules ts Hll Hll' Ho Ho' He Hcomp Hws Hts.
  destruct (parser_rule_names G) as [|first ns] eqn:En; [done|].
  assert (first <> name) by (intros ->; destruct H as [H _]; apply H; rewrite En; by left).
  eapply (c102_same compile G G' r r' g g' data data' first first order order' ws s rules ts); try done; [by rewrite En|].
  intros w. symmetry. by eapply c102_language.
Qed.

Lemma c102_text nd g d order name body G ts s G' ts' s' :
  digits_ok nd -> load_ast syntaxis2_json = Ret (g, d) -> iteration_order g order ->
  grammar_tokens G ts -> written ts s -> grammar_tokens G' ts' -> written ts' s' -> group_named name body G G' ->
  lexer_rules_of G = lexer_rules_of G' -> head (parser_rule_names G) = head (parser_rule_names G') ->
  proper G -> proper G' -> references_defined G -> references_defined G' -> tokens_apart G -> tokens_apart G' -> parser_rule_names G <> [] ->
  exists r r' n g1 g2 data, (forall fuel, n <= fuel -> main_run nd order fuel syntaxis2_json s = Ret (r, [], None, []) /\
                                              main_run nd order fuel syntaxis2_json s' = Ret (r', [], None, [])) /\
    load_tree (retype_rule hand_type r) = Ret (g1, data) /\ load_tree (retype_rule hand_type r') = Ret (g2, data) /\
    (ll1 (productions g1) -> ll1 (productions g2) -> forall compile order1 order2 ws text rules tks, iteration_order g1 order1 -> iteration_order g2 order2 ->
       engine_ok compile -> compiled compile G rules -> (lit "WHITE_SPACE", ws) ∈ generated_constants data -> tokenized rules text tks ->
       ((exists t, accepted compile order1 g1 data ws text tks t) <-> (exists t', accepted compile order2 g2 data ws text tks t'))).
Proof.
  intros Hnd Hl Ho HG Hw HG' Hw' N El Hh Hp Hp' Hd Hd' Ha Ha' Hne.
  destruct (c44_complete nd g d order G ts s Hnd Hl Ho HG Hw) as (r & HT & n & Hn).
  destruct (c44_complete nd g d order G' ts' s' Hnd Hl Ho HG' Hw') as (r' & HT' & n' & Hn').
  destruct (proj2 (c42 _ _ HT Hp) Hd) as [[g1 data] L1]. destruct (proj2 (c42 _ _ HT' Hp') Hd') as [[g2 data'] L2].
  assert (data = data') as <-.
  { destruct (load_tokens _ _ _ _ HT Hp L1) as (sT & E & D & K), (load_tokens _ _ _ _ HT' Hp' L2) as (sT' & E' & D' & K'). rewrite El, E' in E. injection E as ->. congruence. }
  exists r, r', (n `max` n'), g1, g2, data. split; [intros fuel Hf; split; [apply Hn; lia|apply Hn'; lia]|]. split; [done|]. split; [done|].
  pose proof (tokens_apart_no_collision (g_vocabulary g1) _ Ha) as N1. pose proof (tokens_apart_no_collision (g_vocabulary g2) _ Ha') as N2.
  intros Hll Hll' compile o1 o2 ws text rules tks O1 O2 He Hc Hws Hts.
  exact (proj2 (c102_chain _ _ _ _ N _ _ _ _ _ _ HT HT' Hp Hp' L1 L2 N1 N2 Hne Hh El compile o1 o2 ws text rules tks Hll Hll' O1 O2 He Hc Hws Hts)).
Qed.

(** sum: Num (Plus Num)*;  becomes  sum: Num more*;  more: Plus Num; *)
Definition ex_body : list alternative := [Sequence [ref "Plus"; ref "Num"]].
Definition ex_sum4 : list rule := [ParserRule (lit "sum") [Sequence [ref "Num"; Element (RuleRef (lit "more")) (Some (Star, false))]]; ParserRule (lit "more") ex_body] ++ drop 1 ex_sum.
Notation tree4 := (build_grammar ex_sum4).
Lemma named_ref name body n : named_element name body (ref n) (ref n).
Proof. constructor. by constructor. Qed.
Lemma ex_body_named : named_alternatives (lit "more") ex_body ex_body ex_body.
Proof. repeat first [apply named_ref | constructor]. Qed.
Lemma ex_sum_named : group_named (lit "more") ex_body ex_sum ex_sum4.
Proof.
  assert (K : named_alternatives (lit "more") ex_body [Sequence [ref "Num"; Element (Group ex_body) (Some (Star, false))]] [Sequence [ref "Num"; Element (RuleRef (lit "more")) (Some (Star, false))]]).
  { constructor; [|constructor]. constructor. constructor; [apply named_ref|]. constructor; [|constructor]. constructor. apply named_here. }
  split_and!.
  - apply (bool_decide_unpack _). by vm_compute.
  - intros s Ho. apply occurs_computed in Ho. revert Ho. vm_compute occurring. rewrite !elem_of_cons. intros Ho. repeat (destruct Ho as [Ho|Ho]; [by inversion Ho|]). by apply elem_of_nil in Ho.
  - exists ex_body. split; [right; by left|exact ex_body_named].
  - intros n alts Hr. unfold ex_sum in Hr. rewrite !elem_of_cons in Hr. destruct Hr as [[= -> ->]|[[=]|[[=]|[[=]|Hr]]]]; [|by apply elem_of_nil in Hr].
    eexists. split; [left|exact K].
  - intros n alts' Hr. unfold ex_sum4, ex_sum in Hr. cbn [drop app] in Hr. rewrite !elem_of_cons in Hr. destruct Hr as [[= -> ->]|[[= -> ->]|[[=]|[[=]|[[=]|Hr]]]]]; [| |by apply elem_of_nil in Hr].
    + rewrite decide_False by (apply (bool_decide_unpack _); by vm_compute). eexists. split; [left|exact K].
    + rewrite decide_True by done. exact ex_body_named.
Qed.
Lemma ex_c102 : group_named (lit "more") ex_body ex_sum ex_sum4 /\ grammar_tree ex_sum ex_sum_tree /\ grammar_tree ex_sum4 tree4 /\ proper ex_sum /\ proper ex_sum4 /\
  load_tree ex_sum_tree = Ret (ex_sum_g, rules_of ex_sum_tree) /\ load_tree tree4 = Ret (grammar_of tree4, rules_of tree4) /\
  no_collision (g_vocabulary ex_sum_g) ex_sum /\ no_collision (g_vocabulary (grammar_of tree4)) ex_sum4 /\ parser_rule_names ex_sum <> [] /\
  head (parser_rule_names ex_sum) = head (parser_rule_names ex_sum4) /\ lexer_rules_of ex_sum = lexer_rules_of ex_sum4 /\
  ll1 (productions ex_sum_g) /\ ll1 (productions (grammar_of tree4)) /\
  engine_ok (engine ascii_digit) /\ compiled (engine ascii_digit) ex_sum ex_sum_rules /\ (lit "WHITE_SPACE", 4) ∈ generated_constants (rules_of ex_sum_tree) /\
  tokenized ex_sum_rules (lit "12 +3") ex_sum_cut /\ exists t, accepted (engine ascii_digit) ex_sum_order ex_sum_g (rules_of ex_sum_tree) 4 (lit "12 +3") ex_sum_cut t.
Proof.
  destruct ex_sum_hyps as (H1 & H2 & H3 & H4 & H5 & H6 & H7 & H8 & H9 & H10).
  split; [exact ex_sum_named|]. split; [exact H1|]. split; [apply build_grammar_tree; by vm_compute|]. split; [exact H2|]. split; [apply proper_computed; by vm_compute|].
  split; [exact H3|]. split; [apply loaded_ret; by vm_compute|]. split; [exact H4|]. split; [apply no_collision_computed; by vm_compute|]. split; [done|]. split; [done|]. split; [done|].
  split; [exact H10|]. split; [apply ll1_computed; by vm_compute|]. split; [exact H7|]. split; [exact H8|]. split; [exact H9|]. split; [exact ex_sum_tokenized|]. apply ex_c101.
Qed.
(** Both accept 12 +3, the second with a node for more. *)
Fixpoint node_names (a : ast) : list str := match a with Rule (RuleCtx n cs _) => n :: concat (map node_names cs) | _ => [] end.
Lemma ex_c102_run : exists t t', run_ws ex_sum 4 (lit "12 +3") = Ret ([], None, ([], inl t)) /\ run_ws ex_sum4 4 (lit "12 +3") = Ret ([], None, ([], inl t')) /\
  node_names (Rule t) = [lit "sum"] /\ node_names (Rule t') = [lit "sum"; lit "more"] /\ rule_leaves t = rule_leaves t'.
Proof. eexists _, _. split; [by vm_compute|]. split; [by vm_compute|]. split; [by vm_compute|]. split; by vm_compute. Qed.

(** For files:  ab:(Xy Xy)*;Xy:/x/;  and  ab:cd*;cd:Xy Xy;Xy:/x/;  *)
Definition ex_pairs : list alternative := [Sequence [ref "Xy"; ref "Xy"]].
Definition ex_nameless : list rule := [ParserRule (lit "ab") [Sequence [Element (Group ex_pairs) (Some (Star, false))]]; LexerRule (lit "Xy") (lit "/x/")].
Definition ex_named : list rule := [ParserRule (lit "ab") [Sequence [Element (RuleRef (lit "cd")) (Some (Star, false))]]; ParserRule (lit "cd") ex_pairs; LexerRule (lit "Xy") (lit "/x/")].
Definition ex_xx : list (nat * str) := [(3, lit "Xy"); (3, lit "Xy")].
Definition ex_nameless_tokens : list (nat * str) := [(2, lit "ab"); (4, lit ":"); (11, lit "(")] ++ ex_xx ++ [(12, lit ")"); (8, lit "*"); (5, lit ";")] ++ drop 5 ex_once_tokens.
Definition ex_named_tokens : list (nat * str) := [(2, lit "ab"); (4, lit ":"); (2, lit "cd"); (8, lit "*"); (5, lit ";"); (2, lit "cd"); (4, lit ":")] ++ ex_xx ++ [(5, lit ";")] ++ drop 5 ex_once_tokens.
Lemma ex_c102_text : grammar_tokens ex_nameless ex_nameless_tokens /\ written ex_nameless_tokens (lit "ab:(Xy Xy)*;Xy:/x/;") /\
  grammar_tokens ex_named ex_named_tokens /\ written ex_named_tokens (lit "ab:cd*;cd:Xy Xy;Xy:/x/;") /\ group_named (lit "cd") ex_pairs ex_nameless ex_named /\
  lexer_rules_of ex_nameless = lexer_rules_of ex_named /\ head (parser_rule_names ex_nameless) = head (parser_rule_names ex_named) /\
  proper ex_nameless /\ proper ex_named /\ references_defined ex_nameless /\ references_defined ex_named /\ tokens_apart ex_nameless /\ tokens_apart ex_named /\ parser_rule_names ex_nameless <> [].
Proof.
  assert (X : element_tokens (ref "Xy") [(3, lit "Xy")]) by (refine (element_tokens_intro _ _ [(3, lit "Xy")] [] _ _); constructor).
  assert (A : alternatives_tokens ex_pairs ex_xx).
  { constructor. constructor. refine (elements_tokens_more _ [(3, lit "Xy")] _ [(3, lit "Xy")] X _). by constructor. }
  assert (S1 : forall a ts, atom_tokens a ts -> alternatives_tokens [Sequence [Element a (Some (Star, false))]] (ts ++ [(8, lit "*")])).
  { intros a ts Ha. do 3 constructor. apply element_tokens_intro; [done|]. exact (suffix_tokens_greedy Star (lit "*")). }
  pose proof (rule_tokens_lexer (lit "Xy") (lit "/x/") (lit ":") (lit ";")) as R2.
  split.
  { exists [take 8 ex_nameless_tokens; drop 5 ex_once_tokens]. split; [|reflexivity]. constructor; [|constructor; [exact R2|constructor]].
    refine (rule_tokens_parser (lit "ab") _ (lit ":") (((11, lit "(") :: ex_xx ++ [(12, lit ")")]) ++ [(8, lit "*")]) (lit ";") _). apply S1. exact (atom_tokens_group _ (lit "(") _ (lit ")") A). }
  split; [apply written_computed; [apply Nat.leb_le; reflexivity|vm_compute; reflexivity]|]. split.
  { exists [take 5 ex_named_tokens; take 5 (drop 5 ex_named_tokens); drop 5 ex_once_tokens]. split; [|reflexivity]. constructor; [|constructor; [|constructor; [exact R2|constructor]]].
    - refine (rule_tokens_parser (lit "ab") _ (lit ":") ([(2, lit "cd")] ++ [(8, lit "*")]) (lit ";") _). apply S1. constructor.
    - exact (rule_tokens_parser (lit "cd") _ (lit ":") ex_xx (lit ";") A). }
  split; [apply written_computed; [apply Nat.leb_le; reflexivity|vm_compute; reflexivity]|].
  assert (K : named_alternatives (lit "cd") ex_pairs [Sequence [Element (Group ex_pairs) (Some (Star, false))]] [Sequence [Element (RuleRef (lit "cd")) (Some (Star, false))]]).
  { constructor; [|constructor]. constructor. constructor; [|constructor]. constructor. apply named_here. }
  assert (K' : named_alternatives (lit "cd") ex_pairs ex_pairs ex_pairs) by (repeat first [apply named_ref | constructor]).
  assert (proper ex_nameless) as Hp by (apply proper_computed; by vm_compute). assert (proper ex_named) as Hp' by (apply proper_computed; by vm_compute).
  split.
  { split_and!.
    - apply (bool_decide_unpack _). by vm_compute.
    - intros s Ho. apply occurs_computed in Ho. revert Ho. vm_compute occurring. rewrite !elem_of_cons. intros Ho. repeat (destruct Ho as [Ho|Ho]; [by inversion Ho|]). by apply elem_of_nil in Ho.
    - exists ex_pairs. split; [right; by left|exact K'].
    - intros n alts Hr. unfold ex_nameless in Hr. rewrite !elem_of_cons in Hr. destruct Hr as [[= -> ->]|[[=]|Hr]]; [|by apply elem_of_nil in Hr]. eexists. split; [left|exact K].
    - intros n alts' Hr. unfold ex_named in Hr. rewrite !elem_of_cons in Hr. destruct Hr as [[= -> ->]|[[= -> ->]|[[=]|Hr]]]; [| |by apply elem_of_nil in Hr].
      + rewrite decide_False by (apply (bool_decide_unpack _); by vm_compute). eexists. split; [left|exact K].
      + rewrite decide_True by done. exact K'. }
  split; [done|]. split; [done|]. split; [exact Hp|]. split; [exact Hp'|].
  split; [apply (c42 ex_nameless (build_grammar ex_nameless)); [by apply build_grammar_tree|exact Hp|eexists; apply loaded_ret; by vm_compute]|].
  split; [apply (c42 ex_named (build_grammar ex_named)); [by apply build_grammar_tree|exact Hp'|eexists; apply loaded_ret; by vm_compute]|].
  split; [intros k b b' n a Ho; exfalso; apply occurs_computed in Ho; revert Ho; vm_compute occurring; rewrite !elem_of_cons; intros Ho; repeat (destruct Ho as [Ho|Ho]; [by inversion Ho|]); by apply elem_of_nil in Ho|].
  split; [intros k b b' n a Ho; exfalso; apply occurs_computed in Ho; revert Ho; vm_compute occurring; rewrite !elem_of_cons; intros Ho; repeat (destruct Ho as [Ho|Ho]; [by inversion Ho|]); by apply elem_of_nil in Ho|].
  done.
Qed.
