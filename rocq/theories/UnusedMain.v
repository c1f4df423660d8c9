(** UnusedMain.v -- C101: texts and concrete cases. *)
From Verif Require Export UnusedProofs.

Lemma c101_appended G G2 : lexer_rules_of G2 = [] -> parser_rule_names G <> [] -> (forall n, n ∈ parser_rule_names G2 -> n ∉ parser_rule_names G) -> new_rules G (G ++ G2).
Proof.
  intros H2 Hne Hnew. split; [by apply c99_appended|]. intros n alt Hn (alts & [Hr|Hr]%elem_of_app & Ha); [by exists alts|]. exfalso. apply (Hnew n); [|done]. apply rule_names_in. by exists alts.
Qed.

Lemma c101_text nd g d order G ts s G' ts' s' :
  digits_ok nd -> load_ast syntaxis2_json = Ret (g, d) -> iteration_order g order ->
  grammar_tokens G ts -> written ts s -> grammar_tokens G' ts' -> written ts' s' -> new_rules G G' ->
  proper G' -> references_defined G -> references_defined G' -> tokens_apart G' -> parser_rule_names G <> [] ->
  exists r r' n g1 g2 data, (forall fuel, n <= fuel -> main_run nd order fuel syntaxis2_json s = Ret (r, [], None, []) /\
                                              main_run nd order fuel syntaxis2_json s' = Ret (r', [], None, [])) /\
    load_tree (retype_rule hand_type r) = Ret (g1, data) /\ load_tree (retype_rule hand_type r') = Ret (g2, data) /\
    (ll1 (productions g2) -> forall compile order1 order2 ws text rules tks, iteration_order g1 order1 -> iteration_order g2 order2 ->
       engine_ok compile -> compiled compile G rules -> (lit "WHITE_SPACE", ws) ∈ generated_constants data -> tokenized rules text tks ->
       (forall t, accepted compile order1 g1 data ws text tks t -> exists t', accepted compile order2 g2 data ws text tks t' /\ unnumbered t = unnumbered t') /\
       (forall t', accepted compile order2 g2 data ws text tks t' -> exists t, accepted compile order1 g1 data ws text tks t /\ unnumbered t = unnumbered t')).
Proof.
  intros Hnd Hl Ho HG Hw HG' Hw' N Hp' Hd Hd' Ha' Hne. pose proof (proj1 N) as E. pose proof (less_proper _ _ E Hp') as Hp.
  destruct (c44_complete nd g d order G ts s Hnd Hl Ho HG Hw) as (r & HT & n & Hn).
  destruct (c44_complete nd g d order G' ts' s' Hnd Hl Ho HG' Hw') as (r' & HT' & n' & Hn').
  assert (Ha : tokens_apart G) by (intros k b b' m a O1 O2; by eapply (Ha' k b b' m a); apply (more_occurs _ _ E)).
  destruct (proj2 (c42 _ _ HT Hp) Hd) as [[g1 data] L1]. destruct (proj2 (c42 _ _ HT' Hp') Hd') as [[g2 data'] L2].
  destruct (c99_data _ _ _ _ _ _ _ _ E HT HT' Hp' L1 L2) as [<- _].
  exists r, r', (n `max` n'), g1, g2, data. split; [intros fuel Hf; split; [apply Hn; lia|apply Hn'; lia]|]. split; [done|]. split; [done|].
  pose proof (tokens_apart_no_collision (g_vocabulary g1) _ Ha) as N1. pose proof (tokens_apart_no_collision (g_vocabulary g2) _ Ha') as N2.
  intros Hll compile o1 o2 ws text rules tks O1 O2 He Hc Hws Hts. exact (c101_chain _ _ _ _ _ _ _ _ N HT HT' Hp' L1 L2 N1 N2 compile o1 o2 ws text rules tks Hne Hll O1 O2 He Hc Hws Hts).
Qed.

(** The sum with a rule more:  twice: Plus sum; *)
Definition ex_sum3 : list rule := ex_sum ++ [ParserRule (lit "twice") [Sequence [ref "Plus"; Element (RuleRef (lit "sum")) None]]].
Notation tree3 := (build_grammar ex_sum3).
Definition ex_sum_cut : list (str * str) := [(lit "Num", lit "12"); (lit "WHITE_SPACE", lit " "); (lit "Plus", lit "+"); (lit "Num", lit "3")].
Lemma ex_c101 : new_rules ex_sum ex_sum3 /\ grammar_tree ex_sum ex_sum_tree /\ grammar_tree ex_sum3 tree3 /\ proper ex_sum3 /\
  load_tree ex_sum_tree = Ret (ex_sum_g, rules_of ex_sum_tree) /\ load_tree tree3 = Ret (grammar_of tree3, rules_of tree3) /\
  no_collision (g_vocabulary ex_sum_g) ex_sum /\ no_collision (g_vocabulary (grammar_of tree3)) ex_sum3 /\ parser_rule_names ex_sum <> [] /\ ll1 (productions (grammar_of tree3)) /\
  engine_ok (engine ascii_digit) /\ compiled (engine ascii_digit) ex_sum ex_sum_rules /\ (lit "WHITE_SPACE", 4) ∈ generated_constants (rules_of ex_sum_tree) /\
  tokenized ex_sum_rules (lit "12 +3") ex_sum_cut /\ exists t, accepted (engine ascii_digit) ex_sum_order ex_sum_g (rules_of ex_sum_tree) 4 (lit "12 +3") ex_sum_cut t.
Proof.
  destruct ex_sum_hyps as (H1 & H2 & H3 & H4 & H5 & H6 & H7 & H8 & H9 & H10).
  split; [apply c101_appended; [done|done|]|].
  { intros n Hn. change (parser_rule_names _) with [lit "twice"] in Hn. apply elem_of_list_singleton in Hn as ->. apply (bool_decide_unpack _). by vm_compute. }
  split; [exact H1|]. split; [apply build_grammar_tree; by vm_compute|]. split; [apply proper_computed; by vm_compute|]. split; [exact H3|]. split; [apply loaded_ret; by vm_compute|].
  split; [exact H4|]. split; [apply no_collision_computed; by vm_compute|]. split; [done|]. split; [apply ll1_computed; by vm_compute|]. split; [exact H7|]. split; [exact H8|]. split; [exact H9|].
  split; [exact ex_sum_tokenized|].
  destruct (proj2 (c85_accepts_all _ _ _ _ _ _ _ _ _ _ _ H1 H2 H3 H4 H5 H6 H7 H8 H9 H10 ex_sum_tokenized) ex_sum_matches) as (t & n & K & _ & Hv). exists t. split; [by exists n|exact Hv].
Qed.

(** s: A b C;  b: A | ε;  and then n: b D; as well.  On ad the first panics, for the second the rule b is empty and a line about d is printed. *)
Definition ex_first : list rule := [ParserRule (lit "s") [Sequence [ref "A"; Element (RuleRef (lit "b")) None; ref "C"]]; ParserRule (lit "b") [Sequence [ref "A"]; Epsilon];
  LexerRule (lit "A") (lit "/a/"); LexerRule (lit "C") (lit "/c/"); LexerRule (lit "D") (lit "/d/"); LexerRule (lit "WHITE_SPACE") (lit "/[ ]+/")].
Definition ex_second : list rule := ex_first ++ [ParserRule (lit "n") [Sequence [Element (RuleRef (lit "b")) None; ref "D"]]].
Lemma c101_errors : exists compile G G' r r' g g' data order order' fuel ws s h line t,
  new_rules G G' /\ grammar_tree G r /\ grammar_tree G' r' /\ proper G' /\ load_tree r = Ret (g, data) /\ load_tree r' = Ret (g', data) /\
  no_collision (g_vocabulary g) G /\ no_collision (g_vocabulary g') G' /\ ll1 (productions g') /\ iteration_order g order /\ iteration_order g' order' /\
  (lit "WHITE_SPACE", ws) ∈ generated_constants data /\
  chain_log compile order fuel g data ws s = Ret ([], None, ([], inr h)) /\ h <> NoFuel /\ chain_log compile order' fuel g' data ws s = Ret ([], None, ([line], inl t)).
Proof.
  exists (engine ascii_digit), ex_first, ex_second, (build_grammar ex_first), (build_grammar ex_second), (grammar_of (build_grammar ex_first)), (grammar_of (build_grammar ex_second)), (rules_of (build_grammar ex_first)).
  exists (elements (productions (grammar_of (build_grammar ex_first)))), (elements (productions (grammar_of (build_grammar ex_second)))), 1000, 5, (lit "ad"). eexists _, _, _.
  split; [apply c101_appended; [done|done|]|].
  { intros n Hn. change (parser_rule_names _) with [lit "n"] in Hn. apply elem_of_list_singleton in Hn as ->. apply (bool_decide_unpack _). by vm_compute. }
  split; [apply build_grammar_tree; by vm_compute|]. split; [apply build_grammar_tree; by vm_compute|].
  split; [apply proper_computed; by vm_compute|]. split; [apply loaded_ret; by vm_compute|].
  split. { assert (rules_of (build_grammar ex_first) = rules_of (build_grammar ex_second)) as -> by (by vm_compute). apply loaded_ret; by vm_compute. }
  split; [apply no_collision_computed; by vm_compute|]. split; [apply no_collision_computed; by vm_compute|]. split; [apply ll1_computed; by vm_compute|].
  split; [unfold iteration_order; reflexivity|]. split; [unfold iteration_order; reflexivity|].
  split; [apply (bool_decide_unpack _); by vm_compute|].
  split; [by vm_compute|]. split; [done|by vm_compute].
Qed.

(** For files:  ab:Xy*;Xy:/x/;  and  ab:Xy*;cd:Xy*;Xy:/x/;  *)
Lemma ex_c101_text : grammar_tokens ex_once ex_once_tokens /\ written ex_once_tokens ex_once_text /\
  grammar_tokens ex_added ex_added_tokens /\ written ex_added_tokens (lit "ab:Xy*;cd:Xy*;Xy:/x/;") /\ new_rules ex_once ex_added /\
  proper ex_added /\ references_defined ex_once /\ references_defined ex_added /\ tokens_apart ex_added /\ parser_rule_names ex_once <> [].
Proof.
  destruct ex_c99_text as (H1 & H2 & H3 & H4 & H5 & H6). do 4 (split; [done|]). split; [|exact H6]. split; [exact H5|]. intros n alt Hn (alts & Hr & Ha).
  change (parser_rule_names ex_once) with [lit "ab"] in Hn. apply elem_of_list_singleton in Hn as ->.
  exists alts. split; [|done]. unfold ex_added in Hr. rewrite !elem_of_cons in Hr. destruct Hr as [[= ->]|[Hr|[Hr|Hr]]]; [by left| | |by apply elem_of_nil in Hr]; by inversion Hr.
Qed.
