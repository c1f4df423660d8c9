(** MoreMain.v -- C99: texts and concrete cases. *)
From Verif Require Export MoreProofs.

Lemma c99_appended G G2 : lexer_rules_of G2 = [] -> parser_rule_names G <> [] -> more_alternatives G (G ++ G2).
Proof.
  intros H2 Hne. split_and!.
  - intros n alt (alts & ? & ?). exists alts. split; [set_solver|done].
  - intros n [alts ?]%rule_names_in. apply rule_names_in. exists alts. set_solver.
  - unfold lexer_rules_of in *. rewrite omap_app, H2. by rewrite app_nil_r.
  - unfold parser_rule_names in *. rewrite omap_app. by destruct (omap _ G).
Qed.

Lemma c99_text nd g d order G ts s G' ts' s' :
  digits_ok nd -> load_ast syntaxis2_json = Ret (g, d) -> iteration_order g order ->
  grammar_tokens G ts -> written ts s -> grammar_tokens G' ts' -> written ts' s' -> more_alternatives G G' ->
  proper G' -> references_defined G -> references_defined G' -> tokens_apart G' -> parser_rule_names G <> [] ->
  exists r r' n g1 g2 data, (forall fuel, n <= fuel -> main_run nd order fuel syntaxis2_json s = Ret (r, [], None, []) /\
                                              main_run nd order fuel syntaxis2_json s' = Ret (r', [], None, [])) /\
    load_tree (retype_rule hand_type r) = Ret (g1, data) /\ load_tree (retype_rule hand_type r') = Ret (g2, data) /\
    (ll1 (productions g2) -> forall compile order1 order2 ws text, iteration_order g1 order1 -> iteration_order g2 order2 ->
       exists m, forall fuel, m <= fuel -> kept_outcome (chain_log compile order1 fuel g1 data ws text) (chain_log compile order2 fuel g2 data ws text)).
Proof.
  intros Hnd Hl Ho HG Hw HG' Hw' E Hp' Hd Hd' Ha' Hne. pose proof (less_proper _ _ E Hp') as Hp.
  destruct (c44_complete nd g d order G ts s Hnd Hl Ho HG Hw) as (r & HT & n & Hn).
  destruct (c44_complete nd g d order G' ts' s' Hnd Hl Ho HG' Hw') as (r' & HT' & n' & Hn').
  assert (Ha : tokens_apart G) by (intros k b b' m a O1 O2; by eapply (Ha' k b b' m a); apply (more_occurs _ _ E)).
  destruct (proj2 (c42 _ _ HT Hp) Hd) as [[g1 data] L1]. destruct (proj2 (c42 _ _ HT' Hp') Hd') as [[g2 data'] L2].
  destruct (c99_data _ _ _ _ _ _ _ _ E HT HT' Hp' L1 L2) as [<- _].
  exists r, r', (n `max` n'), g1, g2, data. split; [intros fuel Hf; split; [apply Hn; lia|apply Hn'; lia]|]. split; [done|]. split; [done|].
  pose proof (tokens_apart_no_collision (g_vocabulary g1) _ Ha) as N1. pose proof (tokens_apart_no_collision (g_vocabulary g2) _ Ha') as N2.
  intros Hll compile o1 o2 ws text O1 O2. exact (c99_chain _ _ _ _ _ _ _ _ E HT HT' Hp' L1 L2 N1 N2 compile o1 o2 ws text Hne Hll O1 O2).
Qed.

(** The calculator gets signs: factor: Plus signed;  signed: (L R)? Num;  an alternative more for an old rule and a new rule. *)
Definition ex_sign : list rule := [ParserRule (lit "factor") [Sequence [ref "Plus"; Element (RuleRef (lit "signed")) None]];
  ParserRule (lit "signed") [Sequence [Element (Group [Sequence [ref "L"; ref "R"]]) (Some (Question, false)); ref "Num"]]].
Definition ex_calc4 : list rule := ex_calc ++ ex_sign.
Lemma ex_c99 : more_alternatives ex_calc ex_calc4 /\ grammar_tree ex_calc (build_grammar ex_calc) /\ grammar_tree ex_calc4 (build_grammar ex_calc4) /\ proper ex_calc4 /\
  load_tree (build_grammar ex_calc) = Ret (grammar_of (build_grammar ex_calc), rules_of (build_grammar ex_calc)) /\
  load_tree (build_grammar ex_calc4) = Ret (grammar_of (build_grammar ex_calc4), rules_of (build_grammar ex_calc4)) /\
  no_collision (g_vocabulary (grammar_of (build_grammar ex_calc))) ex_calc /\ no_collision (g_vocabulary (grammar_of (build_grammar ex_calc4))) ex_calc4 /\
  parser_rule_names ex_calc <> [] /\ ll1 (productions (grammar_of (build_grammar ex_calc4))) /\ ~ productions (grammar_of (build_grammar ex_calc)) ⊆ productions (grammar_of (build_grammar ex_calc4)).
Proof.
  split; [by apply c99_appended|]. split; [apply build_grammar_tree; by vm_compute|]. split; [apply build_grammar_tree; by vm_compute|].
  split; [apply proper_computed; by vm_compute|]. split; [apply loaded_ret; by vm_compute|]. split; [apply loaded_ret; by vm_compute|].
  split; [apply no_collision_computed; by vm_compute|]. split; [apply no_collision_computed; by vm_compute|]. split; [done|].
  split; [apply ll1_computed; by vm_compute|]. apply (bool_decide_unpack _). vm_compute. exact I.
Qed.
(** The old run on 1+2 is kept; +1, a panic before, now has a tree. *)
Definition run_of (G : list rule) (s : str) := chain_log (engine ascii_digit) (elements (productions (grammar_of (build_grammar G)))) 1000 (grammar_of (build_grammar G)) (rules_of (build_grammar G)) 7 s.
Lemma ex_c99_run : (exists t, run_of ex_calc (lit "1+2") = Ret ([], None, ([], inl t))) /\ (exists t, run_of ex_calc4 (lit "1+2") = Ret ([], None, ([], inl t))) /\
  run_of ex_calc (lit "+1") = Ret ([], None, ([], inr (NoEntry 0 0))) /\ (exists t, run_of ex_calc4 (lit "+1") = Ret ([], None, ([], inl t))).
Proof. split; [eexists; by vm_compute|]. split; [eexists; by vm_compute|]. split; [by vm_compute|]. eexists; by vm_compute. Qed.

(** s: X;  t: Y;  and then s: X t;  as well: no longer LL(1), and x, accepted before, panics for one iteration order. *)
Definition ex_short : list rule := [ParserRule (lit "s") [Sequence [ref "X"]]; ParserRule (lit "t") [Sequence [ref "Y"]]; LexerRule (lit "X") (lit "/x/"); LexerRule (lit "Y") (lit "/y/")].
Definition ex_long : list rule := ex_short ++ [ParserRule (lit "s") [Sequence [ref "X"; Element (RuleRef (lit "t")) None]]].
Definition g_short := grammar_of (build_grammar ex_short).
Definition g_long := grammar_of (build_grammar ex_long).
Lemma c99_ll1_needed : exists compile G G' r r' g g' data data' order order' fuel ws s t,
  more_alternatives G G' /\ grammar_tree G r /\ grammar_tree G' r' /\ proper G' /\ load_tree r = Ret (g, data) /\ load_tree r' = Ret (g', data') /\
  no_collision (g_vocabulary g) G /\ no_collision (g_vocabulary g') G' /\ iteration_order g order /\ iteration_order g' order' /\
  chain_log compile order fuel g data ws s = Ret ([], None, ([], inl t)) /\
  exists w h, chain_log compile order' fuel g' data' ws s = Ret (w, None, ([], inr h)) /\ h <> NoFuel.
Proof.
  exists (engine ascii_digit), ex_short, ex_long, (build_grammar ex_short), (build_grammar ex_long), g_short, g_long, (rules_of (build_grammar ex_short)), (rules_of (build_grammar ex_long)).
  exists (elements (productions g_short)), (rev (elements (productions g_long))), 1000, 9, (lit "x"). eexists.
  split; [by apply c99_appended|]. split; [apply build_grammar_tree; by vm_compute|]. split; [apply build_grammar_tree; by vm_compute|].
  split; [apply proper_computed; by vm_compute|]. split; [apply loaded_ret; by vm_compute|]. split; [apply loaded_ret; by vm_compute|].
  split; [apply no_collision_computed; by vm_compute|]. split; [apply no_collision_computed; by vm_compute|].
  split; [unfold iteration_order; reflexivity|]. split; [unfold iteration_order; symmetry; apply Permutation_rev|].
  split; [by vm_compute|]. eexists _, _. split; [by vm_compute|done].
Qed.

(** For files:  ab:Xy*;Xy:/x/;  and  ab:Xy*;cd:Xy*;Xy:/x/;  *)
Definition ex_added : list rule := [ParserRule (lit "ab") [Sequence [Element (TokenRef (lit "Xy")) (Some (Star, false))]]; ParserRule (lit "cd") [Sequence [Element (TokenRef (lit "Xy")) (Some (Star, false))]]; LexerRule (lit "Xy") (lit "/x/")].
Definition ex_added_tokens : list (nat * str) := take 5 ex_once_tokens ++ (2, lit "cd") :: drop 1 ex_once_tokens.
Lemma ex_c99_text : grammar_tokens ex_once ex_once_tokens /\ written ex_once_tokens ex_once_text /\
  grammar_tokens ex_added ex_added_tokens /\ written ex_added_tokens (lit "ab:Xy*;cd:Xy*;Xy:/x/;") /\ more_alternatives ex_once ex_added /\
  proper ex_added /\ references_defined ex_once /\ references_defined ex_added /\ tokens_apart ex_added /\ parser_rule_names ex_once <> [].
Proof.
  split; [exact ex_once_grammar_tokens|]. split; [exact ex_once_written|]. split.
  { exists [take 5 ex_added_tokens; take 5 (drop 5 ex_added_tokens); drop 10 ex_added_tokens]. split; [|reflexivity]. constructor; [|constructor; [|constructor; [|constructor]]].
    - refine (rule_tokens_parser (lit "ab") _ (lit ":") [(3, lit "Xy"); (8, lit "*")] (lit ";") _). do 3 constructor.
      refine (element_tokens_intro _ _ [(3, lit "Xy")] [(8, lit "*")] _ _); [constructor|]. exact (suffix_tokens_greedy Star (lit "*")).
    - refine (rule_tokens_parser (lit "cd") _ (lit ":") [(3, lit "Xy"); (8, lit "*")] (lit ";") _). do 3 constructor.
      refine (element_tokens_intro _ _ [(3, lit "Xy")] [(8, lit "*")] _ _); [constructor|]. exact (suffix_tokens_greedy Star (lit "*")).
    - exact (rule_tokens_lexer (lit "Xy") (lit "/x/") (lit ":") (lit ";")). }
  split; [apply written_computed; [apply Nat.leb_le; reflexivity|vm_compute; reflexivity]|].
  assert (more_alternatives ex_once ex_added) as Hm.
  { split_and!; [| |reflexivity|reflexivity].
    - intros n alt (alts & Hr & Ha). exists alts. split; [|done]. unfold ex_once, ex_added in *. set_solver.
    - intros n Hn. change (parser_rule_names ex_once) with [lit "ab"] in Hn. change (parser_rule_names ex_added) with [lit "ab"; lit "cd"]. set_solver. }
  split; [exact Hm|]. assert (proper ex_added) as Hp by (apply proper_computed; by vm_compute). split; [exact Hp|].
  split; [apply (c42 ex_once (build_grammar ex_once)); [by apply build_grammar_tree|exact (less_proper _ _ Hm Hp)|eexists; apply loaded_ret; by vm_compute]|].
  split; [apply (c42 ex_added (build_grammar ex_added)); [by apply build_grammar_tree|exact Hp|eexists; apply loaded_ret; by vm_compute]|].
  split; [|done]. intros k b b' n a _ Ho. apply occurs_computed in Ho. change (occurring ex_added) with [Element (TokenRef (lit "Xy")) (Some (Star, false)); Element (TokenRef (lit "Xy")) (Some (Star, false))] in Ho.
  rewrite !elem_of_cons in Ho. destruct Ho as [[= -> -> ->]|[[= -> -> ->]|Ho]]; [eauto|eauto|by apply elem_of_nil in Ho].
Qed.
