(** PropertiesEbnf.v -- C31, C40, C41, C42: from EBNF to productions. Statement vocabulary: SpecEbnf.v,
    SpecGrammar.v. *)
From Verif Require Import EbnfRefuted.

(** C40: each rule derives exactly the token sequences its definition matches. *)
Theorem C40_language G r g data name id w :
  grammar_tree G r -> proper G -> load_tree r = Ret (g, data) -> no_collision (g_vocabulary g) G ->
  get_nonterminal_id_by_name (g_vocabulary g) name = Some id ->
  derives (productions g) [NT id] (map T w) <->
  exists names, Forall2 (fun n i => get_terminal_id_by_name (g_vocabulary g) n = Some i) names w /\
    matches_atom G (RuleRef name) names.
Proof. exact (c40 G r g data name id w). Qed.
Print Assumptions C40_language.

Example C40_example : grammar_tree ex_grammar ex_tree /\ proper ex_grammar /\
  load_tree ex_tree = Ret (grammar_of ex_tree, rules_of ex_tree) /\ no_collision (g_vocabulary (grammar_of ex_tree)) ex_grammar /\
  matches_atom ex_grammar (RuleRef (lit "s")) [lit "ID"; lit "NUM"].
Proof.
  split; [exact ex_grammar_tree|]. split; [exact ex_proper|]. split; [exact ex_loaded|]. split; [exact ex_no_collision|].
  eapply matches_rule; [apply elem_of_list_here|apply elem_of_list_here|]. constructor.
  apply (matches_cons _ _ _ [lit "ID"] [lit "NUM"]).
  - apply (matches_star_cons _ _ _ [lit "ID"] []); [|constructor]. eapply matches_group; [apply elem_of_list_here|]. constructor.
    apply (matches_cons _ _ _ [lit "ID"] []); [repeat constructor|]. apply (matches_cons _ _ _ [] []); [|constructor]. constructor.
    eapply matches_rule; [apply elem_of_list_here|apply elem_of_list_further, elem_of_list_here|]. constructor.
  - apply (matches_cons _ _ _ [lit "NUM"] []); [|constructor]. apply matches_question_yes.
    eapply matches_rule; [apply elem_of_list_further, elem_of_list_here|apply elem_of_list_further, elem_of_list_here|]. constructor.
    apply (matches_cons _ _ _ [lit "NUM"] []); repeat constructor.
Qed.

(** C41 is false: with [a: X* c*; b: X; c: Y;] token X and rule c both have number 2, so c* becomes X* and the
    sentence Y is lost.  Full statement: C40_language without no_collision; what is true is C40_language. *)
Theorem C41_language_refuted : exists G r g data name id w,
  grammar_tree G r /\ proper G /\ references_defined G /\ load_tree r = Ret (g, data) /\
  get_nonterminal_id_by_name (g_vocabulary g) name = Some id /\
  (exists names, Forall2 (fun n i => get_terminal_id_by_name (g_vocabulary g) n = Some i) names w /\ matches_atom G (RuleRef name) names) /\
  ~ derives (productions g) [NT id] (map T w).
Proof. exact (c41_refuted). Qed.
Print Assumptions C41_language_refuted.

(** C42: building succeeds iff all references are defined and there is no string literal... *)
Theorem C42_returns_iff G r : grammar_tree G r -> proper G -> (exists out, load_tree r = Ret out) <-> references_defined G.
Proof. exact (c42 G r). Qed.
Print Assumptions C42_returns_iff.

Example C42_example : references_defined ex_grammar.
Proof. apply (c42 _ _ ex_grammar_tree ex_proper). eexists. exact ex_loaded. Qed.

(** C42: ... and panics otherwise. *)
Theorem C42_panics_iff G r : grammar_tree G r -> proper G -> load_tree r = Panic <-> ~ references_defined G.
Proof. exact (c42_panics G r). Qed.
Print Assumptions C42_panics_iff.

Example C42_example_panic : load_tree (build_grammar [ParserRule (lit "s") [Sequence [Element (Group [Sequence [Element (RuleRef (lit "t")) None]]) None]]]) = Panic.
Proof. vm_compute. reflexivity. Qed.

(** C31 is false: [s: A+;] has conflicts although [s: A A*;], which matches the same, has none. *)
Theorem C31_plus_refuted : exists G1 r1 g1 d1 G2 r2 g2 d2,
  grammar_tree G1 r1 /\ grammar_tree G2 r2 /\ load_tree r1 = Ret (g1, d1) /\ load_tree r2 = Ret (g2, d2) /\
  G1 = g31_plus /\ G2 = g31_star /\
  (forall w, matches_atom G1 (RuleRef (lit "s")) w <-> matches_atom G2 (RuleRef (lit "s")) w) /\
  ll1 (productions g2) /\ ~ ll1 (productions g1).
Proof. exact (c31_refuted). Qed.
Print Assumptions C31_plus_refuted.

(** C31, in general: every use of + on something that can match a token makes the grammar non-LL(1). *)
Theorem C31_plus_always_conflicts G r g data a b n w :
  grammar_tree G r -> proper G -> load_tree r = Ret (g, data) -> no_collision (g_vocabulary g) G ->
  occurs (Element a (Some (Plus, b))) G -> matches_atom G a (n :: w) -> ~ ll1 (productions g).
Proof. exact (c31_conflict G r g data a b n w). Qed.
Print Assumptions C31_plus_always_conflicts.
