(** PropertiesClash.v -- C41: the language of every grammar that loads, clashes of numbers included.  Statement vocabulary:
    SpecClash.v, SpecEbnf.v, SpecGrammar.v. *)
From Verif Require Import EbnfClashMain.

(** C41, exactly: tokens, rules and groups have numbers, those of tokens and rules being the ones in the vocabulary and those of groups
    belonging to nonterminals without a name; and each rule and each group derives what its definition matches when every operand of a suffix
    operator stands for the first operand of that operator with the same number. *)
Theorem C41_read G r g data :
  grammar_tree G r -> proper G -> load_tree r = Ret (g, data) ->
  exists number : atom -> nat,
    (forall n t, get_terminal_id_by_name (g_vocabulary g) n = Some t -> number (TokenRef n) = t) /\
    (forall n i, get_nonterminal_id_by_name (g_vocabulary g) n = Some i -> number (RuleRef n) = i) /\
    (forall alts sx, occurs (Element (Group alts) sx) G ->
       is_nonterminal_id (g_vocabulary g) (number (Group alts)) = true /\
       get_nonterminal_name_by_id (g_vocabulary g) (number (Group alts)) = None) /\
    forall a w, (exists sx, occurs (Element a sx) G) \/ (exists n, a = RuleRef n /\ is_Some (get_nonterminal_id_by_name (g_vocabulary g) n)) ->
      derives (productions g) [match a with TokenRef _ => T (number a) | _ => NT (number a) end] (map T w) <->
      exists names, Forall2 (fun n i => get_terminal_id_by_name (g_vocabulary g) n = Some i) names w /\
        reads_atom G (first_operand number G) a names.
Proof. exact (c41_exact G r g data). Qed.
Print Assumptions C41_read.

Example C41_example : grammar_tree g41 (build_grammar g41) /\ proper g41 /\
  load_tree (build_grammar g41) = Ret (grammar_of (build_grammar g41), rules_of (build_grammar g41)) /\
  forall number, number (TokenRef (lit "X")) = 2 -> number (RuleRef (lit "c")) = 2 ->
    first_operand number g41 Star (RuleRef (lit "c")) = TokenRef (lit "X").
Proof. split; [exact (proj1 g41_meets)|]. split; [exact (proj1 (proj2 g41_meets))|]. split; [exact (proj2 (proj2 g41_meets))|exact g41_clash]. Qed.

(** C41, what is true and can be seen from the grammar alone: if no operator is applied both to a token and to something else, each rule
    derives exactly what its definition matches. *)
Theorem C41_language_partial G r g data name id w :
  grammar_tree G r -> proper G -> load_tree r = Ret (g, data) -> tokens_apart G ->
  get_nonterminal_id_by_name (g_vocabulary g) name = Some id ->
  derives (productions g) [NT id] (map T w) <->
  exists names, Forall2 (fun n i => get_terminal_id_by_name (g_vocabulary g) n = Some i) names w /\
    matches_atom G (RuleRef name) names.
Proof. exact (c41_apart G r g data name id w). Qed.
Print Assumptions C41_language_partial.

Example C41_example_apart : tokens_apart ex_grammar.
Proof. exact ex_apart. Qed.
