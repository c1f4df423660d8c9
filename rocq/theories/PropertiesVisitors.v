(** PropertiesVisitors.v -- C39, C43, C47, C48: building a grammar from a tree. Statement vocabulary:
    SpecVisitor.v, SpecGrammar.v. *)
From Verif Require Import CollectProofs ExampleTree.

(** C39: whatever tree the passes succeed on, rule i has token type 2+i, vocabulary and rule list agree both ways,
    names are distinct, and there are no other terminals than _START, _STOP and the rules. *)
Theorem C39_numbering r g data : load_tree r = Ret (g, data) ->
  (forall i d, data !! i = Some d ->
     ld_type d = 2 + i /\
     get_terminal_id_by_name (g_vocabulary g) (ld_name d) = Some (ld_type d) /\
     get_terminal_name_by_id (g_vocabulary g) (ld_type d) = Some (ld_name d)) /\
  NoDup (map ld_name data) /\
  (forall id, is_terminal_id (g_vocabulary g) id = true <-> id < 2 + length data) /\
  get_terminal_id_by_name (g_vocabulary g) (lit "_START") = Some 0 /\
  get_terminal_id_by_name (g_vocabulary g) (lit "_STOP") = Some 1.
Proof. exact (c39_numbering r g data). Qed.
Print Assumptions C39_numbering.

Example C39_example : match load_tree ex_tree with
  | Ret (g, data) => map ld_name data = [lit "ID"; lit "NUM"] /\ map ld_type data = [2; 3] /\ size (productions g) = 11
  | _ => False end.
Proof. vm_compute. split_and!; reflexivity. Qed.

(** C39: every token that a lexer generated from the rules scans, whatever its regexes match, has the type
    that the vocabulary gives to its name. *)
Theorem C39_generated_lexer r g data compile txt ts st :
  load_tree r = Ret (g, data) ->
  scanned (scan (generated_lexer compile data txt)) lexer_init ts st ->
  forall t, t ∈ ts ->
    get_terminal_id_by_name (g_vocabulary g) (token_name t) = Some (token_type t) /\
    get_terminal_name_by_id (g_vocabulary g) (token_type t) = Some (token_name t).
Proof. exact (c39_generated r g data compile txt ts st). Qed.
Print Assumptions C39_generated_lexer.

Example C39_example_generated : exists g data ts st, load_tree ex_tree = Ret (g, data) /\
  scanned (scan (generated_lexer (fun _ s => match s with [] => None | _ => Some 1 end) data (lit "a"))) lexer_init ts st /\ ts <> [].
Proof.
  assert (match load_tree ex_tree with Ret (_, data) => data = [LexerRuleData 2 (lit "ID") (lit "^([a-z]+)"); LexerRuleData 3 (lit "NUM") (lit "^([0-9]/[0-9])")] | _ => False end)
    as H by (vm_compute; reflexivity).
  destruct (load_tree ex_tree) as [[g data]| |]; [subst data|done|done]. eexists g, _, _, _. split; [reflexivity|]. split.
  - eapply scanned_cons; [vm_compute; reflexivity|]. apply scanned_nil.
  - done.
Qed.

(** C39: the constants of the generated lexer are exactly the vocabulary's terminals. *)
Theorem C39_constants r g data n k :
  load_tree r = Ret (g, data) -> (n, k) ∈ generated_constants data <-> get_terminal_id_by_name (g_vocabulary g) n = Some k.
Proof. exact (c39_constants r g data n k). Qed.
Print Assumptions C39_constants.

(** C43: all symbols of the productions are defined, different names have different ids, and the generated
    nonterminals are unnamed and above all the named ones. *)
Theorem C43_closed r g data : load_tree r = Ret (g, data) ->
  closed (nonterminals (g_vocabulary g)) (productions g) /\
  (forall p t, p ∈ productions g -> T t ∈ right p -> is_Some (get_terminal_name_by_id (g_vocabulary g) t)) /\
  (forall n1 n2 id, get_nonterminal_id_by_name (g_vocabulary g) n1 = Some id ->
     get_nonterminal_id_by_name (g_vocabulary g) n2 = Some id -> n1 = n2) /\
  (exists k, forall id, is_nonterminal_id (g_vocabulary g) id = true ->
     (id < k <-> is_Some (get_nonterminal_name_by_id (g_vocabulary g) id))) /\
  (nonterminals (g_vocabulary g) <> ∅ -> 0 ∈ nonterminals (g_vocabulary g)) /\
  (productions g <> ∅ -> 0 ∈ nonterminals (g_vocabulary g)).
Proof. exact (c43_closed r g data). Qed.
Print Assumptions C43_closed.

(** C43: so FIRST, printing and (with at least one rule) the table are computed without panic, for every
    iteration order. *)
Theorem C43_analyses_return r g data : load_tree r = Ret (g, data) ->
  (exists n, forall order fuel, iteration_order g order -> n <= fuel ->
     exists first cache, first_set fuel order g = Ret (first, cache)) /\
  (forall order, iteration_order g order -> exists s, display_grammar order g = Ret s) /\
  (nonterminals (g_vocabulary g) <> ∅ -> exists n, forall order fuel, iteration_order g order -> n <= fuel ->
     exists tab w, build_table fuel order g = Ret (tab, w)).
Proof. exact (c43_analyses r g data). Qed.
Print Assumptions C43_analyses_return.

Example C43_example : match load_tree ex_tree with
  | Ret (g, data) => elements (nonterminals (g_vocabulary g)) <> [] /\ length (elements (productions g)) = 11
  | _ => False end.
Proof. vm_compute. split; [intros H; discriminate|reflexivity]. Qed.

(** C47: the entry a new lexer rule contributes; too short literals contribute nothing, and the visit panics exactly
    when the literal does not start and end with one-byte characters. *)
Theorem C47_symbol_visitor ctx s name regular :
  defines ctx name regular -> is_terminal_name_defined (sy_vocabulary s) name = false ->
  (blen regular < 2 -> symbol_visit_lexer_rule ctx s = Ret (tt, s)) /\
  (forall body body', delimited regular body -> unescaped body body' ->
     exists s', symbol_visit_lexer_rule ctx s = Ret (tt, s') /\
       sy_data s' = sy_data s ++ [LexerRuleData (sy_next_token_id s) name (lit "^(" ++ body' ++ lit ")")]) /\
  (symbol_visit_lexer_rule ctx s = Panic <-> 2 <= blen regular /\ ~ exists body, delimited regular body).
Proof. exact (c47_symbol ctx s name regular). Qed.
Print Assumptions C47_symbol_visitor.

Example C47_example : delimited (lit "/[0-9]\/[0-9]/") (lit "[0-9]\/[0-9]") /\ unescaped (lit "[0-9]\/[0-9]") (lit "[0-9]/[0-9]") /\
  defines (build_rule (LexerRule (lit "NUM") (lit "/[0-9]\/[0-9]/"))) (lit "NUM") (lit "/[0-9]\/[0-9]/").
Proof.
  split_and!.
  - by exists 47%N, 47%N.
  - change (lit "[0-9]/[0-9]") with (replace (lit "\/") (lit "/") (lit "[0-9]\/[0-9]")). apply replace_unescaped.
  - do 3 eexists. vm_compute. done.
Qed.

(** C47: the same for the lexer-rule visitor. *)
Theorem C47_lexer_rule_visitor ctx s name regular :
  defines ctx name regular -> name ∉ map ld_name (le_data s) ->
  (blen regular < 2 -> lexer_visit_lexer_rule ctx s = Ret (tt, s)) /\
  (forall body body', delimited regular body -> unescaped body body' ->
     lexer_visit_lexer_rule ctx s = Ret (tt, LexerState
       (le_data s ++ [LexerRuleData (le_next_token_type s) name (lit "^(" ++ body' ++ lit ")")]) (S (le_next_token_type s)))) /\
  (lexer_visit_lexer_rule ctx s = Panic <-> 2 <= blen regular /\ ~ exists body, delimited regular body).
Proof. exact (c47_lexer ctx s name regular). Qed.
Print Assumptions C47_lexer_rule_visitor.

(** C47: every literal has exactly one unescaped form. *)
Theorem C47_unescape_unique s : exists s', unescaped s s' /\ forall s'', unescaped s s'' -> s'' = s'.
Proof. exact (c47_unescape s). Qed.
Print Assumptions C47_unescape_unique.

(** C48: the lexer-rule visitor adds the definitions below a node, first definitions only, in document order,
    numbered without gaps. *)
Theorem C48_lexer_rules r data next s' x :
  visit_children lexer_visitor r (LexerState data next) = Ret (x, s') ->
  exists new, le_data s' = data ++ new /\ le_next_token_type s' = next + length new /\
    (forall i d, new !! i = Some d -> ld_type d = next + i) /\
    Forall2 (fun e d => ld_name d = fst e /\ regex_of (snd e) (ld_regex d))
      (first_occurrences fst (map ld_name data) (omap definition_of (outermost_below (fun i => i =? LEXER_RULE) r))) new.
Proof. exact (c48_lexer_rules r data next s' x). Qed.
Print Assumptions C48_lexer_rules.

Example C48_example : match visit_children lexer_visitor ex_tree (LexerState [] 2) with
  | Ret (_, s) => s = LexerState [LexerRuleData 2 (lit "ID") (lit "^([a-z]+)"); LexerRuleData 3 (lit "NUM") (lit "^([0-9]/[0-9])")] 4
  | _ => False end.
Proof. vm_compute. reflexivity. Qed.

(** C48: and it does so without panic if all lexer rules are well-formed. *)
Theorem C48_lexer_rules_return r data next :
  (forall n, n ∈ outermost_below (fun i => i =? LEXER_RULE) r ->
     exists name regular body, defines n name regular /\ delimited regular body) ->
  exists s', visit_children lexer_visitor r (LexerState data next) = Ret (tt, s').
Proof. exact (c48_lexer_rules_return r data next). Qed.
Print Assumptions C48_lexer_rules_return.

(** C48: the same rules are what load_ast returns. *)
Theorem C48_load_ast r g data : load_tree r = Ret (g, data) ->
  Forall2 (fun e d => ld_name d = fst e /\ regex_of (snd e) (ld_regex d))
    (first_occurrences fst [lit "_START"; lit "_STOP"]
       (omap definition_of (filter (fun n => rule_index n = LEXER_RULE) (outermost_below is_rule_index r)))) data.
Proof. exact (c48_load_tree r g data). Qed.
Print Assumptions C48_load_ast.

(** C48: the string-literal visitor collects each distinct literal once, in order of first occurrence, numbered
    without gaps, and panics exactly when a literal has no delimiters. *)
Theorem C48_string_literals r :
  (forall x s', visit_children strings_visitor r strings_new = Ret (x, s') ->
    st_next_token_type s' = 2 + length (st_data s') /\
    (forall i d, st_data s' !! i = Some d -> ld_type d = 2 + i /\ ld_name d = lit "T_" ++ usize_to_string (2 + i)) /\
    length (st_data s') = length (first_occurrences id [] (literal_texts r)) /\
    forall i d l, st_data s' !! i = Some d -> first_occurrences id [] (literal_texts r) !! i = Some l ->
      exists body, delimited l body /\ ld_regex d = lit "^(" ++ literal_regex body ++ lit ")") /\
  (visit_children strings_visitor r strings_new <> OutOfFuel) /\
  (visit_children strings_visitor r strings_new = Panic <-> exists l, l ∈ literal_texts r /\ ~ exists body, delimited l body).
Proof. exact (c48_strings r). Qed.
Print Assumptions C48_string_literals.

Example C48_example_strings : match visit_children strings_visitor
    (build_grammar [ParserRule (lit "s") [Sequence [Element (StringLiteral (lit "'a'")) None; Element (StringLiteral (lit "'b'")) None; Element (StringLiteral (lit "'a'")) None]]]) strings_new with
  | Ret (_, s) => map ld_regex (st_data s) = [lit "^(a)"; lit "^(b)"]
  | _ => False end.
Proof. vm_compute. reflexivity. Qed.
