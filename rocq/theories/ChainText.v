(** ChainText.v -- C85 from the text of a grammar to the parse of a text. *)
From Verif Require Export ChainMain SameMain.

Lemma c85_text nd g d order G ts0 s0 name :
  digits_ok nd -> load_ast syntaxis2_json = Ret (g, d) -> iteration_order g order ->
  grammar_tokens G ts0 -> written ts0 s0 -> proper G -> references_defined G -> head (parser_rule_names G) = Some name ->
  exists r n g' data, (forall fuel, n <= fuel -> main_run nd order fuel syntaxis2_json s0 = Ret (r, [], None, [])) /\
    load_tree (retype_rule hand_type r) = Ret (g', data) /\
    (no_collision (g_vocabulary g') G -> ll1 (productions g') -> forall compile rules order' ws s ts,
       iteration_order g' order' -> engine_ok compile -> compiled compile G rules -> (lit "WHITE_SPACE", ws) ∈ generated_constants data ->
       tokenized rules s ts ->
       (exists t n, (forall fuel, n <= fuel -> chain_run compile order' fuel g' data ws s = Ret (t, [], None, [])) /\
          tree_of (g_vocabulary g') G name t /\ map (fun t => (token_name t, text t)) (rule_leaves t) = visible ts) <->
       matches_atom G (RuleRef name) (map fst (visible ts))).
Proof.
  intros Hnd Hl Ho HG Hw Hp Hr Hh. destruct (c44_complete nd g d order G ts0 s0 Hnd Hl Ho HG Hw) as (r & HT & n & Hn).
  destruct (proj2 (c42 G (retype_rule hand_type r) HT Hp) Hr) as [[g' data] Hload].
  exists r, n, g', data. split; [exact Hn|]. split; [exact Hload|].
  intros Hnc Hll compile rules order' ws s ts Ho' He Hc Hws Hts.
  exact (c85_accepts_all compile G _ g' data name rules order' ws s ts HT Hp Hload Hnc Hh Ho' He Hc Hws Hll Hts).
Qed.

Definition ex_sum_text : str := lit "sum: Num (Plus Num)*;Num: /[0-9]+/;Plus: /\+/;WHITE_SPACE: /[ ]+/;".
Definition ex_sum_grammar_tokens : list (nat * str) :=
  [(2, lit "sum"); (4, lit ":"); (3, lit "Num"); (11, lit "("); (3, lit "Plus"); (3, lit "Num"); (12, lit ")"); (8, lit "*"); (5, lit ";");
   (3, lit "Num"); (4, lit ":"); (14, lit "/[0-9]+/"); (5, lit ";");
   (3, lit "Plus"); (4, lit ":"); (14, lit "/\+/"); (5, lit ";");
   (3, lit "WHITE_SPACE"); (4, lit ":"); (14, lit "/[ ]+/"); (5, lit ";")].
Lemma ex_sum_is_written : written ex_sum_grammar_tokens ex_sum_text.
Proof. apply written_computed; [apply Nat.leb_le; reflexivity|vm_compute; reflexivity]. Qed.
Lemma ex_sum_is_grammar : grammar_tokens ex_sum ex_sum_grammar_tokens.
Proof.
  exists [take 9 ex_sum_grammar_tokens; take 4 (drop 9 ex_sum_grammar_tokens); take 4 (drop 13 ex_sum_grammar_tokens); drop 17 ex_sum_grammar_tokens].
  split; [|reflexivity]. constructor; [|constructor; [|constructor; [|constructor; [|constructor]]]].
  - refine (rule_tokens_parser (lit "sum") _ (lit ":") [(3, lit "Num"); (11, lit "("); (3, lit "Plus"); (3, lit "Num"); (12, lit ")"); (8, lit "*")] (lit ";") _).
    do 2 constructor. refine (elements_tokens_more _ [(3, lit "Num")] _ [(11, lit "("); (3, lit "Plus"); (3, lit "Num"); (12, lit ")"); (8, lit "*")] _ _).
    + refine (element_tokens_intro _ _ [(3, lit "Num")] [] _ _); constructor.
    + constructor. refine (element_tokens_intro _ _ [(11, lit "("); (3, lit "Plus"); (3, lit "Num"); (12, lit ")")] [(8, lit "*")] _ _);
        [|exact (suffix_tokens_greedy Star (lit "*"))].
      refine (atom_tokens_group _ (lit "(") [(3, lit "Plus"); (3, lit "Num")] (lit ")") _). do 2 constructor.
      refine (elements_tokens_more _ [(3, lit "Plus")] _ [(3, lit "Num")] _ _); [|constructor];
        refine (element_tokens_intro _ _ [_] [] _ _); constructor.
  - exact (rule_tokens_lexer (lit "Num") (lit "/[0-9]+/") (lit ":") (lit ";")).
  - exact (rule_tokens_lexer (lit "Plus") (lit "/\+/") (lit ":") (lit ";")).
  - exact (rule_tokens_lexer (lit "WHITE_SPACE") (lit "/[ ]+/") (lit ":") (lit ";")).
Qed.
Lemma ex_sum_defined : references_defined ex_sum.
Proof. apply (proj1 (c42 ex_sum ex_sum_tree (proj1 ex_sum_hyps) (proj1 (proj2 ex_sum_hyps)))). eexists. exact ex_sum_loaded. Qed.
