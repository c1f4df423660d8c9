(** MixedMain.v -- C96 for texts; a case that needs the hypothesis; a concrete case. *)
From Verif Require Export MixedProofs SameMain.

Lemma c96_text nd g d order G ts s G' ts' s' :
  digits_ok nd -> load_ast syntaxis2_json = Ret (g, d) -> iteration_order g order ->
  grammar_tokens G ts -> written ts s -> grammar_tokens G' ts' -> written ts' s' -> mixed G G' ->
  exists r r' n, (forall fuel, n <= fuel -> main_run nd order fuel syntaxis2_json s = Ret (r, [], None, []) /\
                                      main_run nd order fuel syntaxis2_json s' = Ret (r', [], None, [])) /\
    load_tree (retype_rule hand_type r) = load_tree (retype_rule hand_type r').
Proof.
  intros Hnd Hl Ho HG Hw HG' Hw' E.
  destruct (c44_complete nd g d order G ts s Hnd Hl Ho HG Hw) as (r & HT & n & Hn).
  destruct (c44_complete nd g d order G' ts' s' Hnd Hl Ho HG' Hw') as (r' & HT' & n' & Hn').
  exists r, r', (n `max` n'). split.
  - intros fuel Hf. split; [apply Hn; lia|apply Hn'; lia].
  - apply (c96_load _ _ _ _ HT HT' E). by destruct (written_proper _ _ _ HG Hw).
Qed.

(** A parser rule with the name of a token, before it and after it. *)
Definition ex_before : list rule := [ParserRule (lit "X") [Sequence [Element (TokenRef (lit "X")) None]]; LexerRule (lit "X") (lit "/x/")].
Definition ex_after : list rule := [LexerRule (lit "X") (lit "/x/"); ParserRule (lit "X") [Sequence [Element (TokenRef (lit "X")) None]]].
Lemma c96_needed : exists G r G' r', grammar_tree G r /\ grammar_tree G' r' /\ mixed G G' /\ load_tree r <> load_tree r'.
Proof.
  exists ex_before, (build_grammar ex_before), ex_after, (build_grammar ex_after).
  split; [by apply build_grammar_tree|]. split; [by apply build_grammar_tree|]. split; [split; reflexivity|].
  assert (loaded (build_grammar ex_before) <> loaded (build_grammar ex_after)) as H by by vm_compute.
  intros E. apply H. unfold loaded. by rewrite E.
Qed.

Definition ex_moved : list rule := [LexerRule (lit "Xy") (lit "/x/"); ParserRule (lit "ab") [Sequence [Element (TokenRef (lit "Xy")) (Some (Star, false))]]].
Definition ex_moved_tokens : list (nat * str) :=
  [(3, lit "Xy"); (4, lit ":"); (14, lit "/x/"); (5, lit ";"); (2, lit "ab"); (4, lit ":"); (3, lit "Xy"); (8, lit "*"); (5, lit ";")].
Lemma ex_moved_grammar_tokens : grammar_tokens ex_moved ex_moved_tokens.
Proof.
  exists [take 4 ex_moved_tokens; drop 4 ex_moved_tokens]. split; [|reflexivity]. constructor; [|constructor; [|constructor]].
  - exact (rule_tokens_lexer (lit "Xy") (lit "/x/") (lit ":") (lit ";")).
  - refine (rule_tokens_parser (lit "ab") _ (lit ":") [(3, lit "Xy"); (8, lit "*")] (lit ";") _). do 3 constructor.
    refine (element_tokens_intro _ _ [(3, lit "Xy")] [(8, lit "*")] _ _); [constructor|]. exact (suffix_tokens_greedy Star (lit "*")).
Qed.
Lemma ex_moved_written : written ex_moved_tokens (lit "Xy:/x/;ab:Xy*;").
Proof. apply written_computed; [apply Nat.leb_le; reflexivity|vm_compute; reflexivity]. Qed.
Lemma ex_c96 : grammar_tree ex_again (build_grammar ex_again) /\ grammar_tree ex_moved (build_grammar ex_moved) /\ mixed ex_again ex_moved /\
  (forall n, n ∈ parser_rule_names ex_again -> n ∉ terminal_names ex_again) /\ loaded (build_grammar ex_again) = true.
Proof.
  split; [by apply build_grammar_tree|]. split; [by apply build_grammar_tree|]. split; [split; reflexivity|]. split; [|by vm_compute].
  intros n Hn. change (parser_rule_names ex_again) with [lit "ab"] in Hn. apply elem_of_list_singleton in Hn as ->.
  apply (bool_decide_unpack _). vm_compute. exact I.
Qed.
