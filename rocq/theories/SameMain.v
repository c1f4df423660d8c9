(** SameMain.v -- C84 for texts, and examples for C83 and C84. *)
From Verif Require Export SameProofs ForestProofs BootstrapProofs.

Lemma c84_text nd g d order G ts s G' ts' s' :
  digits_ok nd -> load_ast syntaxis2_json = Ret (g, d) -> iteration_order g order ->
  grammar_tokens G ts -> written ts s -> grammar_tokens G' ts' -> written ts' s' -> map plain_rule G = map plain_rule G' ->
  exists r r' n, (forall fuel, n <= fuel -> main_run nd order fuel syntaxis2_json s = Ret (r, [], None, []) /\
                                      main_run nd order fuel syntaxis2_json s' = Ret (r', [], None, [])) /\
    load_tree (retype_rule hand_type r) = load_tree (retype_rule hand_type r').
Proof.
  intros Hnd Hl Ho HG Hw HG' Hw' E.
  destruct (c44_complete nd g d order G ts s Hnd Hl Ho HG Hw) as (r & HT & n & Hn).
  destruct (c44_complete nd g d order G' ts' s' Hnd Hl Ho HG' Hw') as (r' & HT' & n' & Hn').
  exists r, r', (n `max` n'). split.
  - intros fuel Hf. split; [apply Hn; lia|apply Hn'; lia].
  - exact (c84_load _ _ _ _ HT HT' E).
Qed.

(** The same grammar written twice. *)
Definition ex_once : list rule := [ParserRule (lit "ab") [Sequence [Element (TokenRef (lit "Xy")) (Some (Star, false))]]; LexerRule (lit "Xy") (lit "/x/")].
Definition ex_again : list rule := [ParserRule (lit "ab") [Sequence [Element (TokenRef (lit "Xy")) (Some (Star, true))]]; LexerRule (lit "Xy") (lit "/x/")].
Definition ex_once_tokens : list (nat * str) :=
  [(2, lit "ab"); (4, lit ":"); (3, lit "Xy"); (8, lit "*"); (5, lit ";"); (3, lit "Xy"); (4, lit ":"); (14, lit "/x/"); (5, lit ";")].
Definition ex_again_tokens : list (nat * str) :=
  [(2, lit "ab"); (4, lit "::="); (3, lit "Xy"); (8, lit "*"); (10, lit "?"); (5, lit ";"); (3, lit "Xy"); (4, lit ":"); (14, lit "/x/"); (5, lit ";")].
Definition ex_once_text : str := lit "ab:Xy*;Xy:/x/;".
Definition ex_again_text : str := lit "ab ::= Xy *? ;  Xy : /x/ ;".
Lemma ex_once_grammar_tokens : grammar_tokens ex_once ex_once_tokens.
Proof.
  exists [take 5 ex_once_tokens; drop 5 ex_once_tokens]. split; [|reflexivity]. constructor; [|constructor; [|constructor]].
  - refine (rule_tokens_parser (lit "ab") _ (lit ":") [(3, lit "Xy"); (8, lit "*")] (lit ";") _). do 3 constructor.
    refine (element_tokens_intro _ _ [(3, lit "Xy")] [(8, lit "*")] _ _); [constructor|]. exact (suffix_tokens_greedy Star (lit "*")).
  - exact (rule_tokens_lexer (lit "Xy") (lit "/x/") (lit ":") (lit ";")).
Qed.
Lemma ex_again_grammar_tokens : grammar_tokens ex_again ex_again_tokens.
Proof.
  exists [take 6 ex_again_tokens; drop 6 ex_again_tokens]. split; [|reflexivity]. constructor; [|constructor; [|constructor]].
  - refine (rule_tokens_parser (lit "ab") _ (lit "::=") [(3, lit "Xy"); (8, lit "*"); (10, lit "?")] (lit ";") _). do 3 constructor.
    refine (element_tokens_intro _ _ [(3, lit "Xy")] [(8, lit "*"); (10, lit "?")] _ _); [constructor|]. exact (suffix_tokens_lazy Star (lit "*") (lit "?")).
  - exact (rule_tokens_lexer (lit "Xy") (lit "/x/") (lit ":") (lit ";")).
Qed.
Lemma written_computed input tokens : length input <= 98 ->
  match scan_all (LexerCfg input (map (find_at0 ascii_digit) v1_res) v1_names) 15 0 100 lexer_init with
    | Ret (toks, None) => match last toks with
        | Some s => bool_decide (token_type s = 1 /\ token_name s = lit "_STOP") &&
                    bool_decide (map (fun t => (token_type t, text t)) (removelast toks) = tokens)
        | None => false end
    | _ => false end = true -> written tokens input.
Proof.
  intros Hlen H.
  destruct (c13_all ascii_digit input 100 ascii_digit_ok) as (c & Hc & Hiff & _); [lia|].
  rewrite v1_new in Hc. injection Hc as <-. apply Hiff. clear Hiff.
  destruct (scan_all _ 15 0 100 lexer_init) as [[toks [|]]| |]; try discriminate H.
  destruct (last toks) as [s|] eqn:E; [|discriminate H]. apply andb_prop in H as [H1 H2].
  apply bool_decide_eq_true in H1. apply bool_decide_eq_true in H2. apply last_Some in E as [l ->].
  rewrite removelast_last in H2. exists l, s. split; [reflexivity|]. split; [exact H1|exact H2].
Qed.
Lemma ex_once_written : written ex_once_tokens ex_once_text.
Proof. apply written_computed; [apply Nat.leb_le; reflexivity|vm_compute; reflexivity]. Qed.
Lemma ex_again_written : written ex_again_tokens ex_again_text.
Proof. apply written_computed; [apply Nat.leb_le; reflexivity|vm_compute; reflexivity]. Qed.
Lemma ex_same : grammar_tree ex_once (build_grammar ex_once) /\ grammar_tree ex_again (build_grammar ex_again) /\
  map plain_rule ex_once = map plain_rule ex_again /\ build_grammar ex_once <> build_grammar ex_again /\ loaded (build_grammar ex_once) = true.
Proof. split; [by apply build_grammar_tree|]. split; [by apply build_grammar_tree|]. split; [done|]. split; [by vm_compute|by vm_compute]. Qed.
Lemma ex_all_clash : grammar_tree g41 (build_grammar g41) /\ proper g41 /\ load_tree (build_grammar g41) = Ret (grammar_of (build_grammar g41), rules_of (build_grammar g41)) /\
  (size (productions (grammar_of (build_grammar g41))) =? 5) = true.
Proof. split; [by apply build_grammar_tree|]. split; [apply proper_computed; by vm_compute|]. split; [apply loaded_ret; by vm_compute|by vm_compute]. Qed.
Lemma ex_c83 : (grammar_tree ex_list ex_list_tree /\ proper ex_list /\ load_tree ex_list_tree = Ret (ex_list_g, rules_of ex_list_tree) /\
  no_collision (g_vocabulary ex_list_g) ex_list) /\ (size (productions ex_list_g) =? 10) = true.
Proof. split; [split; [exact ex_list_grammar_tree|]; split; [exact ex_list_proper|]; split; [exact ex_list_loaded|exact ex_list_no_collision]|by vm_compute]. Qed.
