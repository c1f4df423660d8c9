(** TokensMain.v -- C100: texts, a sufficient condition and concrete cases. *)
From Verif Require Export TokensProofs.

Lemma c100_load G G' r r' : reordered_tokens G G' -> grammar_tree G r -> grammar_tree G' r' -> proper G ->
  (exists out, load_tree r = Ret out) -> exists out, load_tree r' = Ret out.
Proof.
  intros Hs HT HT' Hp H. apply (c42 _ _ HT Hp) in H as (D1 & D2 & D3). apply (c42 _ _ HT' (retoken_proper _ _ Hs Hp)). split_and!.
  - intros n s Ho. apply (retoken_occurs _ _ Hs), D1 in Ho. unfold terminal_names in *. by rewrite !elem_of_cons, <- (retoken_names _ _ Hs), <- !elem_of_cons.
  - intros n s Ho. apply (retoken_occurs _ _ Hs), D2 in Ho. by apply Hs.
  - intros l s Ho. apply (retoken_occurs _ _ Hs) in Ho. by eapply D3.
Qed.

(** Tokens that start differently never tie. *)
Lemma c100_apart nd data s :
  (forall d d' re re' c x x', d ∈ data -> d' ∈ data -> regex_of_text (ld_regex d) = Some re -> regex_of_text (ld_regex d') = Some re' ->
     lang nd re (c :: x) -> lang nd re' (c :: x') -> ld_name d = ld_name d') ->
  no_ties (generated_lexer (engine nd) data s).
Proof.
  intros H rest r n r' n' e Hr Hr' (L1 & L2 & _) (L1' & _ & _).
  assert (K : forall m k, (m, k) ∈ named_rules (generated_lexer (engine nd) data s) -> m rest = Some e -> exists d re c x y, d ∈ data /\ ld_name d = k /\ regex_of_text (ld_regex d) = Some re /\
    rest = c :: y /\ lang nd re (c :: x)).
  { intros m k Hm Hf. unfold named_rules, generated_lexer in Hm. cbn [regex_list token_names drop] in Hm. apply elem_of_list_lookup in Hm as [i Hi].
    apply lookup_zip_with_Some in Hi as (a & b & [= -> ->] & Ha & Hb). destruct (data !! i) as [d|] eqn:E.
    - assert (a = engine nd (ld_regex d)) as ->.
      { pose proof (list_lookup_fmap (fun t => engine nd (ld_regex t)) data i) as F. rewrite E in F. assert (Some a = Some (engine nd (ld_regex d))) by (etrans; [symmetry; exact Ha|exact F]). congruence. }
      assert (b = ld_name d) as ->.
      { pose proof (list_lookup_fmap ld_name data i) as F. rewrite E in F. assert (Some b = Some (ld_name d)) by (etrans; [symmetry; exact Hb|exact F]). congruence. }
      unfold engine, Regex.compile in Hf. destruct (regex_of_text (ld_regex d)) as [re|] eqn:Er; cbn in Hf; [|done].
      apply find_inv in Hf as (x & y & -> & El & Hx & _). destruct x as [|c x]; [cbn in El; lia|]. exists d, re, c, x, (x ++ y). split_and!; try done. by eapply elem_of_list_lookup_2.
    - exfalso. pose proof (list_lookup_fmap ld_name data i) as F. rewrite E in F. assert (Some b = None) by (etrans; [symmetry; exact Hb|exact F]). done. }
  destruct (K _ _ Hr L1) as (d & re & c & x & y & D1 & <- & D2 & -> & D3). destruct (K _ _ Hr' L1') as (d' & re' & c' & x' & y' & D1' & <- & D2' & [= -> ->] & D3'). by eapply H.
Qed.

Lemma c100_text nd g d order G ts s G' ts' s' :
  digits_ok nd -> load_ast syntaxis2_json = Ret (g, d) -> iteration_order g order ->
  grammar_tokens G ts -> written ts s -> grammar_tokens G' ts' -> written ts' s' -> reordered_tokens G G' ->
  proper G -> references_defined G -> tokens_apart G -> parser_rule_names G <> [] ->
  exists r r' n g1 g2 data data', (forall fuel, n <= fuel -> main_run nd order fuel syntaxis2_json s = Ret (r, [], None, []) /\
                                              main_run nd order fuel syntaxis2_json s' = Ret (r', [], None, [])) /\
    load_tree (retype_rule hand_type r) = Ret (g1, data) /\ load_tree (retype_rule hand_type r') = Ret (g2, data') /\
    (ll1 (productions g1) <-> ll1 (productions g2)) /\
    (ll1 (productions g1) -> forall compile order1 order2 ws ws' text, no_ties (generated_lexer compile data text) ->
       (lit "WHITE_SPACE", ws) ∈ generated_constants data -> (lit "WHITE_SPACE", ws') ∈ generated_constants data' -> iteration_order g1 order1 -> iteration_order g2 order2 ->
       exists m, forall fuel, m <= fuel -> alike (g_vocabulary g1) (g_vocabulary g2) (chain_log compile order1 fuel g1 data ws text) (chain_log compile order2 fuel g2 data' ws' text)).
Proof.
  intros Hnd Hl Ho HG Hw HG' Hw' E Hp Hd Ha Hne. pose proof (retoken_proper _ _ E Hp) as Hp'.
  destruct (c44_complete nd g d order G ts s Hnd Hl Ho HG Hw) as (r & HT & n & Hn).
  destruct (c44_complete nd g d order G' ts' s' Hnd Hl Ho HG' Hw') as (r' & HT' & n' & Hn').
  assert (Ha' : tokens_apart G') by (intros k b b' m a O1 O2; by eapply (Ha k b b' m a); apply (retoken_occurs _ _ E)).
  pose proof (proj2 (c42 _ _ HT Hp) Hd) as Hex. destruct Hex as [[g1 data] L1]. destruct (c100_load _ _ _ _ E HT HT' Hp (ex_intro _ _ L1)) as [[g2 data'] L2].
  exists r, r', (n `max` n'), g1, g2, data, data'. split; [intros fuel Hf; split; [apply Hn; lia|apply Hn'; lia]|]. split; [done|]. split; [done|].
  pose proof (tokens_apart_no_collision (g_vocabulary g1) _ Ha) as N1. pose proof (tokens_apart_no_collision (g_vocabulary g2) _ Ha') as N2.
  split; [exact (c100_ll1 _ _ _ _ _ _ _ _ E HT HT' Hp L1 L2 N1 N2 Hne)|].
  intros Hll compile o1 o2 ws ws' text Ht W W' O1 O2. exact (c100_chain _ _ _ _ _ _ _ _ E HT HT' Hp L1 L2 N1 N2 Hne compile o1 o2 ws ws' text Ht W W' Hll O1 O2).
Qed.

(** The sum again, with its tokens the other way round. *)
Definition ex_sum2 : list rule := take 1 ex_sum ++ rev (drop 1 ex_sum).
Notation tree2 := (build_grammar ex_sum2).
Lemma one_range nd lo hi c : in_class nd false [CRange lo hi] c = true -> (lo <= c /\ c <= hi)%N.
Proof. unfold in_class. rewrite xorb_false_l. cbn [existsb in_item]. rewrite orb_false_r. intros [H1 H2]%andb_true_iff. by apply N.leb_le in H1, H2. Qed.
Lemma ex_sum_no_ties s : no_ties (generated_lexer (engine ascii_digit) (rules_of ex_sum_tree) s).
Proof.
  apply c100_apart. assert (E : exists l, rules_of ex_sum_tree = l) by eauto. destruct E as [l E]. rewrite E. vm_compute in E. subst l.
  intros d d' re re' c x x' Hd Hd' Er Er' L L'. apply lang_first in L, L'.
  repeat (apply elem_of_cons in Hd as [Hd|Hd]); [subst d..|by apply elem_of_nil in Hd]; (repeat (apply elem_of_cons in Hd' as [Hd'|Hd']); [subst d'..|by apply elem_of_nil in Hd']);
    try reflexivity; exfalso; vm_compute in Er, Er'; injection Er as <-; injection Er' as <-; cbn [first_char nullable andb] in L, L';
    rewrite ?orb_false_r in L; rewrite ?orb_false_r in L'; apply one_range in L, L'; lia.
Qed.
Lemma ex_c100 : reordered_tokens ex_sum ex_sum2 /\ grammar_tree ex_sum ex_sum_tree /\ grammar_tree ex_sum2 tree2 /\ proper ex_sum /\
  load_tree ex_sum_tree = Ret (grammar_of ex_sum_tree, rules_of ex_sum_tree) /\ load_tree tree2 = Ret (grammar_of tree2, rules_of tree2) /\
  no_collision (g_vocabulary (grammar_of ex_sum_tree)) ex_sum /\ no_collision (g_vocabulary (grammar_of tree2)) ex_sum2 /\ parser_rule_names ex_sum <> [] /\
  (forall s, no_ties (generated_lexer (engine ascii_digit) (rules_of ex_sum_tree) s)) /\
  (lit "WHITE_SPACE", 4) ∈ generated_constants (rules_of ex_sum_tree) /\ (lit "WHITE_SPACE", 2) ∈ generated_constants (rules_of tree2) /\
  ll1 (productions (grammar_of ex_sum_tree)) /\ productions (grammar_of ex_sum_tree) <> productions (grammar_of tree2).
Proof.
  split; [split_and!; [intros n alt; split; intros (alts & H1 & H2); exists alts; (split; [|done]); revert H1; unfold ex_sum2, ex_sum; cbn; rewrite !elem_of_cons; tauto|done| |apply (bool_decide_unpack _); by vm_compute|done]|].
  { unfold ex_sum2. change (lexer_rules_of ex_sum) with (drop 1 ex_sum). change (lexer_rules_of (take 1 ex_sum ++ rev (drop 1 ex_sum))) with (rev (drop 1 ex_sum)). apply Permutation_rev. }
  split; [apply build_grammar_tree; by vm_compute|]. split; [apply build_grammar_tree; by vm_compute|].
  split; [apply proper_computed; by vm_compute|]. split; [apply loaded_ret; by vm_compute|]. split; [apply loaded_ret; by vm_compute|].
  split; [apply no_collision_computed; by vm_compute|]. split; [apply no_collision_computed; by vm_compute|]. split; [done|].
  split; [exact ex_sum_no_ties|]. split; [apply (bool_decide_unpack _); by vm_compute|]. split; [apply (bool_decide_unpack _); by vm_compute|].
  split; [apply ll1_computed; by vm_compute|]. apply (bool_decide_unpack _). vm_compute. exact I.
Qed.
Definition run_ws (G : list rule) (ws : nat) (s : str) := chain_log (engine ascii_digit) (elements (productions (grammar_of (build_grammar G)))) 1000 (grammar_of (build_grammar G)) (rules_of (build_grammar G)) ws s.
Lemma ex_c100_run : (exists t, run_ws ex_sum 4 (lit "1 + 2") = Ret ([], None, ([], inl t))) /\ (exists t, run_ws ex_sum2 2 (lit "1 + 2") = Ret ([], None, ([], inl t))) /\
  run_ws ex_sum 4 (lit "12 12") = Ret ([], None, ([], inr (NoEntry 1 2))) /\ exists n, run_ws ex_sum2 2 (lit "12 12") = Ret ([], None, ([], inr (NoEntry 1 n))).
Proof. split; [eexists; by vm_compute|]. split; [eexists; by vm_compute|]. split; [by vm_compute|]. eexists; by vm_compute. Qed.

(** s: A;  A and B match the same texts: the first of the two takes them. *)
Definition ex_tie : list rule := [ParserRule (lit "s") [Sequence [ref "A"]]; LexerRule (lit "A") (lit "/x/"); LexerRule (lit "B") (lit "/x/"); LexerRule (lit "WHITE_SPACE") (lit "/[ ]+/")].
Definition ex_tie2 : list rule := [ParserRule (lit "s") [Sequence [ref "A"]]; LexerRule (lit "B") (lit "/x/"); LexerRule (lit "A") (lit "/x/"); LexerRule (lit "WHITE_SPACE") (lit "/[ ]+/")].
Lemma c100_ties_needed : exists compile G G' r r' g g' data data' order order' ws fuel s t h,
  reordered_tokens G G' /\ grammar_tree G r /\ grammar_tree G' r' /\ proper G /\ load_tree r = Ret (g, data) /\ load_tree r' = Ret (g', data') /\
  no_collision (g_vocabulary g) G /\ no_collision (g_vocabulary g') G' /\ ll1 (productions g) /\ iteration_order g order /\ iteration_order g' order' /\
  (lit "WHITE_SPACE", ws) ∈ generated_constants data /\ (lit "WHITE_SPACE", ws) ∈ generated_constants data' /\
  chain_log compile order fuel g data ws s = Ret ([], None, ([], inl t)) /\ chain_log compile order' fuel g' data' ws s = Ret ([], None, ([], inr h)) /\ h <> NoFuel.
Proof.
  exists (engine ascii_digit), ex_tie, ex_tie2, (build_grammar ex_tie), (build_grammar ex_tie2), (grammar_of (build_grammar ex_tie)), (grammar_of (build_grammar ex_tie2)), (rules_of (build_grammar ex_tie)), (rules_of (build_grammar ex_tie2)).
  exists (elements (productions (grammar_of (build_grammar ex_tie)))), (elements (productions (grammar_of (build_grammar ex_tie2)))), 4, 1000, (lit "x"). eexists _, _.
  split; [split_and!; [intros n alt; split; intros (alts & H1 & H2); exists alts; (split; [|done]); revert H1; unfold ex_tie, ex_tie2; rewrite !elem_of_cons; tauto|done| |apply (bool_decide_unpack _); by vm_compute|done]|].
  { apply perm_swap. }
  split; [apply build_grammar_tree; by vm_compute|]. split; [apply build_grammar_tree; by vm_compute|].
  split; [apply proper_computed; by vm_compute|]. split; [apply loaded_ret; by vm_compute|]. split; [apply loaded_ret; by vm_compute|].
  split; [apply no_collision_computed; by vm_compute|]. split; [apply no_collision_computed; by vm_compute|]. split; [apply ll1_computed; by vm_compute|].
  split; [unfold iteration_order; reflexivity|]. split; [unfold iteration_order; reflexivity|].
  split; [apply (bool_decide_unpack _); by vm_compute|]. split; [apply (bool_decide_unpack _); by vm_compute|].
  split; [by vm_compute|]. split; [by vm_compute|done].
Qed.

(** For files:  ab:Xy*;Xy:/x/;WHITE_SPACE:/w/;  and  ab:Xy*;WHITE_SPACE:/w/;Xy:/x/;  *)
Definition ex_white : rule := LexerRule (lit "WHITE_SPACE") (lit "/w/").
Definition ex_last : list rule := ex_once ++ [ex_white].
Definition ex_before : list rule := take 1 ex_once ++ ex_white :: drop 1 ex_once.
Definition ex_white_tokens : list (nat * str) := [(3, lit "WHITE_SPACE"); (4, lit ":"); (14, lit "/w/"); (5, lit ";")].
Definition ex_last_tokens : list (nat * str) := ex_once_tokens ++ ex_white_tokens.
Definition ex_before_tokens : list (nat * str) := take 5 ex_once_tokens ++ ex_white_tokens ++ drop 5 ex_once_tokens.
Lemma ex_c100_text : grammar_tokens ex_last ex_last_tokens /\ written ex_last_tokens (lit "ab:Xy*;Xy:/x/;WHITE_SPACE:/w/;") /\
  grammar_tokens ex_before ex_before_tokens /\ written ex_before_tokens (lit "ab:Xy*;WHITE_SPACE:/w/;Xy:/x/;") /\ reordered_tokens ex_last ex_before /\
  proper ex_last /\ references_defined ex_last /\ tokens_apart ex_last /\ parser_rule_names ex_last <> [].
Proof.
  assert (R1 : rule_tokens (ParserRule (lit "ab") [Sequence [Element (TokenRef (lit "Xy")) (Some (Star, false))]]) (take 5 ex_once_tokens)).
  { refine (rule_tokens_parser (lit "ab") _ (lit ":") [(3, lit "Xy"); (8, lit "*")] (lit ";") _). do 3 constructor.
    refine (element_tokens_intro _ _ [(3, lit "Xy")] [(8, lit "*")] _ _); [constructor|]. exact (suffix_tokens_greedy Star (lit "*")). }
  pose proof (rule_tokens_lexer (lit "Xy") (lit "/x/") (lit ":") (lit ";")) as R2. pose proof (rule_tokens_lexer (lit "WHITE_SPACE") (lit "/w/") (lit ":") (lit ";")) as R3.
  split; [exists [take 5 ex_once_tokens; drop 5 ex_once_tokens; ex_white_tokens]; split; [|reflexivity]; constructor; [exact R1|constructor; [exact R2|constructor; [exact R3|constructor]]]|].
  split; [apply written_computed; [apply Nat.leb_le; reflexivity|vm_compute; reflexivity]|].
  split; [exists [take 5 ex_once_tokens; ex_white_tokens; drop 5 ex_once_tokens]; split; [|reflexivity]; constructor; [exact R1|constructor; [exact R3|constructor; [exact R2|constructor]]]|].
  split; [apply written_computed; [apply Nat.leb_le; reflexivity|vm_compute; reflexivity]|].
  split; [split_and!; [intros n alt; split; intros (alts & H1 & H2); exists alts; (split; [|done]); revert H1; unfold ex_last, ex_before, ex_once; cbn; rewrite !elem_of_cons; tauto|done| |apply (bool_decide_unpack _); by vm_compute|done]; apply perm_swap|].
  assert (proper ex_last) as Hp by (apply proper_computed; by vm_compute). split; [exact Hp|].
  split; [apply (c42 ex_last (build_grammar ex_last)); [by apply build_grammar_tree|exact Hp|eexists; apply loaded_ret; by vm_compute]|].
  split; [|done]. intros k b b' n a _ Ho. apply occurs_computed in Ho. change (occurring ex_last) with [Element (TokenRef (lit "Xy")) (Some (Star, false))] in Ho.
  rewrite !elem_of_cons in Ho. destruct Ho as [[= -> -> ->]|Ho]; [eauto|by apply elem_of_nil in Ho].
Qed.
