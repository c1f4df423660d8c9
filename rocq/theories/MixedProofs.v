(** MixedProofs.v -- C96: parser rules and lexer rules mixed in another way. *)
From Verif Require Export SpecMixed SameProofs.

Definition token_step (n x : str) (s : symbol_state) : res symbol_state :=
  if is_terminal_name_defined (sy_vocabulary s) n then Ret s
  else if blen x <? 2 then Ret s
  else let! regex := unwrap_regular x in
       Ret (SymbolState (fst (add_terminal (sy_vocabulary s) (sy_next_token_id s) n))
              (sy_data s ++ [LexerRuleData (sy_next_token_id s) n regex]) (S (sy_next_token_id s)) (sy_next_rule_id s)).
Definition name_step (n : str) (s : symbol_state) : symbol_state :=
  SymbolState (fst (add_named_nonterminal (sy_vocabulary s) (sy_next_rule_id s) n)) (sy_data s) (sy_next_token_id s) (S (sy_next_rule_id s)).
Definition rule_step (s : symbol_state) (g : rule) : res symbol_state :=
  match g with
  | ParserRule n _ => if is_terminal_name_defined (sy_vocabulary s) n then Ret s else Ret (name_step n s)
  | LexerRule n x => token_step n x s
  end.
Lemma symbol_rules G r s : grammar_tree G r -> visit_children symbol_visitor r s = let! s' := rfold rule_step G s in Ret (tt, s').
Proof.
  intros (n & cs & -> & H). rewrite !visit_children_fold by done.
  assert (Ho : forall r, outermost_below (overridden symbol_visitor) r = outermost_below is_rule_index r).
  { intros r. apply outermost_below_ext. intros i. unfold overridden. destruct i as [|[|[|[|[|[|[|[|[|i]]]]]]]]]; done. }
  rewrite !Ho, !(rules_overridden symbol_visitor _ _ _ H). f_equal. clear Ho n. revert s.
  induction H as [|g c G cs Hg _ IH]; intros s; [done|]. cbn [rfold].
  assert (visit_step symbol_visitor s c = rule_step s g) as ->.
  { unfold visit_step. apply rule_view in Hg. destruct g as [m alts|m rx].
    - destruct Hg as (-> & (t & Et & En) & _). change (v_override symbol_visitor PARSER_RULE) with (Some symbol_visit_parser_rule). cbv iota beta.
      unfold symbol_visit_parser_rule. rewrite Et. cbn [unwrap rbind rule_step]. rewrite En. by destruct (is_terminal_name_defined _ _).
    - destruct Hg as (-> & (t & reg & rl & H1 & H2 & H3 & H4 & H5)%defines_acc).
      change (v_override symbol_visitor LEXER_RULE) with (Some symbol_visit_lexer_rule). cbv iota beta.
      unfold symbol_visit_lexer_rule. rewrite H1, H2. cbn [unwrap rbind rule_step]. rewrite H3. cbn [unwrap rbind]. rewrite H4, H5. unfold token_step.
      destruct (is_terminal_name_defined _ _); [done|]. destruct (blen rx <? 2); [done|]. by destruct (unwrap_regular rx). }
  destruct (rule_step s g) as [s1| |]; cbn [rbind]; [|done|done]. apply IH.
Qed.

(** Adding a rule and adding a token touch different parts. *)
Lemma steps_commute n m x s : token_step m x (name_step n s) = let! s' := token_step m x s in Ret (name_step n s').
Proof.
  unfold token_step, name_step. cbn [sy_vocabulary sy_data sy_next_token_id sy_next_rule_id].
  assert (Hd : forall v i, is_terminal_name_defined (fst (add_named_nonterminal v i n)) m = is_terminal_name_defined v m).
  { intros v i. unfold add_named_nonterminal. repeat case_bool_decide; done. }
  rewrite Hd. destruct (is_terminal_name_defined _ m); [done|]. destruct (blen x <? 2); [done|]. destruct (unwrap_regular x); cbn [rbind]; [|done..].
  do 2 f_equal. unfold add_named_nonterminal, add_terminal.
  repeat (case_bool_decide; cbn [fst t_name_to_id nt_name_to_id t_id_to_name nt_id_to_name terminals nonterminals] in *); done.
Qed.
Definition foldT (G : list rule) (s : symbol_state) : res symbol_state := rfold rule_step (lexer_rules_of G) s.
Definition foldN (G : list rule) (s : symbol_state) : symbol_state := fold_left (fun s n => name_step n s) (parser_rule_names G) s.
Lemma foldT_commute n G : forall s, foldT G (name_step n s) = let! s' := foldT G s in Ret (name_step n s').
Proof.
  unfold foldT. induction G as [|[m a|m x] G IH]; intros s; [done|exact (IH s)|]. unfold lexer_rules_of in *. cbn [omap list_omap rfold rule_step].
  rewrite steps_commute. destruct (token_step m x s); cbn [rbind]; [|done..]. apply IH.
Qed.
Lemma token_step_defined n m x s s' : token_step m x s = Ret s' -> n <> m -> is_terminal_name_defined (sy_vocabulary s') n = is_terminal_name_defined (sy_vocabulary s) n.
Proof.
  unfold token_step. intros H Hn. destruct (is_terminal_name_defined _ m); [by injection H as <-|]. destruct (blen x <? 2); [by injection H as <-|].
  destruct (unwrap_regular x); cbn in H; [|done..]. injection H as <-. cbn [sy_vocabulary]. unfold add_terminal. repeat case_bool_decide; cbn [fst]; try done.
  unfold is_terminal_name_defined. cbn. by rewrite lookup_insert_ne.
Qed.
Lemma fold_split G : forall s, (forall n, n ∈ parser_rule_names G -> is_terminal_name_defined (sy_vocabulary s) n = false /\ n ∉ lexer_rule_names G) ->
  rfold rule_step G s = let! s' := foldT G s in Ret (foldN G s').
Proof.
  induction G as [|[m a|m x] G IH]; intros s H; [done|..].
  - cbn [rfold rule_step]. destruct (H m) as [-> Hm]; [by left|]. cbn [rbind].
    change (foldT (ParserRule m a :: G) s) with (foldT G s). rewrite IH, foldT_commute.
    + by destruct (foldT G s).
    + intros n Hn. destruct (H n) as [H1 H2]; [by right|]. split; [|done]. rewrite <- H1. unfold name_step, add_named_nonterminal. cbn. repeat case_bool_decide; done.
  - cbn [rfold rule_step]. change (foldT (LexerRule m x :: G) s) with (let! s' := token_step m x s in foldT G s').
    destruct (token_step m x s) as [s1| |] eqn:E; cbn [rbind]; [|done..]. rewrite IH; [done|]. intros n Hn. destruct (H n) as [H1 H2]; [exact Hn|].
    change (lexer_rule_names (LexerRule m x :: G)) with (m :: lexer_rule_names G) in H2. apply not_elem_of_cons in H2 as [Hne H2].
    split; [|done]. by rewrite (token_step_defined _ _ _ _ _ E).
Qed.

(** What the parts determine. *)
Lemma names_parser G : parser_rule_names G = parser_rule_names (parser_rules_of (map SpecRewrite.plain_rule G)).
Proof. induction G as [|[m a|m x] G IH]; [done|..]; unfold parser_rule_names, parser_rules_of in *; cbn [omap list_omap map SpecRewrite.plain_rule]; [by rewrite IH|done]. Qed.
Lemma names_lexer G : lexer_rule_names G = lexer_rule_names (lexer_rules_of (map SpecRewrite.plain_rule G)).
Proof. induction G as [|[m a|m x] G IH]; [done|..]; unfold lexer_rule_names, lexer_rules_of in *; cbn [omap list_omap map SpecRewrite.plain_rule]; [done|by rewrite IH]. Qed.
Lemma foldT_plain G s : foldT G s = rfold rule_step (lexer_rules_of (map SpecRewrite.plain_rule G)) s.
Proof.
  unfold foldT. revert s. induction G as [|[m a|m x] G IH]; intros s; [done|exact (IH s)|]. unfold lexer_rules_of in *. cbn [omap list_omap map SpecRewrite.plain_rule rfold rule_step].
  destruct (token_step m x s); cbn [rbind]; [|done..]. apply IH.
Qed.
Lemma tops_parts G : concat (map tops_rule G) = concat (map tops_rule (parser_rules_of G)).
Proof. induction G as [|[m a|m x] G IH]; [done|..]; unfold parser_rules_of in *; cbn [omap list_omap map concat]; [by rewrite IH|done]. Qed.
Lemma rules_named_parts G : rules_named G = rules_named (parser_rules_of G).
Proof. induction G as [|[m a|m x] G IH]; [done|..]; unfold rules_named, parser_rules_of in *; cbn [omap list_omap]; [by rewrite IH|done]. Qed.
Lemma literal_tops G r G' r' s : grammar_tree G r -> grammar_tree G' r' -> map plain_element (concat (map tops_rule G)) = map plain_element (concat (map tops_rule G')) ->
  visit_children literal_visitor r s = visit_children literal_visitor r' s.
Proof.
  intros H H' Ep. rewrite !literal_fold. apply tops_grammar in H, H'.
  f_equal. revert s. revert Ep H'. generalize (concat (map tops_rule G')) as es', (outermost_below (fun i => i =? ELEMENT) r') as cs'.
  induction H as [|e c es cs He _ IH]; intros es' cs' Ep H' s.
  - destruct H'; done.
  - destruct H' as [|e' c' es' cs' He' H']; [done|]. cbn [map] in Ep. injection Ep as E1 E2. cbn [rfold].
    assert (literal_visit_element c s = literal_visit_element c' s) as ->.
    { unfold literal_visit_element. destruct e as [a sx], e' as [a' sx']. apply element_tree_view in He as [He _], He' as [He' _].
      cbn [plain_element] in E1. injection E1 as E1 _.
      destruct a as [n|l|n|alts], a' as [n'|l'|n'|alts']; cbn [plain_atom] in E1; try discriminate E1.
      - destruct He as (-> & _), He' as (-> & _). done.
      - destruct He as (_ & t & -> & _), He' as (_ & t' & -> & _). done.
      - destruct He as (_ & -> & _), He' as (_ & -> & _). done.
      - destruct He as (_ & -> & _), He' as (_ & -> & _). done. }
    destruct (literal_visit_element c' s) as [[x s1]| |]; cbn [rbind]; [|done|done]. by apply (IH es').
Qed.
Lemma productions_parts G r G' r' F F' s : grammar_tree G r -> grammar_tree G' r' -> parser_rules_of (map plain_rule G) = parser_rules_of (map plain_rule G') ->
  height r <= F -> height r' <= F' -> production_visit_rule_list F r s = production_visit_rule_list F' r' s.
Proof.
  intros (m & cs & -> & H) (m' & cs' & -> & H') E HF HF'.
  rewrite (proj1 (rule_list_fuel F (F `max` F') _ s HF ltac:(lia))), (proj1 (rule_list_fuel F' (F `max` F') _ s HF' ltac:(lia))).
  unfold production_visit_rule_list. eapply parser_rules_same; [by apply grammar_parser_rules|by apply grammar_parser_rules|].
  fold (rules_named G) (rules_named G'). rewrite !rules_named_plain, (rules_named_parts (map plain_rule G)), (rules_named_parts (map plain_rule G')). by rewrite E.
Qed.

Lemma c96_load G r G' r' : grammar_tree G r -> grammar_tree G' r' -> mixed G G' -> (forall n, n ∈ parser_rule_names G -> n ∉ terminal_names G) ->
  load_tree r = load_tree r'.
Proof.
  intros H H' [EP EL] Hn. unfold load_tree. rewrite (literal_tops _ _ _ _ _ H H').
  2: { rewrite !tops_plain, (tops_parts (map plain_rule G)), (tops_parts (map plain_rule G')). by rewrite EP. }
  destruct (visit_children literal_visitor r' _) as [[x s1]| |] eqn:E1; cbn [rbind]; [|done|done].
  apply literal_pass in E1. subst s1. cbn [lt_vocabulary lt_data lt_next_token_id].
  rewrite (symbol_rules _ _ _ H), (symbol_rules _ _ _ H').
  assert (Hnew : forall n, n ∉ [lit "_START"; lit "_STOP"] -> is_terminal_name_defined vocabulary_new n = false).
  { intros n Hnn. apply bool_decide_eq_false. apply not_elem_of_cons in Hnn as [Ha Hb]. apply not_elem_of_cons in Hb as [Hb _].
    change (t_name_to_id vocabulary_new) with (<[lit "_STOP" := 1]> (<[lit "_START" := 0]> (∅ : gmap str nat))).
    rewrite !lookup_insert_ne by done. rewrite lookup_empty. by intros [? ?]. }
  assert (Hd : forall n, n ∈ parser_rule_names G -> is_terminal_name_defined vocabulary_new n = false /\ n ∉ lexer_rule_names G).
  { intros n Hin. specialize (Hn n Hin). unfold terminal_names in Hn. rewrite !not_elem_of_cons in Hn. destruct Hn as (Ha & Hb & Hc).
    split; [|done]. apply Hnew. rewrite !not_elem_of_cons. split_and!; try done. apply not_elem_of_nil. }
  assert (Hd' : forall n, n ∈ parser_rule_names G' -> is_terminal_name_defined vocabulary_new n = false /\ n ∉ lexer_rule_names G').
  { intros n. rewrite names_parser, names_lexer, <- EP, <- EL, <- names_parser, <- names_lexer. apply Hd. }
  rewrite (fold_split G), (fold_split G') by done. rewrite !foldT_plain, EL.
  destruct (rfold rule_step _ _) as [sT| |]; cbn [rbind]; [|done..].
  assert (foldN G sT = foldN G' sT) as -> by (unfold foldN; by rewrite (names_parser G), (names_parser G'), EP).
  by rewrite (productions_parts _ _ _ _ (height r) (height r') _ H H' EP).
Qed.

(** The other two passes take the same parts. *)
Definition lexer_step (n x : str) (s : lexer_state) : res lexer_state :=
  if existsb (fun d => bool_decide (ld_name d = n)) (le_data s) then Ret s
  else if blen x <? 2 then Ret s
  else let! regex := unwrap_regular x in Ret (LexerState (le_data s ++ [LexerRuleData (le_next_token_type s) n regex]) (S (le_next_token_type s))).
Lemma lexer_mixed G r G' r' s : grammar_tree G r -> grammar_tree G' r' -> mixed G G' -> visit_children lexer_visitor r s = visit_children lexer_visitor r' s.
Proof.
  intros H H' [_ E].
  assert (K : forall G r, grammar_tree G r -> visit_children lexer_visitor r s = let! s' := rfold (fun s g => match g with
      | LexerRule n x => lexer_step n x s | ParserRule _ _ => Ret s end) (lexer_rules_of (map plain_rule G)) s in Ret (tt, s')).
  { clear. intros G r (n & cs & -> & H). rewrite !lexer_fold. f_equal.
    change (rfold (fun s r => let! (_, s') := lexer_visit_lexer_rule r s in Ret s') (below (map Rule cs)) s =
      rfold (fun s g => match g with
      | LexerRule n x => lexer_step n x s | ParserRule _ _ => Ret s end) (lexer_rules_of (map plain_rule G)) s).
    clear n. revert s. induction H as [|g c G cs Hg _ IH]; intros s; [done|]. cbn [map]. rewrite (below_cons' (Rule c)).
    pose proof (rule_lits _ _ Hg) as [_ Hl]. apply rule_view in Hg. destruct g as [m alts|m rx].
    - rewrite Hl. cbn [app]. exact (IH s).
    - rewrite Hl. unfold lexer_rules_of in *. cbn [app rfold omap list_omap plain_rule]. destruct Hg as (_ & (t & reg & rl & H1 & H2 & H3 & H4 & H5)%defines_acc).
      assert (lexer_visit_lexer_rule c s = let! s' := lexer_step m rx s in Ret (tt, s')) as ->.
      { unfold lexer_visit_lexer_rule, lexer_step. rewrite H1, H2. cbn [unwrap rbind]. rewrite H3. cbn [unwrap rbind]. rewrite H4, H5.
        destruct (existsb _ _); [done|]. destruct (blen rx <? 2); [done|]. by destruct (unwrap_regular rx). }
      destruct (lexer_step m rx s); cbn [rbind]; [apply IH|done..]. }
  by rewrite (K _ _ H), (K _ _ H'), E.
Qed.
Lemma strings_mixed G r G' r' s : grammar_tree G r -> grammar_tree G' r' -> mixed G G' -> visit_children strings_visitor r s = visit_children strings_visitor r' s.
Proof.
  intros H H' [E _]. rewrite !strings_fold. f_equal. apply strings_literals. rewrite (grammar_lits _ _ H), (grammar_lits _ _ H').
  assert (forall G, concat (map lits_rule G) = concat (map lits_rule (parser_rules_of (map plain_rule G)))) as K.
  { clear. induction G as [|[m a|m x] G IH]; [done|..]; unfold parser_rules_of in *; cbn [omap list_omap map concat plain_rule].
    - rewrite IH. f_equal. symmetry. exact (lits_plain_rule (ParserRule m a)).
    - exact IH. }
  by rewrite (K G), (K G'), E.
Qed.
