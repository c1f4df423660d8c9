(** EbnfSymbols.v -- the first two passes on the tree of a grammar. *)
From Verif Require Export EbnfTree.

(** ** Occurrence *)
Lemma occurs_rule G name alts alt es e : ParserRule name alts ∈ G -> alt ∈ alts -> alt = Sequence es -> e ∈ es ->
  forall x, within_element x e -> occurs x G.
Proof. intros HG Ha -> He x Hx. exists name, alts, (Sequence es). split; [done|]. split; [done|]. by econstructor. Qed.
Lemma within_group_elem alts s alt es e x : alt ∈ alts -> alt = Sequence es -> e ∈ es -> within_element x e ->
  within_element x (Element (Group alts) s).
Proof. intros Ha -> He Hx. eapply within_group; [exact Ha| |done]. by econstructor. Qed.

(** ** The literal pass *)
Lemma outermost_at p r : p (rule_index r) = true -> outermost p r = [r].
Proof. destruct r as [n cs i]. simpl. by intros ->. Qed.
Lemma outermost_children' p n cs i : p i = false -> outermost p (RuleCtx n cs i) = outermost_below p (RuleCtx n cs i).
Proof.
  intros E. unfold outermost_below. simpl. rewrite E. clear n i E.
  induction cs as [|[t|c|t] cs IH]; simpl; [done|done| |done]. by rewrite IH.
Qed.
Lemma outermost_below_elem p r n : n ∈ outermost_below p r <-> exists c, Rule c ∈ children r /\ n ∈ outermost p c.
Proof.
  unfold outermost_below. rewrite elem_of_list_In, in_concat. split.
  - intros (l & Hl & Hn). apply in_map_iff in Hl as (a & <- & Ha). destruct a as [t|c|t]; [done| |done].
    exists c. rewrite !elem_of_list_In. done.
  - intros (c & Hc & Hn). exists (outermost p c). split; [|by apply elem_of_list_In].
    apply in_map_iff. exists (Rule c). split; [done|]. by apply elem_of_list_In.
Qed.

Lemma elements_children es cs c : elements_trees es cs -> Rule c ∈ cs -> exists e, e ∈ es /\ element_tree e c.
Proof.
  induction 1 as [|e c' es cs He _ IH]; [by intros ?%elem_of_nil|].
  intros [[= ->]|H]%elem_of_cons; [exists e; split; [apply elem_of_list_here|done]|].
  destruct (IH H) as (e' & ? & ?). exists e'. split; [by apply elem_of_list_further|done].
Qed.
Lemma alternatives_children alts cs c : alternatives_trees alts cs -> Rule c ∈ cs -> exists a, a ∈ alts /\ alternative_tree a c.
Proof.
  induction 1 as [a c' Ha|a c' o alts cs Ha Ho _ IH].
  - intros [= ->]%elem_of_list_singleton. exists a. split; [apply elem_of_list_here|done].
  - rewrite !elem_of_cons. intros [[= ->]|[<-|H]]; [exists a; split; [apply elem_of_list_here|done]|by destruct Ho as (t & ? & _)|].
    destruct (IH H) as (a' & ? & ?). exists a'. split; [by apply elem_of_list_further|done].
Qed.
Lemma top_elements G r n : grammar_tree G r -> n ∈ outermost_below (fun i => i =? ELEMENT) r ->
  exists e, element_tree e n /\ occurs e G.
Proof.
  intros (m & cs & -> & HG) Hn. apply outermost_below_elem in Hn as (c & Hc & Hn). cbn [children] in Hc.
  apply elem_of_list_fmap in Hc as (c' & [= <-] & Hc).
  apply elem_of_list_lookup in Hc as (k & Hk). destruct (Forall2_lookup_r _ _ _ _ _ HG Hk) as (g & Hg & Ht).
  apply elem_of_list_lookup_2 in Hg. clear HG Hk k.
  destruct Ht as [name alts x a co b s Ha Hco Hb Hs|name regex x y a co r s Ha Hco Hr Hs].
  - rewrite outermost_children' in Hn by done. apply outermost_below_elem in Hn as (c1 & Hc1 & Hn). cbn [children] in Hc1.
    assert (c1 = b) as ->.
    { rewrite !elem_of_cons in Hc1. destruct Ha as (? & -> & _), Hco as (? & -> & _), Hs as (? & -> & _).
      destruct Hc1 as [?|[?|[[= ?]|[?|?%elem_of_nil]]]]; done. }
    destruct Hb as [alts z bs Hbs]. rewrite outermost_children' in Hn by done.
    apply outermost_below_elem in Hn as (c2 & Hc2 & Hn). cbn [children] in Hc2.
    destruct (alternatives_children _ _ _ Hbs Hc2) as (alt & Halt & Htree).
    destruct Htree as [u w e He|u es ecs Hes]; rewrite outermost_children' in Hn by done;
      apply outermost_below_elem in Hn as (c3 & Hc3 & Hn); cbn [children] in Hc3.
    + apply elem_of_list_singleton in Hc3 as [= ->]. rewrite outermost_children' in Hn by done.
      apply outermost_below_elem in Hn as (c4 & Hc4 & Hn). cbn [children] in Hc4.
      apply elem_of_list_singleton in Hc4. destruct He as (? & -> & _). done.
    + destruct (elements_children _ _ _ Hes Hc3) as (e & He & Htr).
      rewrite outermost_at in Hn by (by destruct Htr). apply elem_of_list_singleton in Hn as ->.
      exists e. split; [done|]. exists name, alts, (Sequence es). split; [done|]. split; [done|]. econstructor; [done|constructor].
  - exfalso. rewrite outermost_children' in Hn by done. apply outermost_below_elem in Hn as (c1 & Hc1 & Hn). cbn [children] in Hc1.
    assert (c1 = RuleCtx y [r] REGULAR) as ->.
    { rewrite !elem_of_cons in Hc1. destruct Ha as (? & -> & _), Hco as (? & -> & _), Hs as (? & -> & _).
      destruct Hc1 as [?|[?|[[= ?]|[?|?%elem_of_nil]]]]; done. }
    rewrite outermost_children' in Hn by done. apply outermost_below_elem in Hn as (c2 & Hc2 & Hn). cbn [children] in Hc2.
    apply elem_of_list_singleton in Hc2. destruct Hr as (? & -> & _). done.
Qed.
Lemma literal_pass_returns G r s : grammar_tree G r -> (forall l s, ~ occurs (Element (StringLiteral l) s) G) ->
  visit_children literal_visitor r s = Ret (tt, s).
Proof.
  intros HG Hno. rewrite literal_fold.
  assert (forall n, n ∈ outermost_below (fun i => i =? ELEMENT) r -> element_string_literal n = None) as H.
  { intros n Hn. destruct (top_elements _ _ _ HG Hn) as (e & He & Ho). destruct e as [a sx]. apply element_tree_view in He as [Hv _].
    destruct a as [name|l|name|alts].
    - by destruct Hv as (? & _).
    - exfalso. by apply (Hno l sx).
    - by destruct Hv as (_ & ? & _).
    - by destruct Hv as (_ & ? & _). }
  induction (outermost_below (fun i => i =? ELEMENT) r) as [|n l IH]; [done|]. cbn [rfold].
  unfold literal_visit_element at 1. rewrite (H n (elem_of_list_here _ _)). cbn [rbind].
  apply IH. intros n' Hn'. apply H. by apply elem_of_list_further.
Qed.

(** ** The symbol pass *)
Lemma add_terminal_new v id name : t_name_to_id v !! name = None -> id ∉ terminals v ->
  fst (add_terminal v id name) = {| nt_name_to_id := nt_name_to_id v; nt_id_to_name := nt_id_to_name v;
    t_name_to_id := <[name := id]> (t_name_to_id v); t_id_to_name := <[id := name]> (t_id_to_name v);
    nonterminals := nonterminals v; terminals := {[id]} ∪ terminals v |}.
Proof.
  intros H1 H2. unfold add_terminal. rewrite H1, bool_decide_eq_false_2 by (by intros []). by rewrite bool_decide_eq_false_2.
Qed.
Lemma named_lookup v id name : id ∉ nonterminals v -> forall n,
  is_Some (nt_name_to_id (fst (add_named_nonterminal v id name)) !! n) <-> n = name \/ is_Some (nt_name_to_id v !! n).
Proof.
  intros H n. unfold add_named_nonterminal. destruct (nt_name_to_id v !! name) as [k|] eqn:E.
  - rewrite bool_decide_eq_true_2 by eauto. simpl. split; [auto|]. intros [->|?]; eauto.
  - rewrite bool_decide_eq_false_2 by (by intros []). rewrite bool_decide_eq_false_2 by done. simpl.
    rewrite lookup_insert_is_Some'. naive_solver.
Qed.
Lemma named_t v id name : t_name_to_id (fst (add_named_nonterminal v id name)) = t_name_to_id v.
Proof. unfold add_named_nonterminal. by repeat case_bool_decide. Qed.

Definition sym_names (TN NN : list str) (s : symbol_state) : Prop :=
  sym_inv s /\ (forall n, is_Some (t_name_to_id (sy_vocabulary s) !! n) <-> n ∈ TN) /\
  (forall n, is_Some (nt_name_to_id (sy_vocabulary s) !! n) <-> n ∈ NN) /\
  match NN with [] => sy_next_rule_id s = 0 | n :: _ => nt_name_to_id (sy_vocabulary s) !! n = Some 0 end.
Lemma named_keep v id name n i : nt_name_to_id v !! n = Some i -> nt_name_to_id (fst (add_named_nonterminal v id name)) !! n = Some i.
Proof.
  intros H. unfold add_named_nonterminal. destruct (nt_name_to_id v !! name) as [k|] eqn:E.
  - by rewrite bool_decide_eq_true_2 by eauto.
  - rewrite bool_decide_eq_false_2 by (by intros []). case_bool_decide; [done|]. simpl. rewrite lookup_insert_ne; [done|]. congruence.
Qed.
Lemma named_new v id name : id ∉ nonterminals v -> nt_name_to_id v !! name = None ->
  nt_name_to_id (fst (add_named_nonterminal v id name)) !! name = Some id.
Proof.
  intros H E. unfold add_named_nonterminal. rewrite E, bool_decide_eq_false_2 by (by intros []). rewrite bool_decide_eq_false_2 by done.
  apply lookup_insert.
Qed.

Lemma symbol_rules G cs : Forall2 rule_tree G cs -> forall TN NN s,
  sym_names TN NN s ->
  (forall n, n ∈ parser_rule_names G -> n ∉ TN /\ n ∉ lexer_rule_names G) ->
  (forall n r, LexerRule n r ∈ G -> exists body, r = lit "/" ++ body ++ lit "/") ->
  exists s', rfold (visit_step symbol_visitor) cs s = Ret s' /\ sym_names (TN ++ lexer_rule_names G) (NN ++ parser_rule_names G) s' /\
    sy_next_rule_id s' = sy_next_rule_id s + length (parser_rule_names G).
Proof.
  induction 1 as [|g c G cs Hg _ IH]; intros TN NN s Hs Hp Hl.
  { exists s. cbn. rewrite !app_nil_r, Nat.add_0_r. done. }
  pose proof (rule_view _ _ Hg) as Hv. destruct Hs as (Hi & Ht & Hn & Hz). cbn [rfold].
  assert (Step : forall s1, visit_step symbol_visitor s c = Ret s1 -> sym_inv s1) by (intros s1; by apply sym_step_inv).
  unfold visit_step at 1. unfold visit_step in Step. destruct g as [name alts|name regex].
  - destruct Hv as (E & (t & Et & <-) & _). rewrite E in *.
    change (v_override symbol_visitor PARSER_RULE) with (Some symbol_visit_parser_rule) in *. cbv iota beta in *.
    unfold symbol_visit_parser_rule in *. rewrite Et in *. cbn [rbind unwrap] in *.
    assert (is_terminal_name_defined (sy_vocabulary s) (text t) = false) as Ed.
    { apply not_defined, eq_None_not_Some. rewrite Ht. destruct (Hp (text t)) as [? _]; [cbn; apply elem_of_list_here|done]. }
    rewrite Ed in *. cbn [rbind] in *. specialize (Step _ eq_refl).
    assert (Hf : sy_next_rule_id s ∉ nonterminals (sy_vocabulary s)) by (intros [? _]%(si_nts _ Hi); lia).
    edestruct (IH TN (NN ++ [text t])) as (s' & E1 & E2 & E3).
    + split_and!; [exact Step|cbn [sy_vocabulary]..].
      * intros n. rewrite named_t. apply Ht.
      * intros n. rewrite named_lookup, Hn by done. set_solver.
      * destruct NN as [|n0 NN]; cbn.
        -- rewrite Hz in Hf |- *. apply named_new; [done|]. apply eq_None_not_Some. rewrite Hn. by intros ?%elem_of_nil.
        -- by apply named_keep.
    + intros n Hn'. destruct (Hp n) as [? K]; [cbn; by apply elem_of_list_further|]. done.
    + intros n r' Hr. apply (Hl n). by apply elem_of_list_further.
    + exists s'. split; [exact E1|]. rewrite <- app_assoc in E2. split; [exact E2|]. rewrite E3. cbn [sy_next_rule_id]. change (parser_rule_names (ParserRule (text t) alts :: G)) with (text t :: parser_rule_names G). cbn [length]. lia.
  - destruct Hv as (E & (t & reg & rl & H1 & H2 & H3 & <- & H4)%defines_acc). rewrite E in *.
    change (v_override symbol_visitor LEXER_RULE) with (Some symbol_visit_lexer_rule) in *. cbv iota beta in *.
    unfold symbol_visit_lexer_rule in *. rewrite H1, H2 in *. cbn [rbind unwrap] in *. rewrite H3 in *. cbn [rbind unwrap] in *.
    assert (exists body, delimited (text rl) body) as [body Hb].
    { rewrite H4. destruct (Hl (text t) regex) as [body ->]; [apply elem_of_list_here|]. exists body. exists 47%N, 47%N. done. }
    assert (Hp' : forall n, n ∈ parser_rule_names G -> n ∉ text t :: TN /\ n ∉ lexer_rule_names G).
    { intros n Hn'. destruct (Hp n) as [? K]; [done|]. cbn in K. rewrite elem_of_cons in K. rewrite elem_of_cons. naive_solver. }
    assert (Hl' : forall n r, LexerRule n r ∈ G -> exists body, r = lit "/" ++ body ++ lit "/").
    { intros n r' Hr. apply (Hl n). by apply elem_of_list_further. }
    destruct (is_terminal_name_defined (sy_vocabulary s) (text t)) eqn:Ed.
    + cbn [rbind] in *. destruct (IH (TN ++ [text t]) NN s) as (s' & E1 & E2 & E3).
      * split_and!; [done| |done|done]. intros n. rewrite Ht. unfold is_terminal_name_defined in Ed. apply bool_decide_eq_true in Ed.
        apply Ht in Ed. set_solver.
      * intros n Hn'. destruct (Hp' n Hn'). set_solver.
      * done.
      * exists s'. split; [exact E1|]. rewrite <- app_assoc in E2. split; [exact E2|]. rewrite E3. done.
    + rewrite (proj2 (Nat.ltb_ge _ _) (delimited_blen _ _ Hb)) in *.
      assert (exists x, unwrap_regular (text rl) = Ret x) as [x Ex].
      { destruct (c47_unescape body) as (body' & Hu & _). eexists. apply unwrap_regular_spec. exists body, body'. done. }
      rewrite Ex in *. cbn [rbind] in *. specialize (Step _ eq_refl). apply not_defined in Ed.
      assert (Hf : sy_next_token_id s ∉ terminals (sy_vocabulary s)) by (rewrite (si_terms _ Hi); lia).
      edestruct (IH (TN ++ [text t]) NN) as (s' & E1 & E2 & E3).
      * split_and!; [exact Step|cbn [sy_vocabulary]..]; rewrite (add_terminal_new _ _ _ Ed Hf); cbn.
        -- intros n. rewrite lookup_insert_is_Some', Ht. set_solver.
        -- done.
        -- done.
      * intros n Hn'. destruct (Hp' n Hn'). set_solver.
      * done.
      * exists s'. split; [exact E1|]. rewrite <- app_assoc in E2. split; [exact E2|]. rewrite E3. done.
Qed.

Lemma symbol_start : sym_names [lit "_START"; lit "_STOP"] [] (SymbolState vocabulary_new [] 2 0).
Proof.
  split; [apply sym_inv_start|]. split_and!; cbn [sy_vocabulary].
  - intros n. change (t_name_to_id vocabulary_new) with (<[lit "_STOP" := 1]> (<[lit "_START" := 0]> (∅ : gmap str nat))).
    rewrite !lookup_insert_is_Some', !elem_of_cons. rewrite lookup_empty.
    split; [intros [->|[->|[? ?]]]; [auto|auto|done]|].
    intros [->|[->|?%elem_of_nil]]; [auto|auto|done].
  - intros n. change (nt_name_to_id vocabulary_new) with (∅ : gmap str nat). rewrite lookup_empty. split; [by intros []|by intros ?%elem_of_nil].
  - done.
Qed.

Lemma symbol_pass_tree G r : grammar_tree G r -> proper G ->
  exists s', visit_children symbol_visitor r (SymbolState vocabulary_new [] 2 0) = Ret (tt, s') /\
    sym_names (terminal_names G) (parser_rule_names G) s' /\ sy_next_rule_id s' = length (parser_rule_names G).
Proof.
  intros (n & cs & -> & HG) (P1 & P2 & P3).
  destruct (symbol_rules G cs HG _ _ _ symbol_start) as (s' & E1 & E2 & E3).
  - intros m Hm. specialize (P1 m Hm). unfold terminal_names in P1. rewrite !elem_of_cons in P1.
    rewrite !elem_of_cons, elem_of_nil. naive_solver.
  - done.
  - exists s'. split; [|done]. rewrite visit_children_fold by done.
    rewrite (outermost_below_ext _ is_rule_index).
    2:{ intros i. unfold overridden. destruct i as [|[|[|[|[|[|[|[|[|i]]]]]]]]]; done. }
    assert (outermost_below is_rule_index (RuleCtx n (map Rule cs) RULE_LIST) = cs) as ->.
    { unfold outermost_below. cbn [children]. rewrite map_map. clear -HG. induction HG as [|g c G cs Hg _ IH]; [done|]. cbn [map concat].
      rewrite IH, outermost_at; [done|]. destruct (rule_view _ _ Hg) as [E|E] || idtac.
      pose proof (rule_view _ _ Hg) as Hv. destruct g; destruct Hv as [-> _]; done. }
    by rewrite E1.
Qed.
