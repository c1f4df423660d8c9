(** RenameProofs.v -- C95: loading a grammar with other names. *)
From Verif Require Export SpecRename SameProofs EbnfTree.

Definition rmap {A B} (h : A -> B) (m : res A) : res B := match m with Ret a => Ret (h a) | Panic => Panic | OutOfFuel => OutOfFuel end.
Lemma rmap_bind {A A' B B'} (h : A -> A') (k : B -> B') m f f' : (forall a, f' (h a) = rmap k (f a)) -> rbind (rmap h m) f' = rmap k (rbind m f).
Proof. intros H. destruct m; cbn; auto. Qed.

Section rename.
  Context (ρ : str -> str) (Hρ : renaming ρ).
  Local Instance ρ_inj : Inj (=) (=) ρ := proj1 Hρ.
  Notation f := (rename_token ρ).
  Notation F := (map_ctx f).

  Lemma f_type t : token_type (f t) = token_type t.
  Proof using. unfold rename_token. by destruct (carries_name _). Qed.
  Lemma f_text t : text (f t) = if carries_name (token_type t) then ρ (text t) else text t.
  Proof using. unfold rename_token. by destruct (carries_name _). Qed.

  (** ** The accessors *)
  Lemma children_map r : children (F r) = map (map_ast f) (children r).
  Proof using. by destruct r. Qed.
  Lemma index_map r : rule_index (F r) = rule_index r.
  Proof using. by destruct r. Qed.
  Lemma terminals_map r ty : get_terminals (F r) ty = map f (get_terminals r ty).
  Proof using.
    rewrite !get_terminals_omap, children_map. induction (children r) as [|[t|c|t] cs IH]; cbn; [done| |done..].
    rewrite f_type. destruct (token_type t =? ty); cbn; by rewrite IH.
  Qed.
  Lemma contexts_map r ty : get_rule_contexts (F r) ty = map F (get_rule_contexts r ty).
  Proof using.
    rewrite !get_rule_contexts_omap, children_map. induction (children r) as [|[t|c|t] cs IH]; cbn; [done|done| |done].
    rewrite index_map. destruct (rule_index c =? ty); cbn; by rewrite IH.
  Qed.
  Lemma terminal_map r ty i : get_terminal (F r) ty i = f <$> get_terminal r ty i.
  Proof using. unfold get_terminal. rewrite terminals_map, map_length. destruct (i <? _); [|done]. apply list_lookup_fmap. Qed.
  Lemma context_map r ty i : get_rule_context (F r) ty i = F <$> get_rule_context r ty i.
  Proof using. unfold get_rule_context. rewrite contexts_map, map_length. destruct (i <? _); [|done]. apply list_lookup_fmap. Qed.
  Lemma terminal_named r ty i t : get_terminal r ty i = Some t -> carries_name ty = true -> text (f t) = ρ (text t).
  Proof using.
    intros H Hc. unfold get_terminal in H. destruct (i <? _); [|done]. rewrite get_terminals_omap in H. apply elem_of_list_lookup_2 in H.
    apply elem_of_list_omap in H as (a & _ & H). rewrite f_text. destruct a as [t'|c|t']; cbn in H; [|done..].
    destruct (Nat.eqb_spec (token_type t') ty) as [E|]; [|done]. injection H as ->. by rewrite E, Hc.
  Qed.
  Lemma terminal_plain r ty i t : get_terminal r ty i = Some t -> carries_name ty = false -> text (f t) = text t.
  Proof using.
    intros H Hc. unfold get_terminal in H. destruct (i <? _); [|done]. rewrite get_terminals_omap in H. apply elem_of_list_lookup_2 in H.
    apply elem_of_list_omap in H as (a & _ & H). rewrite f_text. destruct a as [t'|c|t']; cbn in H; [|done..].
    destruct (Nat.eqb_spec (token_type t') ty) as [E|]; [|done]. injection H as ->. by rewrite E, Hc.
  Qed.
  Lemma outermost_map p r : outermost p (F r) = map F (outermost p r).
  Proof using.
    induction r as [t|t|r IH|n cs i IH] using rule_ctx_rect' with (P := fun a => match a with Rule c => outermost p (F c) = map F (outermost p c) | _ => True end); [done..|].
    cbn [map_ctx outermost]. destruct (p i); [done|]. induction IH as [|[t|c|t] cs Hc _ IHcs]; cbn [map map_ast]; [done|exact IHcs| |exact IHcs].
    by rewrite Hc, IHcs, map_app.
  Qed.
  Lemma below_map p r : outermost_below p (F r) = map F (outermost_below p r).
  Proof using.
    unfold outermost_below. rewrite children_map. induction (children r) as [|[t|c|t] cs IH]; cbn; [done|done| |done].
    by rewrite IH, outermost_map, map_app.
  Qed.
  Lemma height_map r : height (F r) = height r.
  Proof using.
    induction r as [t|t|r IH|n cs i IH] using rule_ctx_rect' with (P := fun a => match a with Rule c => height (F c) = height c | _ => True end); [done..|].
    cbn [map_ctx height]. f_equal. induction IH as [|[t|c|t] cs Hc _ IHcs]; cbn [map map_ast]; [done|exact IHcs| |exact IHcs]. by rewrite Hc, IHcs.
  Qed.

  (** ** The vocabulary *)
  Notation V := (rename_vocabulary ρ).
  Lemma terminal_defined_map v n : is_terminal_name_defined (V v) (ρ n) = is_terminal_name_defined v n.
  Proof using Hρ. unfold is_terminal_name_defined. cbn. by rewrite (lookup_kmap ρ). Qed.
  Lemma terminal_id_map v n : get_terminal_id_by_name (V v) (ρ n) = get_terminal_id_by_name v n.
  Proof using Hρ. unfold get_terminal_id_by_name. cbn. by rewrite (lookup_kmap ρ). Qed.
  Lemma nonterminal_id_map v n : get_nonterminal_id_by_name (V v) (ρ n) = get_nonterminal_id_by_name v n.
  Proof using Hρ. unfold get_nonterminal_id_by_name. cbn. by rewrite (lookup_kmap ρ). Qed.
  Lemma add_terminal_map v id n : (add_terminal (V v) id (ρ n)).1 = V (add_terminal v id n).1.
  Proof using Hρ.
    unfold add_terminal. cbn [t_name_to_id terminals rename_vocabulary]. rewrite (lookup_kmap ρ). destruct (bool_decide (is_Some _)); [done|].
    destruct (bool_decide (id ∈ _)); [done|]. cbn. unfold rename_vocabulary. cbn. rewrite (kmap_insert ρ), fmap_insert. done.
  Qed.
  Lemma add_named_map v id n : (add_named_nonterminal (V v) id (ρ n)).1 = V (add_named_nonterminal v id n).1.
  Proof using Hρ.
    unfold add_named_nonterminal. cbn [nt_name_to_id nonterminals rename_vocabulary]. rewrite (lookup_kmap ρ). destruct (bool_decide (is_Some _)); [done|].
    destruct (bool_decide (id ∈ _)); [done|]. cbn. unfold rename_vocabulary. cbn. rewrite (kmap_insert ρ), fmap_insert. done.
  Qed.
  Lemma add_unnamed_map v id : (add_unnamed_nonterminal (V v) id).1 = V (add_unnamed_nonterminal v id).1.
  Proof using.
    unfold add_unnamed_nonterminal. cbn [nt_id_to_name nonterminals rename_vocabulary]. rewrite lookup_fmap.
    assert (bool_decide (is_Some (ρ <$> nt_id_to_name v !! id)) = bool_decide (is_Some (nt_id_to_name v !! id))) as -> by (apply bool_decide_ext; apply fmap_is_Some).
    destruct (bool_decide (is_Some _)); [done|]. by destruct (bool_decide (id ∈ _)).
  Qed.
  Lemma vocabulary_new_map : V vocabulary_new = vocabulary_new.
  Proof using Hρ.
    destruct Hρ as (_ & H0 & H1). unfold vocabulary_new. rewrite <- add_terminal_map, H1. f_equal. f_equal. rewrite <- add_terminal_map, H0. do 2 f_equal.
    unfold rename_vocabulary, vocabulary_empty. cbn [nt_name_to_id nt_id_to_name t_name_to_id t_id_to_name nonterminals terminals].
    by rewrite !(kmap_empty ρ), !fmap_empty.
  Qed.

  (** ** The passes *)
  Lemma rfold_map {S} (g : S -> S) (st : S -> rule_ctx -> res S) : (forall s c, st (g s) (F c) = rmap g (st s c)) ->
    forall cs s, rfold st (map F cs) (g s) = rmap g (rfold st cs s).
  Proof using.
    intros H. induction cs as [|c cs IH]; intros s; [done|]. cbn [map rfold]. rewrite H. apply rmap_bind. exact IH.
  Qed.
  Lemma literal_map r s : visit_children literal_visitor (F r) s = visit_children literal_visitor r s.
  Proof using.
    rewrite !literal_fold, below_map. f_equal. revert s. induction (outermost_below _ r) as [|c cs IH]; intros s; [done|]. cbn [map rfold].
    unfold literal_visit_element, element_string_literal. rewrite terminal_map. destruct (get_terminal c STRING_LITERAL 0); [done|]. cbn. apply IH.
  Qed.

  Definition rename_symbols (s : symbol_state) : symbol_state :=
    SymbolState (V (sy_vocabulary s)) (map (rename_data ρ) (sy_data s)) (sy_next_token_id s) (sy_next_rule_id s).
  Lemma lexer_rule_map c s : symbol_visit_lexer_rule (F c) (rename_symbols s) = rmap (fun x => (x.1, rename_symbols x.2)) (symbol_visit_lexer_rule c s).
  Proof using Hρ.
    unfold symbol_visit_lexer_rule, lexer_rule_token_ref. rewrite terminal_map.
    destruct (get_terminal c TOKEN_REF 0) as [t|] eqn:E; cbn [fmap option_fmap option_map unwrap rbind]; [|done].
    rewrite (terminal_named _ _ _ _ E eq_refl). cbn [sy_vocabulary rename_symbols]. rewrite terminal_defined_map.
    destruct (is_terminal_name_defined _ _); [done|]. unfold lexer_rule_regular. rewrite context_map.
    destruct (get_rule_context c REGULAR 0) as [reg|]; cbn [fmap option_fmap option_map unwrap rbind]; [|done].
    unfold regular_regular_literal. rewrite terminal_map.
    destruct (get_terminal reg REGULAR_LITERAL 0) as [rl|] eqn:E2; cbn [fmap option_fmap option_map unwrap rbind]; [|done].
    rewrite (terminal_plain _ _ _ _ E2 eq_refl). destruct (blen (text rl) <? 2); [done|].
    destruct (unwrap_regular (text rl)) as [x| |]; cbn [rbind]; [|done|done].
    cbn [rmap fst snd]. unfold rename_symbols. cbn [sy_vocabulary sy_data sy_next_token_id sy_next_rule_id]. by rewrite <- add_terminal_map, map_app.
  Qed.
  Lemma parser_rule_map c s : symbol_visit_parser_rule (F c) (rename_symbols s) = rmap (fun x => (x.1, rename_symbols x.2)) (symbol_visit_parser_rule c s).
  Proof using Hρ.
    unfold symbol_visit_parser_rule, parser_rule_rule_ref. rewrite terminal_map.
    destruct (get_terminal c RULE_REF 0) as [t|] eqn:E; cbn [fmap option_fmap option_map unwrap rbind]; [|done].
    rewrite (terminal_named _ _ _ _ E eq_refl). cbn [sy_vocabulary rename_symbols]. rewrite terminal_defined_map.
    destruct (is_terminal_name_defined _ _); [done|].
    cbn [rmap fst snd]. unfold rename_symbols. cbn [sy_vocabulary sy_data sy_next_token_id sy_next_rule_id]. by rewrite <- add_named_map.
  Qed.
  Lemma symbol_map r s : visit_children symbol_visitor (F r) (rename_symbols s) = rmap (fun x => (x.1, rename_symbols x.2)) (visit_children symbol_visitor r s).
  Proof using Hρ.
    rewrite !visit_children_fold, below_map by done. rewrite (rfold_map rename_symbols).
    - by destruct (rfold _ _ _).
    - intros s' c. unfold visit_step. rewrite index_map.
      destruct (rule_index c) as [|[|[|[|[|[|[|[|[|i]]]]]]]]]; try done.
      + change (v_override symbol_visitor 1) with (Some symbol_visit_parser_rule). cbv iota. rewrite parser_rule_map. by destruct (symbol_visit_parser_rule c s') as [[? ?]| |].
      + change (v_override symbol_visitor 7) with (Some symbol_visit_lexer_rule). cbv iota. rewrite lexer_rule_map. by destruct (symbol_visit_lexer_rule c s') as [[? ?]| |].
  Qed.

  Definition rename_state (s : production_state) : production_state :=
    ProductionState (V (ps_vocabulary s)) (ps_productions s) (ps_next_rule_id s) (block_cache s) (star_cache s) (plus_cache s) (question_cache s).
  Notation K := (fun x => (x.1, rename_state x.2)).
  Lemma suffix_map c id it s : apply_suffix (F c) id it (rename_state s) = K (apply_suffix c id it s).
  Proof using.
    unfold apply_suffix, element_ebnf_suffix. rewrite context_map. destruct (get_rule_context c EBNF_SUFFIX 0) as [x|]; [|done]. cbn [fmap option_fmap option_map].
    unfold suffix_star, suffix_plus. rewrite !terminal_map.
    destruct (get_terminal x STAR 0); cbn [fmap option_fmap option_map].
    - unfold apply_star. cbn [star_cache rename_state]. destruct (star_cache s !! id); [done|]. cbn [fst snd]. unfold rename_state. cbn. by rewrite add_unnamed_map.
    - destruct (get_terminal x PLUS 0); cbn [fmap option_fmap option_map].
      + unfold apply_plus. cbn [plus_cache rename_state]. destruct (plus_cache s !! id); [done|]. cbn [fst snd]. unfold rename_state. cbn. by rewrite add_unnamed_map.
      + unfold apply_question. cbn [question_cache rename_state]. destruct (question_cache s !! id); [done|]. cbn [fst snd]. unfold rename_state. cbn. by rewrite add_unnamed_map.
  Qed.
  Lemma block_map rights s : make_block rights (rename_state s) = K (make_block rights s).
  Proof using.
    unfold make_block. cbn [block_cache rename_state]. destruct (block_cache s !! rights); [done|]. cbn [fst snd]. unfold rename_state. cbn. by rewrite add_unnamed_map.
  Qed.
  Notation step := (rule_ctx -> production_state -> res (item * production_state)).
  Definition natural (rec : step) : Prop := forall c s, rec (F c) (rename_state s) = rmap K (rec c s).
  Lemma elements_map (rec : step) : natural rec -> forall cs s, visit_elements rec (map F cs) (rename_state s) = rmap K (visit_elements rec cs s).
  Proof using.
    intros H. induction cs as [|c cs IH]; intros s; [done|]. cbn [map visit_elements]. rewrite H. apply rmap_bind. intros [it s1]. cbn [fst snd].
    rewrite IH. apply rmap_bind. by intros [its s2].
  Qed.
  Lemma alternative_map (rec : step) : natural rec -> forall c s, visit_alternative rec (F c) (rename_state s) = rmap K (visit_alternative rec c s).
  Proof using.
    intros H c s. unfold visit_alternative, alternative_epsilon, element_list. rewrite context_map, contexts_map.
    destruct (get_rule_context c EPSILON_RULE 0); [done|]. by apply elements_map.
  Qed.
  Lemma alternatives_map (rec : step) : natural rec -> forall cs s, visit_alternatives rec (map F cs) (rename_state s) = rmap K (visit_alternatives rec cs s).
  Proof using.
    intros H. induction cs as [|c cs IH]; intros s; [done|]. cbn [map visit_alternatives]. rewrite (alternative_map rec H). apply rmap_bind. intros [it s1]. cbn [fst snd].
    rewrite IH. apply rmap_bind. by intros [its s2].
  Qed.
  Lemma element_map fuel : natural (visit_element fuel).
  Proof using Hρ.
    induction fuel as [|fuel IH]; [done|]. intros c s. cbn [visit_element]. unfold element_token_ref, element_string_literal, element_rule_ref, element_block.
    rewrite !terminal_map, context_map.
    destruct (get_terminal c TOKEN_REF 0) as [t|] eqn:E1; cbn [fmap option_fmap option_map].
    { rewrite (terminal_named _ _ _ _ E1 eq_refl). cbn [ps_vocabulary rename_state]. rewrite terminal_id_map.
      destruct (get_terminal_id_by_name _ _); cbn [unwrap rbind rmap]; [|done]. by rewrite suffix_map. }
    destruct (get_terminal c STRING_LITERAL 0) as [t|] eqn:E2; cbn [fmap option_fmap option_map].
    { rewrite (terminal_named _ _ _ _ E2 eq_refl). cbn [ps_vocabulary rename_state]. rewrite terminal_id_map.
      destruct (get_terminal_id_by_name _ _); cbn [unwrap rbind rmap]; [|done]. by rewrite suffix_map. }
    destruct (get_terminal c RULE_REF 0) as [t|] eqn:E3; cbn [fmap option_fmap option_map].
    { rewrite (terminal_named _ _ _ _ E3 eq_refl). cbn [ps_vocabulary rename_state]. rewrite nonterminal_id_map.
      destruct (get_nonterminal_id_by_name _ _); cbn [unwrap rbind rmap]; [|done]. by rewrite suffix_map. }
    destruct (get_rule_context c BLOCK 0) as [b|]; cbn [fmap option_fmap option_map]; [|done].
    unfold visit_block, alternative_list. rewrite contexts_map, (alternatives_map _ IH).
    destruct (visit_alternatives _ _ s) as [[rs s1]| |]; cbn [rmap rbind fst snd]; [|done|done]. rewrite block_map.
    destruct (make_block rs s1) as [id s2]. cbn [rbind fst snd]. by rewrite suffix_map.
  Qed.
  Lemma productions_map fuel r s : production_visit_rule_list fuel (F r) (rename_state s) = rmap rename_state (production_visit_rule_list fuel r s).
  Proof using Hρ.
    unfold production_visit_rule_list, parser_rule_list. rewrite contexts_map. apply rfold_map. clear s. intros s c.
    unfold production_visit_parser_rule, parser_rule_rule_ref, parser_rule_block. rewrite terminal_map, context_map.
    destruct (get_terminal c RULE_REF 0) as [t|] eqn:E; cbn [fmap option_fmap option_map unwrap rbind]; [|done].
    rewrite (terminal_named _ _ _ _ E eq_refl). cbn [ps_vocabulary rename_state]. rewrite nonterminal_id_map.
    destruct (get_nonterminal_id_by_name _ _) as [id|]; cbn [unwrap rbind]; [|done].
    destruct (get_rule_context c BLOCK 0) as [b|]; cbn [fmap option_fmap option_map unwrap rbind]; [|done].
    unfold alternative_list. rewrite contexts_map. apply rfold_map. clear s c t E b. intros s c. unfold visit_rule_alternative.
    rewrite (alternative_map _ (element_map fuel)). apply rmap_bind. by intros [rr s1].
  Qed.

  Lemma load_map r : load_tree (F r) = rename_loaded ρ (load_tree r).
  Proof using Hρ.
    unfold load_tree. rewrite literal_map. destruct (visit_children literal_visitor r _) as [[x s1]| |] eqn:E; cbn [rbind]; [|done|done].
    apply literal_pass in E. subst s1. cbn [lt_vocabulary lt_data lt_next_token_id g_vocabulary grammar_new].
    change (SymbolState vocabulary_new [] 2 0) with (SymbolState vocabulary_new (map (rename_data ρ) []) 2 0). rewrite <- vocabulary_new_map at 1.
    change (SymbolState (V vocabulary_new) (map (rename_data ρ) []) 2 0) with (rename_symbols (SymbolState vocabulary_new [] 2 0)). rewrite symbol_map.
    destruct (visit_children symbol_visitor r _) as [[x2 s2]| |]; cbn [rbind rmap fst snd]; [|done|done].
    rewrite height_map.
    change (production_visitor_new (sy_vocabulary (rename_symbols s2)) (productions (grammar_new [25105; 30340; 25991; 27861]%N)) (sy_next_rule_id (rename_symbols s2)))
      with (rename_state (production_visitor_new (sy_vocabulary s2) (productions (grammar_new [25105; 30340; 25991; 27861]%N)) (sy_next_rule_id s2))).
    rewrite productions_map. by destruct (production_visit_rule_list _ _ _) as [s3| |].
  Qed.
End rename.

(** ** Trees of the renamed grammar *)
Scheme element_tree_ind6 := Induction for element_tree Sort Prop with atom_trees_ind6 := Induction for atom_trees Sort Prop
  with block_tree_ind6 := Induction for block_tree Sort Prop with alternatives_trees_ind6 := Induction for alternatives_trees Sort Prop
  with alternative_tree_ind6 := Induction for alternative_tree Sort Prop with elements_trees_ind6 := Induction for elements_trees Sort Prop.
Combined Scheme trees_ind6 from element_tree_ind6, atom_trees_ind6, block_tree_ind6, alternatives_trees_ind6, alternative_tree_ind6, elements_trees_ind6.

Section trees.
  Context (ρ : str -> str).
  Notation f := (rename_token ρ).
  Lemma tok_map ty txt a : tok ty txt a -> tok ty (if carries_name ty then ρ txt else txt) (map_ast f a).
  Proof. intros (t & -> & <- & <-). exists (f t). split; [done|]. by rewrite f_type, f_text. Qed.
  Lemma any_tok_map ty a : any_tok ty a -> any_tok ty (map_ast f a).
  Proof. intros (t & -> & <-). exists (f t). split; [done|]. by rewrite f_type. Qed.
  Lemma suffix_tree_map s cs : suffix_tree s cs -> suffix_tree s (map (map_ast f) cs).
  Proof. destruct 1; cbn; constructor; by apply any_tok_map. Qed.
  Lemma trees_map :
    (forall e c, element_tree e c -> element_tree (rename_element ρ e) (map_ctx f c)) /\
    (forall a cs, atom_trees a cs -> atom_trees (rename_atom ρ a) (map (map_ast f) cs)) /\
    (forall b c, block_tree b c -> block_tree (map (rename_alternative ρ) b) (map_ctx f c)) /\
    (forall b cs, alternatives_trees b cs -> alternatives_trees (map (rename_alternative ρ) b) (map (map_ast f) cs)) /\
    (forall a c, alternative_tree a c -> alternative_tree (rename_alternative ρ a) (map_ctx f c)) /\
    (forall es cs, elements_trees es cs -> elements_trees (map (rename_element ρ) es) (map (map_ast f) cs)).
  Proof.
    apply trees_ind6.
    - intros a s n cs ss _ IH Hs. cbn [map_ctx rename_element]. rewrite map_app. constructor; [done|]. by apply suffix_tree_map.
    - intros name a H. constructor. exact (tok_map _ _ _ H).
    - intros name a H. constructor. exact (tok_map _ _ _ H).
    - intros name a H. constructor. exact (tok_map _ _ _ H).
    - intros alts l b r Hl Hr _ IH. cbn. constructor; [by apply any_tok_map..|done].
    - intros alts n cs _ IH. cbn. by constructor.
    - intros a c _ IH. cbn. by constructor.
    - intros a c o alts cs _ IH Ho _ IH2. cbn. constructor; [done|by apply any_tok_map|done].
    - intros n m e He. cbn. constructor. by apply any_tok_map.
    - intros n es cs _ IH. cbn. by constructor.
    - constructor.
    - intros e c es cs _ IH _ IH2. cbn. by constructor.
  Qed.
  Lemma rule_tree_map g c : rule_tree g c -> rule_tree (rename_rule ρ g) (map_ctx f c).
  Proof.
    destruct 1; cbn.
    - constructor; [by apply (tok_map RULE_REF)|by apply any_tok_map| |by apply any_tok_map]. by apply trees_map.
    - constructor; [by apply (tok_map TOKEN_REF)|by apply any_tok_map| |by apply any_tok_map]. by apply (tok_map REGULAR_LITERAL).
  Qed.
  Lemma grammar_tree_map G r : grammar_tree G r -> grammar_tree (map (rename_rule ρ) G) (map_ctx f r).
  Proof.
    intros (n & cs & -> & H). exists n, (map (map_ctx f) cs). split; [cbn; f_equal; by rewrite !map_map|].
    induction H as [|g c G cs Hg _ IH]; cbn; constructor; [|done]. by apply rule_tree_map.
  Qed.
End trees.

Lemma c95_load ρ G r r' : renaming ρ -> grammar_tree G r -> grammar_tree (map (rename_rule ρ) G) r' -> load_tree r' = rename_loaded ρ (load_tree r).
Proof.
  intros Hρ H H'. rewrite <- (load_map ρ Hρ r). eapply (c84_load _ _ _ _ H'); [by apply grammar_tree_map|done].
Qed.
