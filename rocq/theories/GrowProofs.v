(** GrowProofs.v -- C97: rules added at the end of a grammar. *)
From Verif Require Export SpecGrow MixedProofs.

(** *** The vocabulary only grows *)
Definition well (v : vocabulary) : Prop := dom (t_id_to_name v) ⊆ terminals v /\ dom (nt_id_to_name v) ⊆ nonterminals v.
Lemma names_kept_refl v : names_kept v v.
Proof. split_and!; done. Qed.
Lemma names_kept_trans v1 v2 v3 : names_kept v1 v2 -> names_kept v2 v3 -> names_kept v1 v3.
Proof. intros (A & B & C & D) (A' & B' & C' & D'). split_and!; by etrans. Qed.
Lemma add_terminal_grows v i n : well v -> well (fst (add_terminal v i n)) /\ names_kept v (fst (add_terminal v i n)).
Proof.
  intros [W1 W2]. unfold add_terminal. repeat case_bool_decide; cbn [fst]; [by split; [|apply names_kept_refl]..|].
  split; [split; cbn; [rewrite dom_insert_L; set_solver|done]|]. split_and!; cbn; try done.
  - apply insert_subseteq. by apply eq_None_not_Some.
  - apply insert_subseteq. apply not_elem_of_dom. set_solver.
Qed.
Lemma add_named_grows v i n : well v -> well (fst (add_named_nonterminal v i n)) /\ names_kept v (fst (add_named_nonterminal v i n)).
Proof.
  intros [W1 W2]. unfold add_named_nonterminal. repeat case_bool_decide; cbn [fst]; [by split; [|apply names_kept_refl]..|].
  split; [split; cbn; [done|rewrite dom_insert_L; set_solver]|]. split_and!; cbn; try done.
  - apply insert_subseteq. by apply eq_None_not_Some.
  - apply insert_subseteq. apply not_elem_of_dom. set_solver.
Qed.
Lemma step_grows s g s' : rule_step s g = Ret s' -> well (sy_vocabulary s) ->
  well (sy_vocabulary s') /\ names_kept (sy_vocabulary s) (sy_vocabulary s') /\ sy_data s `prefix_of` sy_data s'.
Proof.
  intros H W. destruct g as [n a|n x]; cbn [rule_step] in H.
  - destruct (is_terminal_name_defined _ _); injection H as <-; [split_and!; [done|apply names_kept_refl|done]|].
    cbn [name_step sy_vocabulary sy_data]. destruct (add_named_grows (sy_vocabulary s) (sy_next_rule_id s) n W). split_and!; done.
  - unfold token_step in H. destruct (is_terminal_name_defined _ _); [injection H as <-; split_and!; [done|apply names_kept_refl|done]|].
    destruct (blen x <? 2); [injection H as <-; split_and!; [done|apply names_kept_refl|done]|].
    destruct (unwrap_regular x); cbn [rbind] in H; [|done..]. injection H as <-. cbn [sy_vocabulary sy_data].
    destruct (add_terminal_grows (sy_vocabulary s) (sy_next_token_id s) n W). split_and!; [done|done|by apply prefix_app_r].
Qed.
Lemma fold_grows G : forall s s', rfold rule_step G s = Ret s' -> well (sy_vocabulary s) ->
  well (sy_vocabulary s') /\ names_kept (sy_vocabulary s) (sy_vocabulary s') /\ sy_data s `prefix_of` sy_data s'.
Proof.
  induction G as [|g G IH]; intros s s' H W; cbn [rfold] in H; [injection H as <-; split_and!; [done|apply names_kept_refl|done]|].
  destruct (rule_step s g) as [s1| |] eqn:E; cbn [rbind] in H; [|done..]. destruct (step_grows _ _ _ E W) as (W1 & K1 & D1).
  destruct (IH _ _ H W1) as (W2 & K2 & D2). split_and!; [done|by eapply names_kept_trans|by etrans].
Qed.
Lemma rfold_app {S A} (f : S -> A -> res S) xs ys : forall s, rfold f (xs ++ ys) s = let! s' := rfold f xs s in rfold f ys s'.
Proof. induction xs as [|x xs IH]; intros s; [done|]. cbn [app rfold]. destruct (f s x); cbn [rbind]; [apply IH|done..]. Qed.
Lemma well_new : well vocabulary_new.
Proof. split; apply (bool_decide_unpack _); vm_compute; exact I. Qed.

(** *** The production pass reads the tokens only by name *)
Definition same_names (v v' : vocabulary) : Prop :=
  t_name_to_id v' = t_name_to_id v /\ t_id_to_name v' = t_id_to_name v /\ terminals v' = terminals v /\ nt_name_to_id v' = nt_name_to_id v /\ nt_id_to_name v' = nt_id_to_name v.
Lemma same_names_refl v : same_names v v.
Proof. split_and!; done. Qed.
Lemma same_names_trans v1 v2 v3 : same_names v1 v2 -> same_names v2 v3 -> same_names v1 v3.
Proof. intros (A & B & C & D & E) (A' & B' & C' & D' & E'). split_and!; congruence. Qed.
Lemma add_unnamed_same v i : same_names v (fst (add_unnamed_nonterminal v i)).
Proof. unfold add_unnamed_nonterminal. repeat case_bool_decide; split_and!; done. Qed.

Section ext.
  Context (tn : gmap str nat) (ti : gmap nat str) (te : gset nat).
  Definition ext (v : vocabulary) : vocabulary :=
    {| nt_name_to_id := nt_name_to_id v; nt_id_to_name := nt_id_to_name v; t_name_to_id := tn; t_id_to_name := ti; nonterminals := nonterminals v; terminals := te |}.
  Definition ext_state (s : production_state) : production_state :=
    ProductionState (ext (ps_vocabulary s)) (ps_productions s) (ps_next_rule_id s) (block_cache s) (star_cache s) (plus_cache s) (question_cache s).
  Notation K := (fun x => (x.1, ext_state x.2)).
  Definition sub (s : production_state) : Prop := t_name_to_id (ps_vocabulary s) ⊆ tn.
  Notation same s s1 := (same_names (ps_vocabulary s) (ps_vocabulary s1)).
  Lemma sub_same s s1 : sub s -> same s s1 -> sub s1.
  Proof using. unfold sub. intros H (-> & _). exact H. Qed.
  Lemma add_unnamed_ext v i : fst (add_unnamed_nonterminal (ext v) i) = ext (fst (add_unnamed_nonterminal v i)).
  Proof using. unfold add_unnamed_nonterminal. cbn [nt_id_to_name nonterminals ext]. repeat case_bool_decide; done. Qed.
  Lemma suffix_ext c id it s : apply_suffix c id it (ext_state s) = K (apply_suffix c id it s) /\ same s (apply_suffix c id it s).2.
  Proof using.
    unfold apply_suffix. destruct (element_ebnf_suffix c) as [x|]; [|by split; [|apply same_names_refl]].
    destruct (suffix_star x); [|destruct (suffix_plus x)].
    - unfold apply_star. cbn [star_cache ext_state]. destruct (star_cache s !! id); [by split; [|apply same_names_refl]|]. cbn [fst snd]. unfold ext_state. cbn.
      rewrite add_unnamed_ext. split; [done|apply add_unnamed_same].
    - unfold apply_plus. cbn [plus_cache ext_state]. destruct (plus_cache s !! id); [by split; [|apply same_names_refl]|]. cbn [fst snd]. unfold ext_state. cbn.
      rewrite add_unnamed_ext. split; [done|apply add_unnamed_same].
    - unfold apply_question. cbn [question_cache ext_state]. destruct (question_cache s !! id); [by split; [|apply same_names_refl]|]. cbn [fst snd]. unfold ext_state. cbn.
      rewrite add_unnamed_ext. split; [done|apply add_unnamed_same].
  Qed.
  Lemma block_ext rights s : make_block rights (ext_state s) = K (make_block rights s) /\ same s (make_block rights s).2.
  Proof using.
    unfold make_block. cbn [block_cache ext_state]. destruct (block_cache s !! rights); [by split; [|apply same_names_refl]|]. cbn [fst snd]. unfold ext_state. cbn.
    rewrite add_unnamed_ext. split; [done|apply add_unnamed_same].
  Qed.
  Notation step := (rule_ctx -> production_state -> res (item * production_state)).
  Definition extends {A B} (rec : A -> production_state -> res (B * production_state)) : Prop :=
    forall c s x s1, sub s -> rec c s = Ret (x, s1) -> rec c (ext_state s) = Ret (x, ext_state s1) /\ same s s1.
  Lemma elements_ext (rec : step) : extends rec -> extends (visit_elements rec).
  Proof using.
    intros H cs. induction cs as [|c cs IH]; intros s x s1 Hs E; cbn [visit_elements] in *; [injection E as <- <-; by split; [|apply same_names_refl]|].
    destruct (rec c s) as [[it s2]| |] eqn:E1; cbn [rbind] in E; [|done..]. destruct (H _ _ _ _ Hs E1) as [-> H1]. cbn [rbind].
    destruct (visit_elements rec cs s2) as [[its s3]| |] eqn:E2; cbn [rbind] in E; [|done..].
    destruct (IH _ _ _ (sub_same _ _ Hs H1) E2) as [-> H2]. injection E as <- <-. split; [done|by eapply same_names_trans].
  Qed.
  Lemma alternative_ext (rec : step) : extends rec -> extends (visit_alternative rec).
  Proof using.
    intros H c s x s1 Hs E. unfold visit_alternative in *. destruct (alternative_epsilon c); [injection E as <- <-; by split; [|apply same_names_refl]|].
    by apply (elements_ext rec H).
  Qed.
  Lemma alternatives_ext (rec : step) : extends rec -> extends (visit_alternatives rec).
  Proof using.
    intros H cs. induction cs as [|c cs IH]; intros s x s1 Hs E; cbn [visit_alternatives] in *; [injection E as <- <-; by split; [|apply same_names_refl]|].
    destruct (visit_alternative rec c s) as [[it s2]| |] eqn:E1; cbn [rbind] in E; [|done..]. destruct (alternative_ext rec H _ _ _ _ Hs E1) as [-> H1]. cbn [rbind].
    destruct (visit_alternatives rec cs s2) as [[its s3]| |] eqn:E2; cbn [rbind] in E; [|done..].
    destruct (IH _ _ _ (sub_same _ _ Hs H1) E2) as [-> H2]. injection E as <- <-. split; [done|by eapply same_names_trans].
  Qed.
  Lemma element_ext fuel : extends (visit_element fuel).
  Proof using.
    induction fuel as [|fuel IH]; [done|]. intros c s x s1 Hs E. cbn [visit_element] in *.
    assert (Ht : forall t, match get_terminal_id_by_name (ps_vocabulary s) t with Some id => get_terminal_id_by_name (ps_vocabulary (ext_state s)) t = Some id | None => True end).
    { intros t. unfold get_terminal_id_by_name. destruct (t_name_to_id (ps_vocabulary s) !! t) as [id|] eqn:Et; [|done]. by apply (lookup_weaken _ _ _ _ Et). }
    destruct (element_token_ref c) as [t|].
    { specialize (Ht (text t)). destruct (get_terminal_id_by_name (ps_vocabulary s) _) as [id|]; cbn [unwrap rbind] in *; [|done]. rewrite Ht. cbn [unwrap rbind].
      destruct (suffix_ext c id (T id) s) as [-> H2]. injection E as E. rewrite E in *. by split. }
    destruct (element_string_literal c) as [t|].
    { specialize (Ht (text t)). destruct (get_terminal_id_by_name (ps_vocabulary s) _) as [id|]; cbn [unwrap rbind] in *; [|done]. rewrite Ht. cbn [unwrap rbind].
      destruct (suffix_ext c id (T id) s) as [-> H2]. injection E as E. rewrite E in *. by split. }
    destruct (element_rule_ref c) as [t|].
    { change (get_nonterminal_id_by_name (ps_vocabulary (ext_state s)) (text t)) with (get_nonterminal_id_by_name (ps_vocabulary s) (text t)).
      destruct (get_nonterminal_id_by_name (ps_vocabulary s) _) as [id|]; cbn [unwrap rbind] in *; [|done].
      destruct (suffix_ext c id (NT id) s) as [-> H2]. injection E as E. rewrite E in *. by split. }
    destruct (element_block c) as [b|]; [|done]. unfold visit_block in *.
    destruct (visit_alternatives _ _ s) as [[rs s2]| |] eqn:E1; cbn [rbind] in E; [|done..].
    destruct (alternatives_ext _ IH _ _ _ _ Hs E1) as [-> H1]. cbn [rbind]. destruct (block_ext rs s2) as [-> H2].
    destruct (make_block rs s2) as [id s3]. cbn [rbind fst snd] in *. destruct (suffix_ext c id (NT id) s3) as [-> H3].
    injection E as E. rewrite E in *. split; [done|]. eapply same_names_trans; [|exact H3]. by eapply same_names_trans.
  Qed.
  Lemma rfold_ext {A} (f : production_state -> A -> res production_state) :
    (forall s a s1, sub s -> f s a = Ret s1 -> f (ext_state s) a = Ret (ext_state s1) /\ same s s1) ->
    forall xs s s1, sub s -> rfold f xs s = Ret s1 -> rfold f xs (ext_state s) = Ret (ext_state s1) /\ same s s1.
  Proof using.
    intros H xs. induction xs as [|x xs IH]; intros s s1 Hs E; cbn [rfold] in *; [injection E as <-; by split; [|apply same_names_refl]|].
    destruct (f s x) as [s2| |] eqn:E1; cbn [rbind] in E; [|done..]. destruct (H _ _ _ Hs E1) as [-> H1]. cbn [rbind].
    destruct (IH _ _ (sub_same _ _ Hs H1) E) as [-> H2]. split; [done|by eapply same_names_trans].
  Qed.
  Lemma productions_ext fuel r s s1 : sub s -> production_visit_rule_list fuel r s = Ret s1 ->
    production_visit_rule_list fuel r (ext_state s) = Ret (ext_state s1) /\ same s s1.
  Proof using.
    apply rfold_ext. clear. intros s c s1 Hs E. unfold production_visit_parser_rule in *.
    destruct (parser_rule_rule_ref c) as [t|]; cbn [unwrap rbind] in *; [|done].
    change (get_nonterminal_id_by_name (ps_vocabulary (ext_state s)) (text t)) with (get_nonterminal_id_by_name (ps_vocabulary s) (text t)).
    destruct (get_nonterminal_id_by_name _ _) as [id|]; cbn [unwrap rbind] in *; [|done].
    destruct (parser_rule_block c) as [b|]; cbn [unwrap rbind] in *; [|done].
    apply (fun H => rfold_ext _ H _ _ _ Hs E). clear. intros s c s1 Hs E. unfold visit_rule_alternative in *.
    destruct (visit_alternative _ c s) as [[rr s2]| |] eqn:E1; cbn [rbind] in E; [|done..].
    destruct (alternative_ext _ (element_ext fuel) _ _ _ _ Hs E1) as [-> H1]. cbn [rbind]. injection E as <-. by split.
  Qed.
End ext.

(** *** Loading *)
Lemma load_inv G r g data : grammar_tree G r -> load_tree r = Ret (g, data) -> exists s2 s3,
  (exists x, visit_children literal_visitor r (LiteralState vocabulary_new 2 []) = Ret (x, LiteralState vocabulary_new 2 [])) /\
  rfold rule_step G (SymbolState vocabulary_new [] 2 0) = Ret s2 /\
  production_visit_rule_list (height r) r (production_visitor_new (sy_vocabulary s2) ∅ (sy_next_rule_id s2)) = Ret s3 /\
  g = Grammar [25105; 30340; 25991; 27861]%N (ps_vocabulary s3) (ps_productions s3) /\ data = sy_data s2 /\
  same_names (sy_vocabulary s2) (ps_vocabulary s3).
Proof.
  intros HT H. unfold load_tree in H. cbn [grammar_new g_vocabulary productions g_name] in H.
  destruct (visit_children literal_visitor r _) as [[x s1]| |] eqn:E1; cbn [rbind] in H; [|done..].
  pose proof (literal_pass _ _ _ _ E1). subst s1. cbn [lt_vocabulary lt_data lt_next_token_id] in H. rewrite (symbol_rules _ _ _ HT) in H.
  destruct (rfold rule_step G _) as [s2| |] eqn:E2; cbn [rbind] in H; [|done..].
  destruct (production_visit_rule_list _ r _) as [s3| |] eqn:E3; cbn [rbind] in H; [|done..]. injection H as <- <-.
  exists s2, s3. split_and!; [by exists x|done|done|done|done|].
  refine (proj2 (productions_ext (t_name_to_id (sy_vocabulary s2)) ∅ ∅ _ _ _ _ _ E3)). unfold sub. reflexivity.
Qed.

Lemma c97_numbers G G2 r r' g data g' data' : grammar_tree G r -> grammar_tree (G ++ G2) r' -> load_tree r = Ret (g, data) -> load_tree r' = Ret (g', data') ->
  names_kept (g_vocabulary g) (g_vocabulary g') /\ data `prefix_of` data'.
Proof.
  intros HT HT' (s2 & s3 & _ & E2 & E3 & -> & -> & S1)%(load_inv _ _ _ _ HT) (s2' & s3' & _ & E2' & E3' & -> & -> & S2)%(load_inv _ _ _ _ HT').
  rewrite rfold_app, E2 in E2'. cbn [rbind] in E2'. destruct (fold_grows _ _ _ E2 well_new) as (W & _). destruct (fold_grows _ _ _ E2' W) as (_ & K & D).
  split; [|done]. cbn [g_vocabulary]. destruct S1 as (A & B & _ & C & C1), S2 as (A' & B' & _ & C' & C1'). unfold names_kept. by rewrite A, B, C, C1, A', B', C', C1'.
Qed.

(** Only tokens added. *)
Lemma token_rules_parser Ts : Forall token_rule Ts -> parser_rules_of (map plain_rule Ts) = [].
Proof. induction 1 as [|? Ts (n & x & ->)]; done. Qed.
Lemma plain_app G Ts : Forall token_rule Ts -> parser_rules_of (map plain_rule (G ++ Ts)) = parser_rules_of (map plain_rule G).
Proof. intros H. unfold parser_rules_of in *. rewrite map_app, omap_app. pose proof (token_rules_parser _ H) as E. unfold parser_rules_of in E. by rewrite E, app_nil_r. Qed.
Lemma fold_fresh G : forall s s', rfold rule_step G s = Ret s' -> (forall i, sy_next_token_id s <= i -> i ∉ terminals (sy_vocabulary s)) ->
  length (sy_data s) + 2 = sy_next_token_id s ->
  (forall i, sy_next_token_id s' <= i -> i ∉ terminals (sy_vocabulary s')) /\ length (sy_data s') + 2 = sy_next_token_id s'.
Proof.
  induction G as [|g G IH]; intros s s' H Hi Hl; cbn [rfold] in H; [by injection H as <-|].
  destruct (rule_step s g) as [s1| |] eqn:E; cbn [rbind] in H; [|done..]. destruct g as [n a|n x]; cbn [rule_step] in E.
  - destruct (is_terminal_name_defined _ _); injection E as <-; [by apply (IH s)|]. apply (IH _ _ H); [|done]. cbn [name_step sy_vocabulary sy_next_token_id].
    intros i. unfold add_named_nonterminal. repeat case_bool_decide; cbn [fst terminals]; apply Hi.
  - unfold token_step in E. destruct (is_terminal_name_defined _ _); [injection E as <-; by apply (IH s)|]. destruct (blen x <? 2); [injection E as <-; by apply (IH s)|].
    destruct (unwrap_regular x); cbn [rbind] in E; [|done..]. injection E as <-. apply (IH _ _ H); cbn [sy_vocabulary sy_next_token_id sy_data].
    + intros i Hn. unfold add_terminal. repeat case_bool_decide; cbn [fst terminals]; [apply Hi; lia..|]. apply not_elem_of_union. split; [|apply Hi; lia].
      rewrite not_elem_of_singleton. lia.
    + rewrite app_length. cbn [length]. lia.
Qed.
Lemma token_fold Ts : Forall token_rule Ts -> forall s, (forall i, sy_next_token_id s <= i -> i ∉ terminals (sy_vocabulary s)) ->
  exists s' extra, rfold rule_step Ts s = Ret s' /\ sy_data s' = sy_data s ++ extra /\ sy_next_rule_id s' = sy_next_rule_id s /\
  rules_kept (sy_vocabulary s) (sy_vocabulary s') /\
  map ld_name extra = new_names (dom (t_name_to_id (sy_vocabulary s))) (lexer_rule_names Ts) /\
  map ld_type extra = seq (sy_next_token_id s) (length extra).
Proof.
  induction 1 as [|? Ts (n & x & ->) _ IH]; intros s Hi.
  { exists s, []. rewrite app_nil_r. by split_and!. }
  cbn [rfold rule_step]. unfold token_step. change (lexer_rule_names (LexerRule n (lit "/" ++ x ++ lit "/") :: Ts)) with (n :: lexer_rule_names Ts). cbn [new_names].
  unfold is_terminal_name_defined. case_bool_decide as Hd.
  { rewrite bool_decide_true by by apply elem_of_dom. cbn [rbind]. by apply IH. }
  rewrite bool_decide_false by by rewrite elem_of_dom.
  assert (Hdel : delimited (lit "/" ++ x ++ lit "/") x) by by exists 47%N, 47%N.
  rewrite (proj2 (Nat.ltb_ge _ _) (delimited_blen _ _ Hdel)).
  assert (exists y, unwrap_regular (lit "/" ++ x ++ lit "/") = Ret y) as [y ->].
  { destruct (c47_unescape x) as (body' & Hu & _). eexists. apply unwrap_regular_spec. by exists x, body'. }
  cbn [rbind]. unfold add_terminal. rewrite bool_decide_false by done. rewrite bool_decide_false by (apply Hi; lia). cbn [fst].
  match goal with |- context [rfold rule_step Ts ?s1] => destruct (IH s1) as (s' & extra & E1 & E2 & E3 & E4 & E5 & E6) end.
  { cbn. intros i Hn. apply not_elem_of_union. split; [rewrite not_elem_of_singleton; lia|apply Hi; lia]. }
  cbn in E2, E3, E4, E5, E6. exists s', (LexerRuleData (sy_next_token_id s) n y :: extra). split_and!; [done|by rewrite E2, <- app_assoc|done|done|..].
  - cbn [map ld_name]. by rewrite E5, dom_insert_L.
  - cbn [map ld_type length seq]. by rewrite E6.
Qed.

Lemma build_table_kept fuel order g g' : productions g' = productions g -> nonterminals (g_vocabulary g') = nonterminals (g_vocabulary g) ->
  build_table fuel order g' = build_table fuel order g.
Proof. intros E1 E2. unfold build_table, first_set, follow_set. by rewrite E1, E2. Qed.

Lemma c97_tokens G Ts r r' g data : grammar_tree G r -> grammar_tree (G ++ Ts) r' -> Forall token_rule Ts -> load_tree r = Ret (g, data) ->
  exists g' extra, load_tree r' = Ret (g', data ++ extra) /\ productions g' = productions g /\
    rules_kept (g_vocabulary g) (g_vocabulary g') /\ names_kept (g_vocabulary g) (g_vocabulary g') /\
    map ld_name extra = new_names (dom (t_name_to_id (g_vocabulary g))) (lexer_rule_names Ts) /\
    map ld_type extra = seq (length data + 2) (length extra) /\
    (forall fuel order, build_table fuel order g' = build_table fuel order g).
Proof.
  intros HT HT' HTs Hl. pose proof Hl as (s2 & s3 & (x & El) & E2 & E3 & -> & -> & S1)%(load_inv _ _ _ _ HT).
  assert (Hf : (forall i, sy_next_token_id s2 <= i -> i ∉ terminals (sy_vocabulary s2)) /\ length (sy_data s2) + 2 = sy_next_token_id s2).
  { apply (fold_fresh _ _ _ E2); [|done]. cbn [sy_next_token_id sy_vocabulary]. intros i Hi. change (terminals vocabulary_new) with ({[1]} ∪ ({[0]} ∪ ∅) : gset nat).
    rewrite !not_elem_of_union, !not_elem_of_singleton. split; [lia|]. split; [lia|]. apply not_elem_of_empty. }
  destruct Hf as [Hi Hlen]. destruct (token_fold _ HTs _ Hi) as (s2' & extra & F1 & F2 & F3 & (F4 & F5 & F6) & F7 & F8).
  destruct (fold_grows _ _ _ E2 well_new) as (W & _). destruct (fold_grows _ _ _ F1 W) as (_ & (K1 & K2 & K3 & K4) & _).
  set (v2 := sy_vocabulary s2) in *. set (v2' := sy_vocabulary s2') in *.
  destruct (productions_ext (t_name_to_id v2') (t_id_to_name v2') (terminals v2') _ _ _ _ (K1 : sub _ (production_visitor_new v2 ∅ (sy_next_rule_id s2))) E3) as [P _].
  assert (Ev : ext (t_name_to_id v2') (t_id_to_name v2') (terminals v2') v2 = v2').
  { unfold ext. rewrite <- F4, <- F5, <- F6. by destruct v2'. }
  assert (Eload : load_tree r' = Ret (Grammar [25105; 30340; 25991; 27861]%N (ext (t_name_to_id v2') (t_id_to_name v2') (terminals v2') (ps_vocabulary s3)) (ps_productions s3), sy_data s2')).
  { unfold load_tree. cbn [grammar_new g_vocabulary productions g_name].
    rewrite (literal_tops _ _ _ _ _ HT' HT), El.
    2: { rewrite !tops_plain, (tops_parts (map plain_rule _)), (tops_parts (map plain_rule G)). by rewrite plain_app. }
    cbn [rbind lt_vocabulary lt_data lt_next_token_id]. rewrite (symbol_rules _ _ _ HT'), rfold_app, E2. cbn [rbind]. rewrite F1. cbn [rbind].
    rewrite (productions_parts _ _ _ _ (height r') (height r) _ HT' HT) by (try apply plain_app; done).
    fold v2'. rewrite F3. unfold ext_state in P. cbn [ps_vocabulary production_visitor_new ps_productions ps_next_rule_id block_cache star_cache plus_cache question_cache] in P.
    unfold production_visitor_new. fold v2 in P. rewrite Ev in P. rewrite P. reflexivity. }
  rewrite F2 in Eload. eexists _, extra. split; [exact Eload|]. destruct S1 as (A & B & _ & C & C1).
  split_and!; cbn [productions g_vocabulary]; try done.
  - unfold names_kept. cbn [ext t_name_to_id t_id_to_name nt_name_to_id nt_id_to_name]. by rewrite A, B.
  - by rewrite A.
  - by rewrite Hlen.
Qed.

(** *** A text on which the new rules never win *)
Lemma select_app a b rest : forall i best, select_go (a ++ b) i rest best = select_go b (i + length a) rest (select_go a i rest best).
Proof.
  induction a as [|m a IH]; intros i best; cbn [app select_go length]; [by rewrite Nat.add_0_r|]. rewrite IH. f_equal; lia.
Qed.
Lemma select_mono a rest : forall i best, best.1 <= (select_go a i rest best).1 /\ forall m e, m ∈ a -> m rest = Some e -> e <= (select_go a i rest best).1.
Proof.
  induction a as [|m a IH]; intros i best; cbn [select_go]; [split; [done|]; intros ? ? []%elem_of_nil|].
  destruct (IH (S i) (match m rest with Some e => if best.1 <? e then (e, i + 2) else best | None => best end)) as [H1 H2].
  assert (Hb : best.1 <= (match m rest with Some e => if best.1 <? e then (e, i + 2) else best | None => best end).1).
  { destruct (m rest) as [e|]; [|done]. destruct (Nat.ltb_spec best.1 e); cbn [fst]; lia. }
  split; [lia|]. intros m' e [->|Hm]%elem_of_cons E; [|by eapply H2]. rewrite E in *. destruct (Nat.ltb_spec best.1 e); cbn [fst] in *; lia.
Qed.
Lemma select_type a rest : forall i best, (select_go a i rest best).2 = best.2 \/ (select_go a i rest best).2 < i + length a + 2.
Proof.
  induction a as [|m a IH]; intros i best; cbn [select_go]; [by left|]. cbn [length].
  destruct (IH (S i) (match m rest with Some e => if best.1 <? e then (e, i + 2) else best | None => best end)) as [H|H]; [|right; lia].
  rewrite H. destruct (m rest) as [e|]; [|by left]. destruct (best.1 <? e); [right; cbn [snd]; lia|by left].
Qed.
Lemma select_short b rest : forall i best, (forall m e, m ∈ b -> m rest = Some e -> e <= best.1) -> select_go b i rest best = best.
Proof.
  induction b as [|m b IH]; intros i best H; cbn [select_go]; [done|].
  assert ((match m rest with Some e => if best.1 <? e then (e, i + 2) else best | None => best end) = best) as ->.
  { destruct (m rest) as [e|] eqn:E; [|done]. rewrite (proj2 (Nat.ltb_ge _ _)); [done|]. apply (H m); [by left|done]. }
  apply IH. intros m' e Hm. apply H. by right.
Qed.
Lemma scan_more compile data extra s st : never_longer (map (fun t => compile (ld_regex t)) data) (map (fun t => compile (ld_regex t)) extra) s ->
  scan (generated_lexer compile (data ++ extra) s) st = scan (generated_lexer compile data s) st.
Proof.
  intros H. unfold scan. cbn [input generated_lexer]. destruct (blen s <? cursor st); [done|]. destruct (blen s <=? cursor st); [done|].
  unfold scan_body. cbn [input regex_list token_names generated_lexer]. destruct (drop_bytes (cursor st) s) as [rest|] eqn:Er; cbn [unwrap rbind]; [|done].
  apply drop_bytes_inv in Er as (p & -> & _).
  assert (select (map (fun t => compile (ld_regex t)) (data ++ extra)) rest = select (map (fun t => compile (ld_regex t)) data) rest) as ->.
  { unfold select. rewrite map_app, select_app. apply select_short. intros m e Hm E. destruct (H rest ltac:(by exists p) m e Hm E) as [->|(m' & e' & Hm' & E' & Hle)]; [lia|].
    etrans; [exact Hle|]. by eapply (proj2 (select_mono _ rest 0 (0, 0))). }
  pose proof (select_type (map (fun t => compile (ld_regex t)) data) rest 0 (0, 0)) as Ht. fold (select (map (fun t => compile (ld_regex t)) data) rest) in Ht.
  destruct (select _ rest) as [len ty]. cbn [snd] in Ht. rewrite map_length in Ht.
  destruct (ty <=? 0); [done|]. rewrite map_app, !app_comm_cons, lookup_app_l; [done|]. cbn [length]. rewrite map_length. lia.
Qed.
Lemma scan_loop_ext sc sc' skip chan fuel : (forall st, sc st = sc' st) -> forall st acc, scan_loop sc skip chan fuel st acc = scan_loop sc' skip chan fuel st acc.
Proof.
  intros H. induction fuel as [|fuel IH]; intros st acc; [done|]. cbn [scan_loop]. rewrite H. destruct (sc' st) as [[[t|] st']| |]; cbn [rbind]; [|done..].
  destruct (skip _); [apply IH|]. destruct (_ =? _); apply IH.
Qed.
Lemma log_ast_names voc voc' tab toks fuel : nt_id_to_name voc' = nt_id_to_name voc -> forall cursor i, log_ast voc' tab toks fuel cursor i = log_ast voc tab toks fuel cursor i.
Proof.
  intros E. induction fuel as [|fuel IH]; intros cursor i; [done|]. cbn [log_ast]. unfold get_nonterminal_name_with_default. rewrite E.
  destruct (toks !! cursor) as [tok|]; [|done]. cbn [Crash.lor]. cbn [lbind lret]. destruct (tab !! _) as [p|]; [|done]. cbn [Crash.lor lbind lret].
  assert (K : forall rhs c kids, log_items voc' toks (log_ast voc' tab toks fuel) rhs c kids = log_items voc toks (log_ast voc tab toks fuel) rhs c kids).
  { induction rhs as [|[k|ty] rhs IHr]; intros c kids; [done|..]; cbn [log_items].
    - rewrite IH. destruct (log_ast voc tab toks fuel c k) as [l [[rr c']|e]]; [|done]. cbn [lbind]. unfold get_nonterminal_name_by_id. rewrite E. by rewrite IHr.
    - destruct (toks !! c) as [tk|]; [|done]. cbn [Crash.lor lbind lret]. by rewrite IHr. }
  by rewrite K.
Qed.
Lemma c97_chain compile G Ts r r' g data g' data' extra order fuel ws s :
  grammar_tree G r -> grammar_tree (G ++ Ts) r' -> Forall token_rule Ts -> load_tree r = Ret (g, data) -> load_tree r' = Ret (g', data') -> data' = data ++ extra ->
  never_longer (map (fun t => compile (ld_regex t)) data) (map (fun t => compile (ld_regex t)) extra) s ->
  chain_log compile order fuel g' data' ws s = chain_log compile order fuel g data ws s.
Proof.
  intros HT HT' HTs Hl Hl' -> Hn. destruct (c97_tokens _ _ _ _ _ _ HT HT' HTs Hl) as (g2 & ex2 & Hl2 & _ & (_ & En & _) & _ & _ & _ & Hb).
  rewrite Hl' in Hl2. injection Hl2 as <- _. unfold chain_log. rewrite Hb. destruct (build_table fuel order g) as [[tab w]| |]; cbn [rbind]; [|done..].
  assert (scan_all (generated_lexer compile (data ++ extra) s) ws 0 fuel lexer_init = scan_all (generated_lexer compile data s) ws 0 fuel lexer_init) as ->.
  { unfold scan_all. rewrite (scan_loop_ext _ (scan (generated_lexer compile data s))) by (intros; by apply scan_more). done. }
  destruct (scan_all _ ws 0 fuel lexer_init) as [[toks rest]| |]; cbn [rbind]; [|done..]. unfold log_parse. by rewrite (log_ast_names (g_vocabulary g) (g_vocabulary g')).
Qed.
