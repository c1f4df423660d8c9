(** BoundsProofs.v -- C65: bounds on identifiers, offsets and cursors. *)
From Verif Require Export SpecBounds VisitorLemmas SymbolProofs ProductionProofs LexerProofs LexerMain Parser.

Lemma sum_app l l' : sum_list (l ++ l') = sum_list l + sum_list l'.
Proof. induction l as [|x l IH]; cbn in *; [done|]. rewrite IH. lia. Qed.

Definition nodes_list (cs : list ast) : nat :=
  sum_list (map (fun a => match a with Rule c => nodes c | _ => 0 end) cs).
Lemma nodes_unfold r : nodes r = S (nodes_list (children r)).
Proof.
  destruct r as [n cs i]. cbn [nodes children]. f_equal.
  induction cs as [|[t|c|t] cs IH]; [done|..]; cbn [nodes_list map sum_list]; unfold nodes_list in *; cbn; by rewrite IH.
Qed.

Lemma outermost_le p r : length (outermost p r) <= nodes r.
Proof.
  induction r as [n cs i IH] using tree_ind. cbn [outermost]. destruct (p i); [rewrite nodes_unfold; cbn; lia|].
  cbn [nodes]. apply Nat.le_trans with (2 := Nat.le_succ_diag_r _).
  induction cs as [|[t|c|t] cs IHcs]; [done|..].
  - apply IHcs. intros r Hr. apply IH. by apply elem_of_list_further.
  - rewrite app_length. apply Nat.add_le_mono; [apply IH, elem_of_list_here|].
    apply IHcs. intros r Hr. apply IH. by apply elem_of_list_further.
  - apply IHcs. intros r Hr. apply IH. by apply elem_of_list_further.
Qed.

(** The nodes below the children of one kind. *)
Lemma contexts_le r ty : sum_list (map nodes (get_rule_contexts r ty)) < nodes r.
Proof.
  rewrite nodes_unfold. apply Nat.lt_succ_r. unfold get_rule_contexts.
  enough (forall acc, sum_list (map nodes (fold_left (fun acc child => match child with Rule c => if rule_index c =? ty then acc ++ [c] else acc | _ => acc end) (children r) acc))
    <= sum_list (map nodes acc) + nodes_list (children r)) as K by apply (K []).
  induction (children r) as [|[t|c|t] cs IH]; intros acc; [cbn; lia|..]; unfold nodes_list in *; cbn [fold_left map sum_list].
  - apply IH.
  - destruct (rule_index c =? ty); [|etrans; [apply IH|lia]].
    etrans; [apply IH|]. rewrite map_app, sum_app.
    cbn. lia.
  - apply IH.
Qed.

Lemma context_lt r ty k c : get_rule_context r ty k = Some c -> nodes c < nodes r.
Proof.
  unfold get_rule_context. destruct (k <? _); [|done]. intros H. eapply Nat.le_lt_trans; [|apply (contexts_le r ty)].
  revert k H. induction (get_rule_contexts r ty) as [|x l IH]; intros [|k] H; [done|done|..]; cbn in *.
  - injection H as ->. lia.
  - apply IH in H. lia.
Qed.

(** ** The symbol pass *)
Lemma symbol_step s r s' : visit_step symbol_visitor s r = Ret s' ->
  sy_next_token_id s <= sy_next_token_id s' /\ sy_next_rule_id s <= sy_next_rule_id s' /\
  sy_next_token_id s' + sy_next_rule_id s' <= S (sy_next_token_id s + sy_next_rule_id s).
Proof.
  unfold visit_step, v_override, symbol_visitor. destruct r as [n cs i]. cbn [rule_index].
  destruct i as [|[|[|[|[|[|[|[|[|i]]]]]]]]]; cbn; try (intros [= <-]; lia).
  - destruct (symbol_visit_parser_rule _ s) as [[x s1]| |] eqn:E; simpl; [|done|done]. intros [= <-].
    unfold symbol_visit_parser_rule in E. destruct (parser_rule_rule_ref _) as [t|]; simpl in E; [|done].
    destruct (is_terminal_name_defined _ _); injection E as _ <-; cbn; lia.
  - destruct (symbol_visit_lexer_rule _ s) as [[x s1]| |] eqn:E; simpl; [|done|done]. intros [= <-].
    unfold symbol_visit_lexer_rule in E. destruct (lexer_rule_token_ref _) as [t|]; simpl in E; [|done].
    destruct (is_terminal_name_defined _ _); [injection E as _ <-; lia|].
    destruct (lexer_rule_regular _) as [g|]; simpl in E; [|done].
    destruct (regular_regular_literal g) as [l|]; simpl in E; [|done].
    destruct (blen (text l) <? 2); [injection E as _ <-; lia|].
    destruct (unwrap_regular (text l)); simpl in E; [|done|done]. injection E as _ <-. cbn. lia.
Qed.
Lemma symbol_steps l s s' : rfold (visit_step symbol_visitor) l s = Ret s' ->
  sy_next_token_id s <= sy_next_token_id s' /\ sy_next_rule_id s <= sy_next_rule_id s' /\
  sy_next_token_id s' + sy_next_rule_id s' <= sy_next_token_id s + sy_next_rule_id s + length l.
Proof.
  revert s. induction l as [|x l IH]; intros s H; simpl in H; [injection H as <-; cbn; lia|].
  destruct (visit_step symbol_visitor s x) as [s1| |] eqn:E; simpl in H; [|done|done].
  apply symbol_step in E. apply IH in H. cbn. lia.
Qed.
Lemma c65_symbols r s s' x : visit_children symbol_visitor r s = Ret (x, s') ->
  sy_next_token_id s <= sy_next_token_id s' /\ sy_next_rule_id s <= sy_next_rule_id s' /\
  sy_next_token_id s' + sy_next_rule_id s' <=
    sy_next_token_id s + sy_next_rule_id s + length (outermost_below (fun i => (i =? PARSER_RULE) || (i =? LEXER_RULE)) r).
Proof.
  rewrite visit_children_fold by done. intros H.
  destruct (rfold _ _ s) as [s1| |] eqn:E; simpl in H; [|done|done]. injection H as _ <-.
  apply symbol_steps in E. rewrite (outermost_below_ext _ (overridden symbol_visitor)); [done|].
  intros i. unfold overridden. by do 9 (destruct i as [|i]; [done|]).
Qed.

(** ** The production pass *)
Definition grown (k : nat) (s s' : production_state) : Prop := ps_next_rule_id s <= ps_next_rule_id s' <= ps_next_rule_id s + k.
Lemma grown_trans a b c s s1 s2 : grown a s s1 -> grown b s1 s2 -> a + b <= c -> grown c s s2.
Proof. unfold grown. lia. Qed.

Lemma suffix_grown r id it s it' s' : apply_suffix r id it s = (it', s') -> grown 1 s s'.
Proof.
  unfold apply_suffix, grown. destruct (element_ebnf_suffix r) as [x|]; [|intros [= _ <-]; lia].
  destruct (suffix_star x); [|destruct (suffix_plus x)]; unfold apply_star, apply_plus, apply_question; destruct (_ !! id); intros [= _ <-]; cbn; lia.
Qed.
Lemma block_grown rs s id s' : make_block rs s = (id, s') -> grown 1 s s'.
Proof. unfold make_block, grown. destruct (_ !! rs); intros [= _ <-]; cbn; lia. Qed.

Definition grows_by (f : rule_ctx -> production_state -> res (item * production_state)) : Prop :=
  forall r s it s', f r s = Ret (it, s') -> grown (nodes r) s s'.
Lemma elements_grown f es s its s' : grows_by f -> visit_elements f es s = Ret (its, s') -> grown (sum_list (map nodes es)) s s'.
Proof.
  intros Hf. revert s its. induction es as [|e es IH]; intros s its H; simpl in H; [injection H as _ <-; unfold grown; lia|].
  destruct (f e s) as [[it s1]| |] eqn:E; simpl in H; [|done|done].
  destruct (visit_elements f es s1) as [[its' s2]| |] eqn:E2; simpl in H; [|done|done]. injection H as _ <-.
  apply Hf in E. apply IH in E2. eapply grown_trans; [exact E|exact E2|cbn; lia].
Qed.
Lemma alternative_grown f a s its s' : grows_by f -> visit_alternative f a s = Ret (its, s') -> grown (nodes a) s s'.
Proof.
  intros Hf. unfold visit_alternative. destruct (alternative_epsilon a); [intros [= _ <-]; unfold grown; lia|].
  intros H%elements_grown; [|done]. pose proof (contexts_le a ELEMENT). unfold grown, element_list in *. lia.
Qed.
Lemma alternatives_grown f l s rs s' : grows_by f -> visit_alternatives f l s = Ret (rs, s') -> grown (sum_list (map nodes l)) s s'.
Proof.
  intros Hf. revert s rs. induction l as [|a l IH]; intros s rs H; simpl in H; [injection H as _ <-; unfold grown; lia|].
  destruct (visit_alternative f a s) as [[its s1]| |] eqn:E; simpl in H; [|done|done].
  destruct (visit_alternatives f l s1) as [[rs' s2]| |] eqn:E2; simpl in H; [|done|done]. injection H as _ <-.
  apply alternative_grown in E; [|done]. apply IH in E2. eapply grown_trans; [exact E|exact E2|cbn; lia].
Qed.
Lemma element_grown fuel : grows_by (visit_element fuel).
Proof.
  induction fuel as [|fuel IH]; intros r s it s' H; [done|]. cbn [visit_element] in H.
  assert (1 <= nodes r) as K by (rewrite nodes_unfold; lia).
  destruct (element_token_ref r) as [t|].
  { destruct (get_terminal_id_by_name _ _) as [id|]; simpl in H; [|done]. injection H as H%suffix_grown. unfold grown in *. lia. }
  destruct (element_string_literal r) as [t|].
  { destruct (get_terminal_id_by_name _ _) as [id|]; simpl in H; [|done]. injection H as H%suffix_grown. unfold grown in *. lia. }
  destruct (element_rule_ref r) as [t|].
  { destruct (get_nonterminal_id_by_name _ _) as [id|]; simpl in H; [|done]. injection H as H%suffix_grown. unfold grown in *. lia. }
  destruct (element_block r) as [b|] eqn:Eb; [|done]. unfold visit_block in H.
  destruct (visit_alternatives (visit_element fuel) (alternative_list b) s) as [[rs s1]| |] eqn:E1; simpl in H; [|done|done].
  destruct (make_block rs s1) as [id s2] eqn:E2. simpl in H. injection H as H%suffix_grown.
  apply alternatives_grown in E1; [|done]. apply block_grown in E2. apply context_lt in Eb.
  pose proof (contexts_le b ALTERNATIVE). unfold grown, alternative_list in *. lia.
Qed.

Lemma parser_rule_grown fuel s r s' : production_visit_parser_rule fuel s r = Ret s' -> grown (pred (nodes r)) s s'.
Proof.
  unfold production_visit_parser_rule. intros H. destruct (parser_rule_rule_ref r) as [t|]; simpl in H; [|done].
  destruct (get_nonterminal_id_by_name _ _) as [id|]; simpl in H; [|done].
  destruct (parser_rule_block r) as [b|] eqn:Eb; simpl in H; [|done]. apply context_lt in Eb.
  pose proof (contexts_le b ALTERNATIVE) as L. fold (alternative_list b) in L.
  assert (grown (sum_list (map nodes (alternative_list b))) s s') as K; [|unfold grown in *; lia].
  revert s H. clear Eb L. induction (alternative_list b) as [|a l IH]; intros s H; simpl in H; [injection H as <-; unfold grown; lia|].
  unfold visit_rule_alternative in H at 1. destruct (visit_alternative (visit_element fuel) a s) as [[x s1]| |] eqn:E; simpl in H; [|done|done].
  apply alternative_grown in E; [|apply element_grown]. apply IH in H. unfold grown in *. cbn in *. lia.
Qed.
Lemma c65_productions fuel r s s' : production_visit_rule_list fuel r s = Ret s' ->
  ps_next_rule_id s <= ps_next_rule_id s' <= ps_next_rule_id s + sum_list (map (fun c => nodes c - 1) (parser_rule_list r)).
Proof.
  unfold production_visit_rule_list. revert s. induction (parser_rule_list r) as [|p l IH]; intros s H; simpl in H.
  - injection H as <-. cbn. lia.
  - destruct (production_visit_parser_rule fuel s p) as [s1| |] eqn:E; simpl in H; [|done|done].
    apply parser_rule_grown in E. apply IH in H. unfold grown in E. cbn in *. lia.
Qed.

(** ** Both together *)
Lemma passes_le r : let p := fun i => (i =? PARSER_RULE) || (i =? LEXER_RULE) in
  length (outermost_below p r) + sum_list (map (fun c => nodes c - 1) (parser_rule_list r)) < nodes r.
Proof.
  intros p. rewrite nodes_unfold. apply Nat.lt_succ_r. unfold outermost_below, parser_rule_list, get_rule_contexts.
  enough (forall acc, length (concat (map (fun a => match a with Rule c => outermost p c | _ => [] end) (children r))) +
    sum_list (map (fun c => nodes c - 1) (fold_left (fun acc child => match child with Rule c => if rule_index c =? PARSER_RULE then acc ++ [c] else acc | _ => acc end) (children r) acc))
    <= sum_list (map (fun c => nodes c - 1) acc) + nodes_list (children r)) as K by apply (K []).
  induction (children r) as [|[t|c|t] cs IH]; intros acc; [cbn; lia|..]; unfold nodes_list in *; cbn [fold_left map sum_list concat].
  - apply IH.
  - rewrite app_length. destruct (rule_index c =? PARSER_RULE) eqn:E.
    + specialize (IH (acc ++ [c])). rewrite map_app, sum_app in IH.
      assert (length (outermost p c) = 1) as ->.
      { destruct c as [n l i]. cbn [rule_index] in E. cbn [outermost]. unfold p. by rewrite E. }
      assert (1 <= nodes c) by (rewrite nodes_unfold; lia). cbn in IH |- *. lia.
    + specialize (IH acc). pose proof (outermost_le p c). cbn in IH |- *. lia.
  - apply IH.
Qed.

Lemma c65_load r g d : load_tree r = Ret (g, d) ->
  (forall t, t ∈ terminals (g_vocabulary g) -> t < nodes r + 2) /\
  (forall n, n ∈ nonterminals (g_vocabulary g) -> n < nodes r) /\
  (forall x, x ∈ d -> ld_type x < nodes r + 2).
Proof.
  unfold load_tree. intros H.
  destruct (visit_children literal_visitor _ _) as [[[] s1]| |] eqn:E1; simpl in H; [|done|done].
  apply literal_pass in E1. subst s1. cbn [lt_vocabulary lt_data lt_next_token_id g_vocabulary grammar_new] in H.
  destruct (visit_children symbol_visitor _ _) as [[[] s2]| |] eqn:E2; simpl in H; [|done|done].
  destruct (production_visit_rule_list _ _ _) as [s3| |] eqn:E3; simpl in H; [|done|done]. injection H as <- <-. cbn [g_vocabulary].
  pose proof (sym_pass_inv _ _ _ _ sym_inv_start E2) as I2.
  assert (prod_inv (sy_next_rule_id s2) (sy_vocabulary s2) s3) as I3.
  { refine (rule_list_inv _ _ _ _ _ _ _ _ _ E3).
    - intros i Hi. by apply (si_nts _ I2) in Hi as [? _].
    - destruct (si_ops _ I2) as [ops ->]. apply vinv_reach.
    - destruct (si_ops _ I2) as [ops Ho]. split; simpl; eauto.
      + intros i. split; [auto|]. intros [?|?]; [done|lia].
      + intros p Hp. by apply elem_of_empty in Hp.
      + intros k i. by rewrite lookup_empty.
      + intros k i. by rewrite lookup_empty.
      + intros k i. by rewrite lookup_empty.
      + intros k i. by rewrite lookup_empty. }
  apply c65_symbols in E2. apply c65_productions in E3. pose proof (passes_le r) as L. cbn in *. split_and!.
  - intros t Ht. rewrite (pi_t3 _ _ _ I3) in Ht. apply (si_terms _ I2) in Ht. lia.
  - intros n Hn. apply (pi_n3 _ _ _ I3) in Hn as [Hn|Hn]; [apply (si_nts _ I2) in Hn|]; lia.
  - intros x [i Hi]%elem_of_list_lookup. pose proof (lookup_lt_Some _ _ _ Hi). apply (si_data _ I2) in Hi as [-> _].
    pose proof (si_next _ I2). lia.
Qed.

(** ** Scanning *)
Lemma position_le pre p : position_after pre p -> line p <= blen pre /\ char_position p <= blen pre.
Proof.
  intros [-> (a & b & -> & _ & _ & ->)]. split; [|rewrite blen_app; lia].
  etrans; [|apply blen_length]. apply filter_length.
Qed.
Lemma tokens_from_le pre n ts m t : n <= blen pre -> Forall (fun t => text t <> []) ts -> blen (pre ++ texts ts) <= m ->
  tokens_from pre n ts -> t ∈ ts -> token_le m t.
Proof.
  revert pre n. induction ts as [|x ts IH]; intros pre n Hn Hne Hm Hf Ht; [by apply elem_of_nil in Ht|].
  destruct Hf as [(H1 & H2 & H3 & H4 & H5 & H6) Hf]. rewrite texts_cons, (assoc_L (++)), blen_app in Hm.
  apply Forall_cons in Hne as [Hx Hne]. apply elem_of_cons in Ht as [->|Ht].
  - apply position_le in H5, H6. rewrite blen_app in *. unfold token_le. rewrite H1, H2, H3, H4. lia.
  - eapply (IH (pre ++ text x) (S n)); [|done| |done|done].
    + rewrite blen_app. destruct (text x) as [|ch s]; [done|]. pose proof (blen_length (ch :: s)) as L. cbn [length] in L. lia.
    + by rewrite blen_app.
Qed.

Lemma tokens_index_le pre n ts : n <= blen pre -> Forall (fun t => text t <> []) ts -> n + length ts <= blen (pre ++ texts ts).
Proof.
  revert pre n. induction ts as [|x ts IH]; intros pre n Hn Hne.
  - unfold texts. cbn. rewrite app_nil_r. lia.
  - apply Forall_cons in Hne as [Hx Hne]. rewrite texts_cons, (assoc_L (++)). cbn [length].
    rewrite <- Nat.add_succ_comm. apply IH; [|done].
    rewrite blen_app. destruct (text x) as [|ch s]; [done|]. pose proof (blen_length (ch :: s)) as L. cbn [length] in L. lia.
Qed.

Lemma munched_types c ts rest t : lexer_ok c -> munched c ts rest -> t ∈ ts -> token_type t < length (regex_list c) + 2.
Proof.
  intros Hok. induction ts as [|x ts IH]; intros H Ht; [by apply elem_of_nil in Ht|].
  destruct H as [(i & E & _ & W) H]. apply elem_of_cons in Ht as [->|Ht]; [|by apply IH].
  destruct W as (_ & (r & Hr & _) & _). apply lookup_lt_Some in Hr. lia.
Qed.

Lemma c65_scan c ts st : lexer_ok c -> scanned (scan c) lexer_init ts st ->
  cursor st <= blen (input c) + 10 /\
  forall t, t ∈ ts -> token_le (blen (input c) + 10) t /\ token_type t < length (regex_list c) + 2.
Proof.
  intros Hok Hs.
  destruct (scanned_spec _ _ _ _ _ _ _ Hok (lex_inv_init c) Hs) as (ts0 & rest & E & Hf & Hm & Hall & Hcase).
  assert (Forall (fun t => text t <> []) ts0) as Hne by (eapply Forall_impl; [exact Hall|by intros t []]).
  assert (forall t, t ∈ ts0 -> token_le (blen (input c) + 10) t /\ token_type t < length (regex_list c) + 2) as K.
  { intros t Ht. split; [|by eapply munched_types]. eapply (tokens_from_le [] 0); [done|exact Hne| |exact Hf|done].
    rewrite E. cbn [app]. rewrite blen_app. lia. }
  destruct Hcase as [[-> (Hin & -> & _)]|(-> & Hc & st1 & (Hin & Hcur & Hi & Hp) & ->)]; (split; [|done] || split).
  - cbn [app] in *. rewrite E, blen_app. lia.
  - lia.
  - intros t [Ht| ->%elem_of_list_singleton]%elem_of_app; [by apply K|]. cbn [app] in *.
    pose proof (tokens_index_le [] 0 ts0 (le_n 0) Hne) as L. apply position_le in Hp as [P1 P2].
    rewrite app_nil_r in E. rewrite <- E in *. cbn [app] in L. cbn [Nat.add] in *.
    unfold token_le, stop_token. cbn. rewrite Hcur, Hi. lia.
Qed.
Lemma c65_scan_handwritten c ts st : lexer_ok c -> scanned (scan0 c) lexer_init ts st ->
  cursor st <= blen (input c) /\
  forall t, t ∈ ts -> token_le (blen (input c)) t /\ token_type t < length (regex_list c) + 2.
Proof.
  intros Hok Hs.
  destruct (scanned0_spec _ _ _ _ _ _ _ Hok (lex_inv_init c) Hs) as (rest & E & Hf & Hm & (Hin & Hc & _) & Hne).
  split; [cbn [app] in *; rewrite Hc, E, blen_app; lia|].
  intros t Ht. split; [|by eapply munched_types]. eapply (tokens_from_le [] 0); [done|exact Hne| |exact Hf|done].
  rewrite E. cbn [app]. rewrite blen_app. lia.
Qed.

(** ** Parsing *)
Lemma items_cursor voc toks rec rhs c kids mm c' kids' mm' :
  (forall c A r c' mm, c <= length toks -> rec c A = Ret (r, c', mm) -> c <= c' <= length toks /\ Forall (fun m => fst m < length toks) mm) ->
  c <= length toks -> Forall (fun m => fst m < length toks) mm ->
  parse_items voc toks rec rhs c kids mm = Ret (c', kids', mm') ->
  c <= c' <= length toks /\ Forall (fun m => fst m < length toks) mm'.
Proof.
  intros Hrec. revert c kids mm. induction rhs as [|[A|u] rhs IH]; intros c kids mm Hc Hm H; cbn [parse_items] in H.
  - injection H as <- _ <-. split; [lia|done].
  - destruct (rec c A) as [[[r c1] mm1]| |] eqn:E; simpl in H; [|done|done]. apply Hrec in E as [E1 E2]; [|done].
    apply IH in H as [H1 H2]; [split; [lia|done]|lia|]. by apply Forall_app.
  - destruct (toks !! c) as [tok|] eqn:E; simpl in H; [|done]. apply lookup_lt_Some in E.
    apply IH in H as [H1 H2]; [split; [lia|done]|lia|]. destruct (negb _); [|done]. apply Forall_app. split; [done|]. by constructor.
Qed.
Lemma c65_parse voc tab toks fuel c A r c' mm : c <= length toks -> parse_ast voc tab toks fuel c A = Ret (r, c', mm) ->
  c <= c' <= length toks /\ Forall (fun m => fst m < length toks) mm.
Proof.
  revert c A r c' mm. induction fuel as [|fuel IH]; intros c A r c' mm Hc H; [done|]. cbn [parse_ast] in H.
  destruct (toks !! c) as [tok|]; simpl in H; [|done].
  destruct (tab !! (A, token_type tok)) as [p|]; simpl in H; [|done].
  destruct (parse_items _ _ _ _ _ _ _) as [[[c1 kids] mm1]| |] eqn:E; simpl in H; [|done|done]. injection H as _ <- <-.
  eapply items_cursor; [exact IH|exact Hc| |exact E]. constructor.
Qed.
