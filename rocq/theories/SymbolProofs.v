(** SymbolProofs.v -- the symbol pass (C39). *)
From Verif Require Export VisitorLemmas VocabProofs SpecLexer.

Lemma rfold_inv {A S} (I : S -> Prop) (f : S -> A -> res S) l s s' :
  (forall s x s', x ∈ l -> I s -> f s x = Ret s' -> I s') -> I s -> rfold f l s = Ret s' -> I s'.
Proof.
  revert s. induction l as [|x l IH]; intros s Hf HI H; simpl in H; [by injection H as <-|].
  destruct (f s x) as [s1| |] eqn:E; simpl in H; [|done|done].
  eapply IH; [|by eapply Hf; [apply elem_of_list_here|..]|done].
  intros s0 y s0' Hy. apply Hf. by apply elem_of_list_further.
Qed.

Record sym_inv (s : symbol_state) : Prop := {
  si_ops : exists ops, sy_vocabulary s = vrun vocabulary_new ops;
  si_data : forall i d, sy_data s !! i = Some d -> ld_type d = 2 + i /\ t_name_to_id (sy_vocabulary s) !! ld_name d = Some (2 + i);
  si_next : sy_next_token_id s = 2 + length (sy_data s);
  si_terms : forall i, i ∈ terminals (sy_vocabulary s) <-> i < sy_next_token_id s;
  si_nts : forall i, i ∈ nonterminals (sy_vocabulary s) -> i < sy_next_rule_id s /\ is_Some (nt_id_to_name (sy_vocabulary s) !! i);
  si_zero : 0 < sy_next_rule_id s -> 0 ∈ nonterminals (sy_vocabulary s);
}.

Lemma sym_inv_start : sym_inv (SymbolState vocabulary_new [] 2 0).
Proof.
  split; simpl; [by exists []|done|done| | |lia].
  - intros i. destruct (c04_members []) as (H & _ & _). simpl in H. specialize (H i). unfold is_terminal_id in H.
    rewrite bool_decide_eq_true in H. rewrite H. split.
    + intros [?|(n & b & a & E & _)]; [lia|]. by destruct b.
    + intros ?. left. lia.
  - intros i Hi. exfalso. destruct (c04_members []) as (_ & H & _). simpl in H. specialize (H i). unfold is_nonterminal_id in H.
    rewrite bool_decide_eq_true in H. apply H in Hi as [(n & b & a & E & _)|(b & a & E & _)]; by destruct b.
Qed.

Lemma not_defined v n : is_terminal_name_defined v n = false <-> t_name_to_id v !! n = None.
Proof. unfold is_terminal_name_defined. rewrite bool_decide_eq_false, eq_None_not_Some. done. Qed.

Lemma sym_inv_lexer r s s' x : sym_inv s -> symbol_visit_lexer_rule r s = Ret (x, s') -> sym_inv s'.
Proof.
  intros [[ops Ho] Hd Hn Ht Hnt Hz] H. unfold symbol_visit_lexer_rule in H.
  destruct (lexer_rule_token_ref r) as [tk|]; simpl in H; [|done].
  destruct (is_terminal_name_defined (sy_vocabulary s) (text tk)) eqn:E; [injection H as _ <-; split; eauto|].
  destruct (lexer_rule_regular r) as [reg|]; simpl in H; [|done].
  destruct (regular_regular_literal reg) as [rl|]; simpl in H; [|done].
  destruct (blen (text rl) <? 2); [injection H as _ <-; split; eauto|].
  destruct (unwrap_regular (text rl)) as [rx| |]; simpl in H; [|done|done]. injection H as _ <-.
  apply not_defined in E. set (v := sy_vocabulary s) in *. set (n := text tk) in *. clearbody n.
  assert (Hf : sy_next_token_id s ∉ terminals v) by (rewrite Ht; lia).
  assert (add_terminal v (sy_next_token_id s) n = ({| nt_name_to_id := nt_name_to_id v; nt_id_to_name := nt_id_to_name v;
           t_name_to_id := <[n := sy_next_token_id s]> (t_name_to_id v);
           t_id_to_name := <[sy_next_token_id s := n]> (t_id_to_name v);
           nonterminals := nonterminals v; terminals := {[sy_next_token_id s]} ∪ terminals v |}, true)) as Ea.
  { unfold add_terminal. rewrite E, bool_decide_eq_false_2 by (by intros []). by rewrite bool_decide_eq_false_2. }
  split; simpl.
  - exists (ops ++ [AddTerminal (sy_next_token_id s) n]). rewrite vrun_app, <- Ho. done.
  - rewrite Ea. simpl. intros i d Hi. rewrite lookup_app_Some in Hi. destruct Hi as [Hi|[Hl Hi]].
    + destruct (Hd i d Hi) as [H1 H2]. split; [done|]. rewrite lookup_insert_ne; [done|]. intros e. rewrite e in E. congruence.
    + apply list_lookup_singleton_Some in Hi as [Hi <-]. simpl. rewrite lookup_insert, Hn.
      assert (i = length (sy_data s)) as -> by lia. done.
  - rewrite app_length. simpl. lia.
  - rewrite Ea. simpl. intros i. rewrite elem_of_union, elem_of_singleton, Ht. lia.
  - rewrite Ea. simpl. done.
  - rewrite Ea. simpl. done.
Qed.

Lemma sym_inv_parser r s s' x : sym_inv s -> symbol_visit_parser_rule r s = Ret (x, s') -> sym_inv s'.
Proof.
  intros [[ops Ho] Hd Hn Ht Hnt Hz] H. unfold symbol_visit_parser_rule in H.
  destruct (parser_rule_rule_ref r) as [tk|]; simpl in H; [|done].
  destruct (is_terminal_name_defined (sy_vocabulary s) (text tk)) eqn:E; [injection H as _ <-; split; eauto|].
  injection H as _ <-. set (v := sy_vocabulary s) in *. set (n := text tk) in *. clearbody n.
  assert (Hf : sy_next_rule_id s ∉ nonterminals v) by (intros [? _]%Hnt; lia).
  unfold add_named_nonterminal. destruct (nt_name_to_id v !! n) as [k|] eqn:En.
  - rewrite bool_decide_eq_true_2 by eauto. simpl. split; simpl; eauto.
    + intros i Hi. destruct (Hnt i Hi). split; [lia|done].
    + intros _. destruct (Nat.eq_dec (sy_next_rule_id s) 0) as [e|e]; [|apply Hz; lia].
      assert (Hv : vinv v) by (rewrite Ho; apply vinv_reach).
      assert (k ∈ nonterminals v) as Hk by (apply (vi_nd _ Hv); exists n; by apply (vi_n _ Hv)).
      apply Hnt in Hk as [? _]. lia.
  - rewrite bool_decide_eq_false_2 by (by intros []). rewrite bool_decide_eq_false_2 by done. simpl. split; simpl; eauto.
    + exists (ops ++ [AddNamed (sy_next_rule_id s) n]). rewrite vrun_app, <- Ho. simpl.
      unfold add_named_nonterminal. rewrite En, bool_decide_eq_false_2 by (by intros []). by rewrite bool_decide_eq_false_2.
    + intros i. rewrite elem_of_union, elem_of_singleton. intros [->|Hi].
      * split; [lia|]. rewrite lookup_insert. eauto.
      * destruct (Hnt i Hi). split; [lia|]. rewrite lookup_insert_ne by (intros <-; done). done.
    + intros _. rewrite elem_of_union, elem_of_singleton.
      destruct (Nat.eq_dec (sy_next_rule_id s) 0) as [e|e]; [by left|right; apply Hz; lia].
Qed.

Lemma sym_step_inv r s s' : sym_inv s -> visit_step symbol_visitor s r = Ret s' -> sym_inv s'.
Proof.
  intros Hs. unfold visit_step, v_override, symbol_visitor. simpl.
  destruct r as [n cs i]. cbn [rule_index]. destruct i as [|[|[|[|[|[|[|[|[|i]]]]]]]]]; cbn;
    try (by intros [= <-]); intros H.
  - destruct (symbol_visit_parser_rule _ s) as [[x s1]| |] eqn:E; simpl in H; [|done|done]. injection H as <-.
    by eapply sym_inv_parser.
  - destruct (symbol_visit_lexer_rule _ s) as [[x s1]| |] eqn:E; simpl in H; [|done|done]. injection H as <-.
    by eapply sym_inv_lexer.
Qed.

Lemma sym_pass_inv r s s' x : sym_inv s -> visit_children symbol_visitor r s = Ret (x, s') -> sym_inv s'.
Proof.
  intros Hs H. rewrite visit_children_fold in H by done.
  destruct (rfold (visit_step symbol_visitor) (outermost_below (overridden symbol_visitor) r) s) as [s1| |] eqn:E; simpl in H; [|done|done].
  injection H as _ <-. eapply rfold_inv; [|exact Hs|exact E]. intros s0 y s0' _. apply sym_step_inv.
Qed.

(** The literal pass leaves its state alone. *)
Lemma literal_pass r s s' x : visit_children literal_visitor r s = Ret (x, s') -> s' = s.
Proof.
  rewrite literal_fold. destruct (rfold _ _ s) as [s1| |] eqn:E; simpl; [|done|done]. intros [= _ <-].
  eapply (rfold_inv (fun s0 => s0 = s)); [|done|exact E]. intros s0 y s0' _ ->. unfold literal_visit_element.
  destruct (element_string_literal y); simpl; [done|]. by intros [= <-].
Qed.
