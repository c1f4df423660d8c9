(** VisitorMain.v -- C39, C43, C47, C48. *)
From Verif Require Export ProductionProofs Generate LexerMain GrammarMain DisplayProofs.

(** ** load_tree taken apart *)
Lemma load_tree_inv r g data : load_tree r = Ret (g, data) ->
  exists s2 s3, sym_inv s2 /\ sy_data s2 = data /\
    production_visit_rule_list (height r) r (production_visitor_new (sy_vocabulary s2) ∅ (sy_next_rule_id s2)) = Ret s3 /\
    g_vocabulary g = ps_vocabulary s3 /\ productions g = ps_productions s3 /\
    prod_inv (sy_next_rule_id s2) (sy_vocabulary s2) s3 /\ vinv (sy_vocabulary s2).
Proof.
  unfold load_tree. intros H.
  destruct (visit_children literal_visitor r _) as [[x s1]| |] eqn:E1; simpl in H; [|done|done].
  apply literal_pass in E1. subst s1. simpl in H.
  destruct (visit_children symbol_visitor r _) as [[y s2]| |] eqn:E2; simpl in H; [|done|done].
  pose proof (sym_pass_inv _ _ _ _ sym_inv_start E2) as Hs.
  destruct (production_visit_rule_list _ _ _) as [s3| |] eqn:E3; simpl in H; [|done|done]. injection H as <- <-.
  assert (Hv : vinv (sy_vocabulary s2)) by (destruct (si_ops _ Hs) as [ops ->]; apply vinv_reach).
  exists s2, s3. split_and!; try done.
  refine (rule_list_inv _ _ _ _ _ _ _ _ _ E3).
  - intros i Hi. by apply (si_nts _ Hs) in Hi as [? _].
  - done.
  - destruct (si_ops _ Hs) as [ops Ho]. split; simpl; eauto.
    + intros i. split; [auto|]. intros [?|?]; [done|lia].
    + intros p Hp. by apply elem_of_empty in Hp.
    + intros k i. by rewrite lookup_empty.
    + intros k i. by rewrite lookup_empty.
    + intros k i. by rewrite lookup_empty.
    + intros k i. by rewrite lookup_empty.
Qed.

(** ** C39 *)
Lemma c39_numbering r g data : load_tree r = Ret (g, data) ->
  (forall i d, data !! i = Some d ->
     ld_type d = 2 + i /\
     get_terminal_id_by_name (g_vocabulary g) (ld_name d) = Some (ld_type d) /\
     get_terminal_name_by_id (g_vocabulary g) (ld_type d) = Some (ld_name d)) /\
  NoDup (map ld_name data) /\
  (forall id, is_terminal_id (g_vocabulary g) id = true <-> id < 2 + length data) /\
  get_terminal_id_by_name (g_vocabulary g) (lit "_START") = Some 0 /\
  get_terminal_id_by_name (g_vocabulary g) (lit "_STOP") = Some 1.
Proof.
  intros H. destruct (load_tree_inv _ _ _ H) as (s2 & s3 & Hs & <- & _ & Ev & _ & Hp & Hv). clear H.
  assert (K : forall i d, sy_data s2 !! i = Some d ->
     ld_type d = 2 + i /\
     get_terminal_id_by_name (g_vocabulary g) (ld_name d) = Some (ld_type d) /\
     get_terminal_name_by_id (g_vocabulary g) (ld_type d) = Some (ld_name d)).
  { intros i d Hi. destruct (si_data _ Hs i d Hi) as [H1 H2]. rewrite H1. split; [done|].
    unfold get_terminal_id_by_name, get_terminal_name_by_id. rewrite Ev, (pi_t1 _ _ _ Hp), (pi_t2 _ _ _ Hp).
    split; [done|]. by apply (vi_t _ Hv). }
  split; [exact K|]. split; [|split].
  - apply NoDup_alt. intros i j x Hi Hj. rewrite list_lookup_fmap in Hi, Hj.
    apply fmap_Some in Hi as (d & Hi & ->). apply fmap_Some in Hj as (d' & Hj & E).
    destruct (K i d Hi) as (A & B & _). destruct (K j d' Hj) as (A' & B' & _). rewrite E, B' in B. injection B as B. lia.
  - intros id. unfold is_terminal_id. rewrite bool_decide_eq_true, Ev, (pi_t3 _ _ _ Hp), (si_terms _ Hs), (si_next _ Hs). done.
  - destruct (pi_ops _ _ _ Hp) as [ops Ho]. rewrite Ev, Ho. destruct (c03 ops) as (_ & A & _ & B). done.
Qed.

Lemma select_go_type rs : forall i rest best len ty, select_go rs i rest best = (len, ty) ->
  (len, ty) = best \/ exists k, ty = i + k + 2 /\ k < length rs.
Proof.
  induction rs as [|r rs IH]; intros i rest best len ty H; cbn [select_go] in H; [auto|].
  apply IH in H as [H|(k & -> & Hk)].
  - destruct (r rest) as [e|]; [|auto]. destruct (fst best <? e); [|auto].
    injection H as -> ->. right. exists 0. simpl. lia.
  - right. exists (S k). simpl. lia.
Qed.

Lemma c39_generated r g data compile txt ts st :
  load_tree r = Ret (g, data) ->
  scanned (scan (generated_lexer compile data txt)) lexer_init ts st ->
  forall t, t ∈ ts ->
    get_terminal_id_by_name (g_vocabulary g) (token_name t) = Some (token_type t) /\
    get_terminal_name_by_id (g_vocabulary g) (token_type t) = Some (token_name t).
Proof.
  intros H Hsc. destruct (c39_numbering _ _ _ H) as (K & _ & _ & _ & K1). generalize dependent lexer_init.
  assert (Hv : vinv (g_vocabulary g)).
  { destruct (load_tree_inv _ _ _ H) as (s2 & s3 & _ & _ & _ & Ev & _ & Hp & _).
    destruct (pi_ops _ _ _ Hp) as [ops Ho]. rewrite Ev, Ho. apply vinv_reach. }
  intros st0 Hsc. induction Hsc as [|st0 t st1 ts st2 Hscan _ IH]; intros t' Ht; [by apply elem_of_nil in Ht|].
  apply elem_of_cons in Ht as [->|Ht]; [|by apply IH]. clear IH.
  unfold scan in Hscan. destruct (_ <? cursor st0); [done|]. destruct (_ <=? cursor st0).
  { injection Hscan as <- _. cbn [token_name token_type stop_token]. split; [done|]. by apply (vi_t _ Hv). }
  unfold scan_body in Hscan. destruct (drop_bytes _ _) as [rest|]; simpl in Hscan; [|done].
  destruct (select _ _) as [len ty] eqn:Esel. destruct (Nat.leb_spec ty 0) as [|Hty]; [done|].
  destruct (slice_bytes _ _ _) as [x|]; simpl in Hscan; [|done].
  apply select_go_type in Esel as [[= _ ->]|(k & -> & Hk)]; [lia|]. simpl in Hscan.
  rewrite Nat.add_comm in Hscan. simpl in Hscan. rewrite list_lookup_fmap in Hscan.
  destruct (data !! k) as [d|] eqn:Ed; simpl in Hscan; [|done]. injection Hscan as <- _. simpl.
  destruct (K k d Ed) as (E1 & E2 & E3). rewrite E1 in E2, E3. done.
Qed.

Lemma c39_constants r g data n k :
  load_tree r = Ret (g, data) -> (n, k) ∈ generated_constants data <-> get_terminal_id_by_name (g_vocabulary g) n = Some k.
Proof.
  intros H. destruct (c39_numbering _ _ _ H) as (K & _ & K3 & K0 & K1).
  assert (Hv : vinv (g_vocabulary g)).
  { destruct (load_tree_inv _ _ _ H) as (s2 & s3 & _ & _ & _ & Ev & _ & Hp & _).
    destruct (pi_ops _ _ _ Hp) as [ops Ho]. rewrite Ev, Ho. apply vinv_reach. }
  unfold generated_constants. rewrite !elem_of_cons, elem_of_list_fmap. split.
  - intros [[= -> ->]|[[= -> ->]|(d & [= -> ->] & Hd)]]; [done|done|].
    apply elem_of_list_lookup in Hd as [i Hd]. by destruct (K i d Hd) as (_ & ? & _).
  - intros Hn. assert (Hn' := proj1 (vi_t _ Hv n k) Hn).
    assert (k < 2 + length data) as Hk.
    { apply K3. unfold is_terminal_id. apply bool_decide_eq_true. apply (vi_td _ Hv). eauto. }
    apply (vi_t _ Hv) in K0, K1. destruct k as [|[|k]].
    + rewrite K0 in Hn'. injection Hn' as <-. auto.
    + rewrite K1 in Hn'. injection Hn' as <-. auto.
    + right. right. destruct (lookup_lt_is_Some_2 data k) as [d Hd]; [simpl in Hk; lia|]. exists d.
      destruct (K k d Hd) as (E1 & _ & E3). rewrite E1 in E3 |- *. unfold get_terminal_name_by_id in E3. simpl in E3, Hn' |- *. rewrite Hn' in E3. injection E3 as ->.
      split; [done|]. by eapply elem_of_list_lookup_2.
Qed.

(** ** C43 *)
Lemma rule_list_no_names v0 fuel r s s' : (forall i, i ∉ nonterminals v0) -> vinv v0 -> ps_vocabulary s = v0 ->
  production_visit_rule_list fuel r s = Ret s' -> s' = s.
Proof.
  intros H0 Hv Ev H. unfold production_visit_rule_list in H. destruct (parser_rule_list r) as [|p l]; simpl in H; [by injection H|].
  exfalso. unfold production_visit_parser_rule in H. destruct (parser_rule_rule_ref p) as [t|]; simpl in H; [|done].
  destruct (get_nonterminal_id_by_name (ps_vocabulary s) (text t)) as [id|] eqn:E; simpl in H; [|done].
  rewrite Ev in E. apply (H0 id), (vi_nd _ Hv). exists (text t). by apply (vi_n _ Hv).
Qed.

Lemma c43_closed r g data : load_tree r = Ret (g, data) ->
  closed (nonterminals (g_vocabulary g)) (productions g) /\
  (forall p t, p ∈ productions g -> T t ∈ right p -> is_Some (get_terminal_name_by_id (g_vocabulary g) t)) /\
  (forall n1 n2 id, get_nonterminal_id_by_name (g_vocabulary g) n1 = Some id ->
     get_nonterminal_id_by_name (g_vocabulary g) n2 = Some id -> n1 = n2) /\
  (exists k, forall id, is_nonterminal_id (g_vocabulary g) id = true ->
     (id < k <-> is_Some (get_nonterminal_name_by_id (g_vocabulary g) id))) /\
  (nonterminals (g_vocabulary g) <> ∅ -> 0 ∈ nonterminals (g_vocabulary g)) /\
  (productions g <> ∅ -> 0 ∈ nonterminals (g_vocabulary g)).
Proof.
  intros H. destruct (load_tree_inv _ _ _ H) as (s2 & s3 & Hs & _ & Hr & Ev & Ep & Hp & Hv). clear H.
  assert (Hv3 : vinv (ps_vocabulary s3)) by (destruct (pi_ops _ _ _ Hp) as [ops ->]; apply vinv_reach).
  rewrite Ev, Ep.
  assert (Z : nonterminals (ps_vocabulary s3) <> ∅ -> 0 ∈ nonterminals (ps_vocabulary s3)).
  { intros Hne. apply set_choose_L in Hne as [i Hi].
    apply (pi_n3 _ _ _ Hp). left. apply (si_zero _ Hs).
    destruct (decide (sy_next_rule_id s2 = 0)) as [e|]; [|lia]. exfalso.
    assert (forall i, i ∉ nonterminals (sy_vocabulary s2)) as Hn.
    { intros j Hj. apply (si_nts _ Hs) in Hj as [? _]. lia. }
    apply (rule_list_no_names (sy_vocabulary s2)) in Hr; [|done|done|done]. subst s3. by apply (Hn i). }
  split_and!; [..|exact Z|].
  - intros p Hp'. destruct (pi_prods _ _ _ Hp p Hp') as [A B]. split; [done|]. intros b Hb. exact (B (NT b) Hb).
  - intros p t Hp' Ht. apply (vi_td _ Hv3). destruct (pi_prods _ _ _ Hp p Hp') as [_ B]. exact (B (T t) Ht).
  - intros n1 n2 id A B. apply (vi_n _ Hv3) in A, B. congruence.
  - exists (sy_next_rule_id s2). intros id Hid. unfold is_nonterminal_id in Hid. apply bool_decide_eq_true in Hid.
    unfold get_nonterminal_name_by_id. rewrite (pi_n2 _ _ _ Hp). apply (pi_n3 _ _ _ Hp) in Hid as [Hid|Hid].
    + destruct (si_nts _ Hs id Hid). done.
    + split; [lia|]. intros K. apply (vi_nd _ Hv) in K. by apply (si_nts _ Hs) in K as [? _].
  - intros Hne. apply set_choose_L in Hne as [p Hp']. apply Z. destruct (pi_prods _ _ _ Hp p Hp') as [A _].
    intros e. rewrite e in A. by apply elem_of_empty in A.
Qed.

Lemma c43_analyses r g data : load_tree r = Ret (g, data) ->
  (exists n, forall order fuel, iteration_order g order -> n <= fuel ->
     exists first cache, first_set fuel order g = Ret (first, cache)) /\
  (forall order, iteration_order g order -> exists s, display_grammar order g = Ret s) /\
  (nonterminals (g_vocabulary g) <> ∅ -> exists n, forall order fuel, iteration_order g order -> n <= fuel ->
     exists tab w, build_table fuel order g = Ret (tab, w)).
Proof.
  intros H. destruct (c43_closed _ _ _ H) as (Hc & Ht & _ & _ & Hz & _). split_and!.
  - by apply c23_first_returns.
  - intros order Ho. destruct (c46_panics order g) as [A B]. destruct (display_grammar order g) as [s| |]; [by eexists| |done].
    exfalso. destruct (proj1 B eq_refl) as (p & t & Hp & Hpt & En). apply Ht in Hpt; [|by apply elem_of_elements; rewrite <- Ho].
    rewrite En in Hpt. by destruct Hpt.
  - intros Hn. apply c28_table_returns; auto.
Qed.
