(** OutputProofs.v -- C81: what loading a grammar prints. *)
From Verif Require Export SpecOutput Output SourceProofs.

(** ** The lines do not change what is computed *)
Definition erase {A S} (x : res (A * (S * list str))) : res (A * S) :=
  match x with Ret (a, (s, _)) => Ret (a, s) | Panic => Panic | OutOfFuel => OutOfFuel end.
Definition drop_out {S} (x : res (S * list str)) : res S :=
  match x with Ret (s, _) => Ret s | Panic => Panic | OutOfFuel => OutOfFuel end.
Lemma erase_ret {A S} (x : res (A * (S * list str))) y a s o : erase x = y -> x = Ret (a, (s, o)) -> y = Ret (a, s).
Proof. by intros <- ->. Qed.
Lemma drop_ret {S} (x : res (S * list str)) y s o : drop_out x = y -> x = Ret (s, o) -> y = Ret s.
Proof. by intros <- ->. Qed.

Lemma erase_suffix c id it s o : (fun x : item * (production_state * list str) => (x.1, x.2.1)) (out_apply_suffix c id it (s, o)) = apply_suffix c id it s.
Proof. unfold out_apply_suffix. by destruct (apply_suffix c id it s). Qed.
Lemma erase_insert id rs P : fst (out_insert id rs P) = insert_productions id rs P.
Proof.
  revert P. induction rs as [|r rs IH]; intros P; [done|]. cbn [out_insert]. specialize (IH ({[Production id r]} ∪ P)).
  destruct (out_insert id rs _) as [P' o]. exact IH.
Qed.
Lemma erase_block rs s o : (fun x : nat * (production_state * list str) => (x.1, x.2.1)) (out_make_block rs (s, o)) = make_block rs s.
Proof.
  unfold out_make_block, make_block. destruct (block_cache s !! rs); [done|]. rewrite <- (erase_insert (ps_next_rule_id s) rs (ps_productions s)).
  by destruct (out_insert _ _ _).
Qed.
Section erasure.
  Context (f : rule_ctx -> production_state * list str -> res (item * (production_state * list str))).
  Context (h : rule_ctx -> production_state -> res (item * production_state)).
  Context (Hf : forall c s o, erase (f c (s, o)) = h c s).
  Lemma erase_elements es s o : erase (out_visit_elements f es (s, o)) = visit_elements h es s.
  Proof using Hf.
    revert s o. induction es as [|e es IH]; intros s o; [done|]. cbn [out_visit_elements visit_elements]. rewrite <- (Hf e s o).
    destruct (f e (s, o)) as [[it [s1 o1]]| |]; cbn; [|done|done]. rewrite <- (IH s1 o1).
    by destruct (out_visit_elements f es (s1, o1)) as [[its [s2 o2]]| |].
  Qed.
  Lemma erase_alternative c s o : erase (out_visit_alternative f c (s, o)) = visit_alternative h c s.
  Proof using Hf. unfold out_visit_alternative, visit_alternative. destruct (alternative_epsilon c); [done|]. apply erase_elements. Qed.
  Lemma erase_alternatives cs s o : erase (out_visit_alternatives f cs (s, o)) = visit_alternatives h cs s.
  Proof using Hf.
    revert s o. induction cs as [|c cs IH]; intros s o; [done|]. cbn [out_visit_alternatives visit_alternatives]. rewrite <- (erase_alternative c s o).
    destruct (out_visit_alternative f c (s, o)) as [[it [s1 o1]]| |]; cbn; [|done|done]. rewrite <- (IH s1 o1).
    by destruct (out_visit_alternatives f cs (s1, o1)) as [[its [s2 o2]]| |].
  Qed.
  Lemma erase_visit_block c s o : erase (out_visit_block f c (s, o)) = visit_block h c s.
  Proof using Hf.
    unfold out_visit_block, visit_block. rewrite <- (erase_alternatives (alternative_list c) s o).
    destruct (out_visit_alternatives f _ (s, o)) as [[rs [s1 o1]]| |]; cbn [erase rbind]; [|done|done].
    rewrite <- (erase_block rs s1 o1). by destruct (out_make_block rs (s1, o1)) as [id [s2 o2]].
  Qed.
End erasure.
Lemma erase_element fuel c s o : erase (out_visit_element fuel c (s, o)) = visit_element fuel c s.
Proof.
  revert c s o. induction fuel as [|fuel IH]; intros c s o; [done|]. cbn [out_visit_element visit_element fst].
  assert (Hs : forall id it, erase (Ret (out_apply_suffix c id it (s, o))) = Ret (apply_suffix c id it s)).
  { intros id it. rewrite <- (erase_suffix c id it s o). by destruct (out_apply_suffix c id it (s, o)) as [it' [s' o']]. }
  destruct (element_token_ref c) as [t|].
  { destruct (get_terminal_id_by_name _ _) as [id|]; [apply Hs|done]. }
  destruct (element_string_literal c) as [t|].
  { destruct (get_terminal_id_by_name _ _) as [id|]; [apply Hs|done]. }
  destruct (element_rule_ref c) as [t|].
  { destruct (get_nonterminal_id_by_name _ _) as [id|]; [apply Hs|done]. }
  destruct (element_block c) as [b|]; [|done]. rewrite <- (erase_visit_block (out_visit_element fuel) (visit_element fuel) IH b s o).
  destruct (out_visit_block _ b (s, o)) as [[id [s1 o1]]| |]; cbn [erase rbind]; [|done|done].
  rewrite <- (erase_suffix c id (NT id) s1 o1). by destruct (out_apply_suffix c id (NT id) (s1, o1)) as [it' [s' o']].
Qed.
Lemma erase_rule_alternative fuel id s o c : drop_out (out_rule_alternative fuel id (s, o) c) = visit_rule_alternative fuel id s c.
Proof.
  unfold out_rule_alternative, visit_rule_alternative. rewrite <- (erase_alternative _ _ (erase_element fuel) c s o).
  by destruct (out_visit_alternative (out_visit_element fuel) c (s, o)) as [[r [s1 o1]]| |].
Qed.
Lemma erase_fold {A S} (f : S * list str -> A -> res (S * list str)) (h : S -> A -> res S) :
  (forall s o a, drop_out (f (s, o) a) = h s a) -> forall l s o, drop_out (rfold f l (s, o)) = rfold h l s.
Proof.
  intros H l. induction l as [|a l IH]; intros s o; [done|]. cbn [rfold]. rewrite <- (H s o a).
  destruct (f (s, o) a) as [[s1 o1]| |]; cbn [drop_out rbind]; [apply IH|done|done].
Qed.
Lemma erase_parser_rule fuel s o c : drop_out (out_parser_rule fuel (s, o) c) = production_visit_parser_rule fuel s c.
Proof.
  unfold out_parser_rule, production_visit_parser_rule. cbn [fst]. destruct (parser_rule_rule_ref c); [|done]. cbn [unwrap rbind].
  destruct (get_nonterminal_id_by_name _ _) as [id|]; [|done]. cbn [unwrap rbind]. destruct (parser_rule_block c) as [b|]; [|done]. cbn [unwrap rbind].
  apply erase_fold. intros. apply erase_rule_alternative.
Qed.
Lemma erase_rule_list fuel c s o : drop_out (out_rule_list fuel c (s, o)) = production_visit_rule_list fuel c s.
Proof. apply erase_fold. intros. apply erase_parser_rule. Qed.

Lemma erase_step s o c : drop_out (visit_step out_symbol_visitor (s, o) c) = visit_step symbol_visitor s c.
Proof.
  unfold visit_step. destruct c as [n cs i]. cbn [rule_index]. destruct i as [|[|[|[|[|[|[|[|[|i]]]]]]]]]; cbn [v_override out_symbol_visitor symbol_visitor
    v_rule_list v_parser_rule v_block v_alternative v_epsilon v_element v_ebnf_suffix v_lexer_rule v_regular]; try done.
  - unfold out_symbol_parser_rule, symbol_visit_parser_rule. destruct (parser_rule_rule_ref _) as [t|]; [|done]. cbn [unwrap rbind].
    by destruct (is_terminal_name_defined _ _).
  - unfold out_symbol_lexer_rule, symbol_visit_lexer_rule. destruct (lexer_rule_token_ref _) as [t|]; [|done]. cbn [unwrap rbind].
    destruct (is_terminal_name_defined _ _); [done|]. destruct (lexer_rule_regular _) as [t'|]; [|done]. cbn [unwrap rbind].
    destruct (regular_regular_literal _) as [t''|]; [|done]. cbn [unwrap rbind]. destruct (_ <? _); [done|].
    by destruct (unwrap_regular _).
Qed.
Lemma erase_symbols r s o : erase (visit_children out_symbol_visitor r (s, o)) = visit_children symbol_visitor r s.
Proof.
  rewrite !visit_children_fold by done. rewrite (outermost_below_ext _ (overridden symbol_visitor)).
  2:{ intros i. unfold overridden. by destruct i as [|[|[|[|[|[|[|[|[|i]]]]]]]]]. }
  rewrite <- (erase_fold _ _ erase_step _ s o). by destruct (rfold _ _ (s, o)) as [[s1 o1]| |].
Qed.
Lemma erase_load r : (match out_load_tree r with Ret (g, data, _) => Ret (g, data) | Panic => Panic | OutOfFuel => OutOfFuel end) = load_tree r.
Proof.
  unfold out_load_tree, load_tree. destruct (visit_children literal_visitor r _) as [[x s1]| |]; cbn [rbind]; [|done|done].
  rewrite <- (erase_symbols r _ []). destruct (visit_children out_symbol_visitor r _) as [[y [s2 o2]]| |]; cbn [rbind erase]; [|done|done].
  rewrite <- (erase_rule_list (height r) r _ o2). by destruct (out_rule_list (height r) r _) as [[s3 o3]| |].
Qed.
Lemma erase_lexer_step s o c : drop_out (visit_step out_lexer_visitor (s, o) c) = visit_step lexer_visitor s c.
Proof.
  unfold visit_step. destruct c as [n cs i]. cbn [rule_index]. destruct i as [|[|[|[|[|[|[|[|[|i]]]]]]]]]; cbn [v_override out_lexer_visitor lexer_visitor
    v_rule_list v_parser_rule v_block v_alternative v_epsilon v_element v_ebnf_suffix v_lexer_rule v_regular]; try done.
  unfold out_lexer_rule, lexer_visit_lexer_rule. destruct (lexer_rule_token_ref _) as [t|]; [|done]. cbn [unwrap rbind].
  destruct (existsb _ _); [done|]. destruct (lexer_rule_regular _) as [t'|]; [|done]. cbn [unwrap rbind].
  destruct (regular_regular_literal _) as [t''|]; [|done]. cbn [unwrap rbind]. destruct (_ <? _); [done|].
  by destruct (unwrap_regular _).
Qed.
Lemma erase_lexer r s o : erase (visit_children out_lexer_visitor r (s, o)) = visit_children lexer_visitor r s.
Proof.
  rewrite !visit_children_fold by done. rewrite (outermost_below_ext _ (overridden lexer_visitor)).
  2:{ intros i. unfold overridden. by destruct i as [|[|[|[|[|[|[|[|[|i]]]]]]]]]. }
  rewrite <- (erase_fold _ _ erase_lexer_step _ s o). by destruct (rfold _ _ (s, o)) as [[s1 o1]| |].
Qed.

Lemma out_ret {A} (a b : A) : Ret a = Ret b -> a = b.
Proof. congruence. Qed.

(** ** Repeats *)
Lemma repeats_ext {A} `{EqDecision A} (l seen seen' : list A) : (forall x, x ∈ seen <-> x ∈ seen') -> repeats seen l = repeats seen' l.
Proof.
  revert seen seen'. induction l as [|x l IH]; intros seen seen' E; [done|]. cbn [repeats].
  rewrite (bool_decide_ext (x ∈ seen) (x ∈ seen')) by apply E. case_bool_decide.
  - f_equal. by apply IH.
  - apply IH. intros y. rewrite !elem_of_cons, E. done.
Qed.
(** Lists that correspond have corresponding repeats. *)
Lemma repeats_related {A B} `{EqDecision A, EqDecision B} (rel : A -> B -> Prop) (l : list A) (l' : list B) : Forall2 rel l l' ->
  forall seen seen', Forall2 rel seen seen' ->
  (forall x y x' y', x ∈ seen ++ l -> x' ∈ seen ++ l -> rel x y -> rel x' y' -> x = x' <-> y = y') ->
  forall {C} (c : C), map (fun _ => c) (repeats seen l) = map (fun _ => c) (repeats seen' l').
Proof.
  induction 1 as [|x y l l' Hxy Hl IH]; intros seen seen' Hs Hr C c; [done|]. cbn [repeats].
  assert (x ∈ seen <-> y ∈ seen') as E.
  { split; intros Hin.
    - apply elem_of_list_lookup in Hin as [i Hi]. destruct (Forall2_lookup_l _ _ _ _ _ Hs Hi) as (y' & Hi' & R).
      assert (x = x) as E by done. apply (proj1 (Hr x y x y' ltac:(set_solver) ltac:(set_solver) Hxy R)) in E. subst. by eapply elem_of_list_lookup_2.
    - apply elem_of_list_lookup in Hin as [i Hi]. destruct (Forall2_lookup_r _ _ _ _ _ Hs Hi) as (x' & Hi' & R).
      pose proof (elem_of_list_lookup_2 _ _ _ Hi') as Hx'.
      assert (y = y) as E by done. apply (proj2 (Hr x y x' y ltac:(set_solver) ltac:(set_solver) Hxy R)) in E. by subst. }
  rewrite (bool_decide_ext (x ∈ seen) (y ∈ seen')) by done. case_bool_decide as D.
  - cbn [map]. f_equal. apply IH; [done|]. intros a b a' b' Ha Ha'. apply Hr; [clear -Ha; set_solver|clear -Ha'; set_solver].
  - apply IH; [by constructor|]. intros a b a' b' Ha Ha'. apply Hr; [clear -Ha; set_solver|clear -Ha'; set_solver].
Qed.

(** ** The symbols *)
Lemma out_symbols G cs : Forall2 rule_tree G cs -> forall TN NN s o,
  sym_names TN NN s ->
  (forall n, n ∈ parser_rule_names G -> n ∉ TN /\ n ∉ lexer_rule_names G) ->
  (forall n r, LexerRule n r ∈ G -> exists body, r = lit "/" ++ body ++ lit "/") ->
  exists s', rfold (visit_step out_symbol_visitor) cs (s, o) = Ret (s', o ++ map says_token (repeats TN (lexer_rule_names G))).
Proof.
  induction 1 as [|g c G cs Hg HF IH]; intros TN NN s o Hs Hp Hl.
  { exists s. cbn. by rewrite app_nil_r. }
  destruct (symbol_rules [g] [c] ltac:(by repeat constructor) TN NN s Hs) as (s1 & E1 & Hs1 & _).
  { intros n Hn. destruct (Hp n) as [? K]; [destruct g; cbn in *; set_solver|]. split; [done|]. destruct g; cbn in *; set_solver. }
  { intros n r Hin. apply (Hl n). apply elem_of_list_singleton in Hin as ->. apply elem_of_list_here. }
  cbn [rfold] in E1. destruct (visit_step symbol_visitor s c) as [s1'| |] eqn:E; cbn [rbind] in E1; [|done|done]. injection E1 as ->.
  pose proof (erase_step s o c) as Er. rewrite E in Er.
  destruct (visit_step out_symbol_visitor (s, o) c) as [[s1' o1]| |] eqn:Eo; cbn [drop_out] in Er; [|done|done]. injection Er as ->.
  assert (o1 = o ++ match g with LexerRule n _ => if bool_decide (n ∈ TN) then [says_token n] else [] | _ => [] end) as ->.
  { pose proof (rule_view _ _ Hg) as Hv. destruct Hs as (_ & Ht & _). unfold visit_step in Eo. destruct g as [name alts|name regex].
    - destruct Hv as (Ei & (t & Et & <-) & _). rewrite Ei in Eo.
      change (v_override out_symbol_visitor PARSER_RULE) with (Some out_symbol_parser_rule) in Eo. cbv iota beta in Eo.
      unfold out_symbol_parser_rule in Eo. rewrite Et in Eo. cbn [rbind unwrap] in Eo.
      assert (is_terminal_name_defined (sy_vocabulary s) (text t) = false) as Ed.
      { apply not_defined, eq_None_not_Some. rewrite Ht. destruct (Hp (text t)) as [? _]; [cbn; apply elem_of_list_here|done]. }
      rewrite Ed in Eo. cbn [rbind] in Eo. injection Eo as _ <-. by rewrite app_nil_r.
    - destruct Hv as (Ei & (t & reg & rl & H1 & H2 & H3 & <- & H4)%defines_acc). rewrite Ei in Eo.
      change (v_override out_symbol_visitor LEXER_RULE) with (Some out_symbol_lexer_rule) in Eo. cbv iota beta in Eo.
      unfold out_symbol_lexer_rule in Eo. rewrite H1, H2 in Eo. cbn [rbind unwrap] in Eo. rewrite H3 in Eo. cbn [rbind unwrap] in Eo.
      assert (exists body, delimited (text rl) body) as [body Hb].
      { rewrite H4. destruct (Hl (text t) regex) as [body ->]; [apply elem_of_list_here|]. exists body. exists 47%N, 47%N. done. }
      destruct (is_terminal_name_defined (sy_vocabulary s) (text t)) eqn:Ed.
      + cbn [rbind] in Eo. injection Eo as _ <-. rewrite bool_decide_eq_true_2; [done|]. apply Ht.
        unfold is_terminal_name_defined in Ed. by apply bool_decide_eq_true in Ed.
      + rewrite (proj2 (Nat.ltb_ge _ _) (delimited_blen _ _ Hb)) in Eo. destruct (unwrap_regular (text rl)); cbn [rbind] in Eo; [|done|done].
        injection Eo as _ <-. rewrite bool_decide_eq_false_2, app_nil_r; [done|]. rewrite <- Ht. apply not_defined in Ed. rewrite Ed. by intros []. }
  cbn [rfold]. rewrite Eo. cbn [rbind].
  destruct (IH (TN ++ lexer_rule_names [g]) (NN ++ parser_rule_names [g]) s1
    (o ++ match g with LexerRule n _ => if bool_decide (n ∈ TN) then [says_token n] else [] | _ => [] end)) as (s' & E2).
  - exact Hs1.
  - intros n Hn. destruct (Hp n) as [? K]; [destruct g; cbn in *; set_solver|]. destruct g; cbn in *; set_solver.
  - intros n r Hin. apply (Hl n). by apply elem_of_list_further.
  - exists s'. rewrite E2. f_equal. f_equal. rewrite <- app_assoc. f_equal. destruct g as [name alts|name regex].
    + cbn [app]. change (lexer_rule_names [ParserRule name alts]) with (@nil str). rewrite app_nil_r. done.
    + change (lexer_rule_names [LexerRule name regex]) with [name].
      change (lexer_rule_names (LexerRule name regex :: G)) with (name :: lexer_rule_names G). cbn [repeats]. case_bool_decide.
      * cbn [map app]. f_equal. f_equal. apply repeats_ext. intros x. set_solver.
      * cbn [app]. f_equal. apply repeats_ext. intros x. set_solver.
Qed.
Lemma out_symbol_pass G r : grammar_tree G r -> proper G ->
  exists s', visit_children out_symbol_visitor r (SymbolState vocabulary_new [] 2 0, []) =
    Ret ((), (s', map says_token (repeats [lit "_START"; lit "_STOP"] (lexer_rule_names G)))).
Proof.
  intros (n & cs & -> & HG) (P1 & P2 & P3).
  destruct (out_symbols G cs HG _ _ _ [] symbol_start) as (s' & E1).
  - intros m Hm. specialize (P1 m Hm). unfold terminal_names in P1. rewrite !elem_of_cons in P1.
    rewrite !elem_of_cons, elem_of_nil. naive_solver.
  - done.
  - exists s'. rewrite visit_children_fold by done.
    rewrite (outermost_below_ext _ is_rule_index).
    2:{ intros i. unfold overridden. destruct i as [|[|[|[|[|[|[|[|[|i]]]]]]]]]; done. }
    assert (outermost_below is_rule_index (RuleCtx n (map Rule cs) RULE_LIST) = cs) as ->.
    { unfold outermost_below. cbn [children]. rewrite map_map. clear -HG. induction HG as [|g c G cs Hg _ IH]; [done|]. cbn [map concat].
      rewrite IH, outermost_at; [done|].
      pose proof (rule_view _ _ Hg) as Hv. destruct g; destruct Hv as [-> _]; done. }
    by rewrite E1.
Qed.

(** ** The groups *)
Definition plain_groups : list (list alternative) -> list (list alternative) := map (map plain_alternative).
Lemma report_groups_ext gs : forall seen seen', (forall x, x ∈ seen <-> x ∈ seen') -> report_groups seen gs = report_groups seen' gs.
Proof.
  induction gs as [|g gs IH]; intros seen seen' E; [done|]. cbn [report_groups].
  rewrite (bool_decide_ext (map plain_alternative g ∈ seen) (map plain_alternative g ∈ seen')) by apply E. case_bool_decide.
  - by apply IH.
  - f_equal. apply IH. intros y. by rewrite !elem_of_cons, E.
Qed.
Lemma report_groups_app gs gs' : forall seen, report_groups seen (gs ++ gs') = report_groups seen gs ++ report_groups (plain_groups gs ++ seen) gs'.
Proof.
  induction gs as [|g gs IH]; intros seen; [done|]. cbn [app report_groups plain_groups map]. case_bool_decide as D.
  - rewrite IH. f_equal. apply report_groups_ext. intros x. fold (plain_groups gs). rewrite elem_of_cons, !elem_of_app. naive_solver.
  - rewrite IH, <- app_assoc. f_equal. f_equal. apply report_groups_ext. intros x. fold (plain_groups gs). rewrite !elem_of_app, !elem_of_cons, elem_of_app. naive_solver.
Qed.
Lemma plain_groups_app a b : plain_groups (a ++ b) = plain_groups a ++ plain_groups b.
Proof. apply map_app. Qed.

Section pass.
  Context (v0 : vocabulary) (R : nat) (G : list rule).
  Context (HR : forall i, i ∈ nonterminals v0 -> i < R) (Hv0 : vinv v0).
  Context (Hlit : forall l s, occurs (Element (StringLiteral l) s) G -> t_name_to_id v0 !! l = None).
  Notation inv := (prod_inv R v0).
  Notation wf := (wf v0 R G).
  Definition known (alts : list alternative) : Prop := forall alt x, alt ∈ alts -> within_alternative x alt -> occurs x G.
  Context (sF : production_state).
  Context (HJ : forall alt alt' r, known [alt] -> known [alt'] -> lk_alt v0 sF alt r -> lk_alt v0 sF alt' r -> plain_alternative alt = plain_alternative alt').
  Definition seen_ok (seen : list (list alternative)) (s : production_state) : Prop :=
    (forall rs n, cached s (KBlock rs) = Some n -> exists alts, lk_alts v0 s alts rs /\ known alts /\ map plain_alternative alts ∈ seen) /\
    (forall g, g ∈ seen -> exists alts rs n, map plain_alternative alts = g /\ lk_alts v0 s alts rs /\ cached s (KBlock rs) = Some n).

  Lemma known_cons a alts : known (a :: alts) -> known [a] /\ known alts.
  Proof using.
    intros H. split.
    - intros alt x ->%elem_of_list_singleton. apply H, elem_of_list_here.
    - intros alt x Ha. apply H. by apply elem_of_list_further.
  Qed.
  Lemma lk_alts_forall s alts rs : lk_alts v0 s alts rs <-> Forall2 (lk_alt v0 s) alts rs.
  Proof using.
    split; [induction 1; by constructor|]. induction 1; by constructor.
  Qed.
  Lemma HJs alts : forall alts' rs, known alts -> known alts' -> lk_alts v0 sF alts rs -> lk_alts v0 sF alts' rs ->
    map plain_alternative alts = map plain_alternative alts'.
  Proof using HJ.
    induction alts as [|a alts IH]; intros alts' rs K K' H H'.
    - inversion H; subst. inversion H'; subst. done.
    - inversion H as [|? r ? rs' H1 H2]; subst. inversion H' as [|a' ? alts0 ? H1' H2']; subst.
      apply known_cons in K as [Ka K]. apply known_cons in K' as [Ka' K']. cbn [map]. f_equal; [by eapply HJ|by eapply IH].
  Qed.
  Lemma seen_keep seen s s' : keeps s s' -> (forall rs, cached s' (KBlock rs) = cached s (KBlock rs)) -> seen_ok seen s -> seen_ok seen s'.
  Proof using.
    intros Hk Hb [H1 H2]. pose proof (lk_mono v0 s s' Hk) as (_ & _ & M & _). split.
    - intros rs n. rewrite Hb. intros Hc. destruct (H1 rs n Hc) as (alts & ? & ? & ?). exists alts. auto.
    - intros g Hg. destruct (H2 g Hg) as (alts & rs & n & ? & ? & ?). exists alts, rs, n. rewrite Hb. auto.
  Qed.
  Lemma suffix_block c id it s it' s' : apply_suffix c id it s = (it', s') -> forall rs, cached s' (KBlock rs) = cached s (KBlock rs).
  Proof using.
    unfold apply_suffix, apply_star, apply_plus, apply_question. intros H rs.
    destruct (element_ebnf_suffix c) as [x|]; [destruct (suffix_star x); [|destruct (suffix_plus x)]|];
      repeat match type of H with context [match ?m !! ?i with _ => _ end] => destruct (m !! i) end; by injection H as <- <-.
  Qed.
  Lemma out_insert_lines id rs : forall P seen, (forall r, Production id r ∈ P <-> r ∈ seen) ->
    snd (out_insert id rs P) = map (fun _ => says_group) (repeats seen rs).
  Proof using.
    induction rs as [|r rs IH]; intros P seen E; [done|]. cbn [out_insert repeats].
    rewrite (bool_decide_ext (Production id r ∈ P) (r ∈ seen)) by apply E.
    specialize (IH ({[Production id r]} ∪ P)). destruct (out_insert id rs _) as [P' o]. cbn [snd] in *. case_bool_decide as D.
    - cbn [map app]. f_equal. apply IH. intros r'. rewrite elem_of_union, elem_of_singleton, E. split; [|auto]. intros [[= ->]|?]; done.
    - cbn [app]. apply IH. intros r'. rewrite elem_of_union, elem_of_singleton, E, elem_of_cons. split; (intros [K|?]; [left; congruence|auto]).
  Qed.
  Lemma block_out s o alts sx rs id s' o' seen : inv s -> wf s -> seen_ok seen s -> known alts -> occurs (Element (Group alts) sx) G -> lk_alts v0 s alts rs ->
    out_make_block rs (s, o) = (id, (s', o')) -> keeps s' sF ->
    o' = o ++ report_groups seen [alts] /\ seen_ok (map plain_alternative alts :: seen) s'.
  Proof using HR HJ.
    intros Hi Hw [S1 S2] Hkn Hocc Ha H HF.
    pose proof (erase_block rs s o) as Em. rewrite H in Em. cbn [fst snd] in Em. symmetry in Em.
    destruct (block_lk v0 R G s alts sx rs id s' Hi Hw Hocc Ha Em) as (Hw' & Hk & Hat).
    pose proof (lk_mono v0 s s' Hk) as (_ & _ & M & _). pose proof (lk_mono v0 s sF (keeps_trans _ _ _ Hk HF)) as (_ & _ & MF & M1 & _).
    unfold out_make_block in H. cbn [report_groups]. destruct (block_cache s !! rs) as [n|] eqn:E.
    - injection H as <- <- <-. destruct (S1 rs n E) as (alts0 & L0 & K0 & Hin).
      assert (map plain_alternative alts = map plain_alternative alts0) as Ep by (eapply HJs; eauto). rewrite Ep.
      rewrite bool_decide_eq_true_2 by done. split; [by rewrite app_nil_r|]. split.
      + intros rs' n' Hc. destruct (S1 rs' n' Hc) as (alts1 & ? & ? & ?). exists alts1. split_and!; [done|done|by apply elem_of_list_further].
      + intros g [->|Hg]%elem_of_cons; [|by apply S2]. by apply S2.
    - assert (map plain_alternative alts ∉ seen) as Hn.
      { intros Hin. destruct (S2 _ Hin) as (alts1 & rs1 & n1 & Ep & L1 & Hc1).
        assert (rs1 = rs) as -> by (by eapply (proj1 (proj2 (proj2 (lk_functional v0 s))))). cbn in Hc1. congruence. }
      rewrite bool_decide_eq_false_2 by done. rewrite app_nil_r.
      destruct (out_insert (ps_next_rule_id s) rs (ps_productions s)) as [P1 o1] eqn:Eo. injection H as <- <- <-. split.
      + f_equal. assert (o1 = map (fun _ => says_group) (repeats [] rs)) as ->.
        { change o1 with (snd (P1, o1)). rewrite <- Eo. apply out_insert_lines. intros r. split; [|by intros ?%elem_of_nil].
          intros Hp. apply (pi_prods _ _ _ Hi) in Hp as [Hp _]. cbn in Hp. apply (pi_n3 _ _ _ Hi) in Hp as [Hp|Hp]; [apply HR in Hp|lia].
          pose proof (pi_next _ _ _ Hi). lia. }
        assert (Forall2 (fun r p => exists alt, known [alt] /\ lk_alt v0 s alt r /\ p = plain_alternative alt) rs (map plain_alternative alts)) as Hrel.
        { clear -Ha Hkn. revert Hkn. induction Ha as [|a r alts rs Hr _ IH]; intros K; cbn [map]; constructor.
          - apply known_cons in K as [K _]. exists a. auto.
          - apply known_cons in K as [_ K]. by apply IH. }
        apply (repeats_related _ _ _ Hrel); [constructor|]. intros x y x' y' _ _ (alt & K1 & L1 & ->) (alt' & K2 & L2 & ->). split.
        * intros <-. eapply HJ; eauto.
        * intros Ep. by eapply (proj1 (proj2 (proj2 (proj2 (lk_functional v0 s))))).
      + split.
        * intros rs' n'. cbn [cached block_cache]. rewrite lookup_insert_Some. intros [[<- <-]|[_ Hc]].
          -- exists alts. split_and!; [by apply M|done|apply elem_of_list_here].
          -- destruct (S1 rs' n' Hc) as (alts1 & ? & ? & ?). exists alts1. split_and!; [by apply M|done|by apply elem_of_list_further].
        * intros g [->|Hg]%elem_of_cons.
          -- exists alts, rs, (ps_next_rule_id s). split_and!; [done|by apply M|]. cbn. apply lookup_insert.
          -- destruct (S2 g Hg) as (alts1 & rs1 & n1 & ? & ? & Hc). exists alts1, rs1, n1. split_and!; [done|by apply M|by apply Hk].
  Qed.

  Definition elem_out (fuel : nat) (e : element) (c : rule_ctx) : Prop :=
    forall s o it s' o' seen, inv s -> wf s -> seen_ok seen s -> out_visit_element fuel c (s, o) = Ret (it, (s', o')) -> keeps s' sF ->
      o' = o ++ report_groups seen (groups_element e) /\ seen_ok (plain_groups (groups_element e) ++ seen) s'.

  Lemma seen_ext seen seen' s : (forall x, x ∈ seen <-> x ∈ seen') -> seen_ok seen s -> seen_ok seen' s.
  Proof using.
    intros E [H1 H2]. split.
    - intros rs n Hc. destruct (H1 rs n Hc) as (alts & ? & ? & ?). exists alts. rewrite <- E. auto.
    - intros g Hg. apply H2. by apply E.
  Qed.
  Lemma elements_out fuel es cs : Forall2 (fun e c => element_tree e c /\ elem_lk v0 R G (visit_element fuel) e c /\ elem_out fuel e c) es cs ->
    forall s o its s' o' seen, inv s -> wf s -> seen_ok seen s -> out_visit_elements (out_visit_element fuel) cs (s, o) = Ret (its, (s', o')) -> keeps s' sF ->
    o' = o ++ report_groups seen (concat (map groups_element es)) /\ seen_ok (plain_groups (concat (map groups_element es)) ++ seen) s'.
  Proof using HR Hv0.
    induction 1 as [|e c es cs (He & Hl & Ho) HF IH]; intros s o its s' o' seen Hi Hw Hs H HkF; cbn [out_visit_elements] in H.
    - injection H as <- <- <-. cbn. by rewrite app_nil_r.
    - destruct (out_visit_element fuel c (s, o)) as [[it [s1 o1]]| |] eqn:E1; cbn [rbind] in H; [|done|done].
      destruct (out_visit_elements _ cs (s1, o1)) as [[its' [s2 o2]]| |] eqn:E2; cbn [rbind] in H; [|done|done]. injection H as <- <- <-.
      pose proof (erase_ret _ _ _ _ _ (erase_element fuel c s o) E1) as V1.
      pose proof (erase_ret _ _ _ _ _ (erase_elements _ _ (erase_element fuel) cs s1 o1) E2) as V2.
      destruct (Hl s it s1 Hi Hw V1) as (Hw1 & K1 & _).
      destruct (next_mono v0 R HR Hv0 _ _ _ _ _ Hi V1) as [Hi1 _].
      assert (Forall2 (elem_lk v0 R G (visit_element fuel)) es cs) as HF' by (eapply Forall2_impl; [exact HF|naive_solver]).
      destruct (elements_lk v0 R G HR Hv0 fuel es cs s1 its' s2 HF' Hi1 Hw1 V2) as (_ & K2 & _).
      destruct (Ho s o it s1 o1 seen Hi Hw Hs E1) as [-> Hs1]; [by eapply keeps_trans|].
      destruct (IH s1 _ its' s2 o2 _ Hi1 Hw1 Hs1 E2 HkF) as [-> Hs2]. cbn [map concat]. split.
      + by rewrite report_groups_app, app_assoc.
      + revert Hs2. apply seen_ext. intros x. rewrite plain_groups_app, !elem_of_app. naive_solver.
  Qed.
  Lemma alternative_out fuel a c s o its s' o' seen : alternative_tree a c ->
    (forall es e c', a = Sequence es -> e ∈ es -> element_tree e c' -> elem_lk v0 R G (visit_element fuel) e c' /\ elem_out fuel e c') ->
    inv s -> wf s -> seen_ok seen s -> out_visit_alternative (out_visit_element fuel) c (s, o) = Ret (its, (s', o')) -> keeps s' sF ->
    o' = o ++ report_groups seen (groups_alternative a) /\ seen_ok (plain_groups (groups_alternative a) ++ seen) s'.
  Proof using HR Hv0.
    intros Ht HF Hi Hw Hs H HkF. apply alternative_view in Ht. unfold out_visit_alternative in H. destruct a as [|es].
    - destruct Ht as [x Ex]. rewrite Ex in H. injection H as <- <- <-. cbn. by rewrite app_nil_r.
    - destruct Ht as [Ex Ht]. rewrite Ex in H. cbn [groups_alternative]. eapply elements_out; eauto.
      assert (forall e c', e ∈ es -> element_tree e c' -> elem_lk v0 R G (visit_element fuel) e c' /\ elem_out fuel e c') as HF1 by (intros e c'; by apply HF).
      clear -Ht HF1. induction Ht as [|e c' es cs' He _ IH]; constructor.
      + split; [done|]. apply HF1; [apply elem_of_list_here|done].
      + apply IH. intros e' c0 He'. apply HF1. by apply elem_of_list_further.
  Qed.
  Lemma alternatives_out fuel alts cs : Forall2 alternative_tree alts cs ->
    (forall a es e c', a ∈ alts -> a = Sequence es -> e ∈ es -> element_tree e c' -> elem_lk v0 R G (visit_element fuel) e c' /\ elem_out fuel e c') ->
    forall s o rs s' o' seen, inv s -> wf s -> seen_ok seen s -> out_visit_alternatives (out_visit_element fuel) cs (s, o) = Ret (rs, (s', o')) -> keeps s' sF ->
    o' = o ++ report_groups seen (concat (map groups_alternative alts)) /\ seen_ok (plain_groups (concat (map groups_alternative alts)) ++ seen) s'.
  Proof using HR Hv0.
    induction 1 as [|a c alts cs Ha HFt IH]; intros HF s o rs s' o' seen Hi Hw Hs H HkF; cbn [out_visit_alternatives] in H.
    - injection H as <- <- <-. cbn. by rewrite app_nil_r.
    - destruct (out_visit_alternative _ c (s, o)) as [[r [s1 o1]]| |] eqn:E1; cbn [rbind] in H; [|done|done].
      destruct (out_visit_alternatives _ cs (s1, o1)) as [[rs' [s2 o2]]| |] eqn:E2; cbn [rbind] in H; [|done|done]. injection H as <- <- <-.
      pose proof (erase_ret _ _ _ _ _ (erase_alternative _ _ (erase_element fuel) c s o) E1) as V1.
      pose proof (erase_ret _ _ _ _ _ (erase_alternatives _ _ (erase_element fuel) cs s1 o1) E2) as V2.
      destruct (alternative_lk v0 R G HR Hv0 fuel a c s r s1 Ha) as (Hw1 & K1 & _); [|done|done|done|].
      { intros es e c' -> He Hc'. eapply HF; [apply elem_of_list_here|done|done|done]. }
      destruct (alternative_mono v0 R HR Hv0 _ _ _ _ _ Hi V1) as [Hi1 _].
      destruct (alternatives_lk v0 R G HR Hv0 fuel alts cs s1 rs' s2 HFt) as (_ & K2 & _); [|done|done|done|].
      { intros a' es e c' Ha' Hes He Hc'. eapply HF; [by apply elem_of_list_further|done|done|done]. }
      destruct (alternative_out fuel a c s o r s1 o1 seen Ha) as [-> Hs1]; [|done|done|done|done|by eapply keeps_trans|].
      { intros es e c' -> He. eapply HF; [apply elem_of_list_here|done|done]. }
      destruct (IH) with (s := s1) (o := o ++ report_groups seen (groups_alternative a)) (rs := rs') (s' := s2) (o' := o2) (seen := plain_groups (groups_alternative a) ++ seen) as [-> Hs2]; try done.
      { intros a' es e c' Ha'. apply HF. by apply elem_of_list_further. }
      cbn [map concat]. split.
      + by rewrite report_groups_app, app_assoc.
      + revert Hs2. apply seen_ext. intros x. rewrite plain_groups_app, !elem_of_app. naive_solver.
  Qed.
  Lemma out_suffix_ret c id it s o it' s' o' : out_apply_suffix c id it (s, o) = (it', (s', o')) -> apply_suffix c id it s = (it', s') /\ o' = o.
  Proof using. unfold out_apply_suffix. destruct (apply_suffix c id it s) as [a b]. by intros [= <- <- <-]. Qed.
  Lemma apply_suffix_out a sx c s o it it' s' o' seen : element_view (Element a sx) c -> (forall k b, sx = Some (k, b) -> occurs (Element a (Some (k, b))) G) ->
    inv s -> wf s -> lk_atom v0 s a it -> seen_ok seen s -> out_apply_suffix c (item_id it) it (s, o) = (it', (s', o')) -> o' = o /\ seen_ok seen s'.
  Proof using.
    intros Hv Hocc Hi Hw Ha Hs H. apply out_suffix_ret in H as [H ->]. split; [done|].
    destruct (apply_suffix_lk v0 R G a sx c s it it' s' Hv Hocc Hi Hw Ha H) as (_ & Hk & _).
    apply (seen_keep seen s s' Hk); [|done]. by eapply suffix_block.
  Qed.
  Lemma element_out fuel : forall e c, element_tree e c -> (forall x, within_element x e -> occurs x G) -> elem_out fuel e c.
  Proof using HR Hv0 Hlit HJ.
    induction fuel as [|fuel IH]; intros e c Ht Hocc s o it s' o' seen Hi Hw Hs H HkF; [done|]. cbn [out_visit_element fst] in H.
    pose proof (element_tree_view _ _ Ht) as Hview. destruct e as [a sx].
    assert (Hocc' : forall k b, sx = Some (k, b) -> occurs (Element a (Some (k, b))) G).
    { intros k b ->. apply Hocc. constructor. }
    pose proof Hview as [Hv _]. destruct a as [name|l|name|alts].
    - destruct Hv as (_ & t & Et & <-). rewrite Et in H. unfold get_terminal_id_by_name in H. rewrite (pi_t1 _ _ _ Hi) in H.
      destruct (t_name_to_id v0 !! text t) as [id|] eqn:E; cbn [unwrap rbind] in H; [|done]. apply out_ret in H. cbn.
      rewrite app_nil_r. eapply (apply_suffix_out (TokenRef (text t)) sx c s o (T id)); eauto. by constructor.
    - exfalso. destruct Hv as (E1 & t & Et & <-). rewrite E1, Et in H. unfold get_terminal_id_by_name in H. rewrite (pi_t1 _ _ _ Hi) in H.
      rewrite (Hlit (text t) sx) in H by (apply Hocc; constructor). done.
    - destruct Hv as (E1 & E2 & t & Et & <-). rewrite E1, E2, Et in H. unfold get_nonterminal_id_by_name in H. rewrite (pi_n1 _ _ _ Hi) in H.
      destruct (nt_name_to_id v0 !! text t) as [id|] eqn:E; cbn [unwrap rbind] in H; [|done]. apply out_ret in H. cbn.
      rewrite app_nil_r. eapply (apply_suffix_out (RuleRef (text t)) sx c s o (NT id)); eauto. by constructor.
    - destruct Hv as (E1 & E2 & E3 & b & Eb & Hb). rewrite E1, E2, E3, Eb in H. unfold out_visit_block in H.
      destruct (out_visit_alternatives (out_visit_element fuel) (alternative_list b) (s, o)) as [[rs [s1 o1]]| |] eqn:Ea; cbn [rbind] in H; [|done|done].
      destruct (out_make_block rs (s1, o1)) as [id [s2 o2]] eqn:Em. cbn [rbind] in H. apply out_ret in H.
      pose proof (erase_ret _ _ _ _ _ (erase_alternatives _ _ (erase_element fuel) (alternative_list b) s o) Ea) as V1.
      pose proof (erase_block rs s1 o1) as V2. rewrite Em in V2. cbn [fst snd] in V2. symmetry in V2.
      assert (HF : forall a es e c', a ∈ alts -> a = Sequence es -> e ∈ es -> element_tree e c' -> elem_lk v0 R G (visit_element fuel) e c' /\ elem_out fuel e c').
      { intros a es e c' Ha Hes He Hc'. assert (forall x, within_element x e -> occurs x G) as Hx by (intros x Hx; apply Hocc; by eapply within_group_elem).
        split; [by apply element_lk|by apply IH]. }
      destruct (alternatives_mono v0 R HR Hv0 _ _ _ _ _ Hi V1) as [Hi1 _].
      destruct (alternatives_lk v0 R G HR Hv0 fuel alts (alternative_list b) s rs s1) as (Hw1 & X1 & T1); [by apply block_alternatives| |done|done|done|].
      { intros a es e c' Ha Hes He Hc'. by eapply HF. }
      destruct (block_lk v0 R G s1 alts sx rs id s2 Hi1 Hw1) as (Hw2 & X2 & T2); [apply Hocc; constructor|done|done|].
      destruct (alternatives_inv R v0 (visit_element fuel) (alternative_list b) s rs s1 (element_inv R v0 HR Hv0 fuel) Hi V1) as (_ & _ & K1).
      destruct (block_inv R v0 HR Hv0 rs s1 id s2 Hi1 K1 V2) as (Hi2 & _ & _).
      pose proof H as [Hsx _]%out_suffix_ret.
      destruct (apply_suffix_lk v0 R G (Group alts) sx c s2 (NT id) it s' Hview Hocc' Hi2 Hw2 T2 Hsx) as (_ & X3 & _).
      assert (keeps s2 sF) as KF2 by (by eapply keeps_trans).
      destruct (alternatives_out fuel alts (alternative_list b)) with (s := s) (o := o) (rs := rs) (s' := s1) (o' := o1) (seen := seen) as [-> Hs1];
        [by apply block_alternatives|exact HF|done|done|done|done|by eapply keeps_trans|].
      assert (known alts) as Hkn by (intros alt x Halt Hx; apply Hocc; by eapply within_group).
      assert (occurs (Element (Group alts) sx) G) as Hoc by (apply Hocc; constructor).
      destruct (block_out s1 _ alts sx rs id s2 o2 _ Hi1 Hw1 Hs1 Hkn Hoc T1 Em KF2) as [-> Hs2].
      destruct (apply_suffix_out (Group alts) sx c s2 _ (NT id) it s' o' _ Hview Hocc' Hi2 Hw2 T2 Hs2 H) as [-> Hs3].
      cbn [groups_element groups_atom]. split.
      + by rewrite report_groups_app, app_assoc.
      + revert Hs3. apply seen_ext. intros x. rewrite plain_groups_app. cbn [plain_groups map]. rewrite elem_of_cons, !elem_of_app, elem_of_list_singleton. naive_solver.
  Qed.
End pass.

(** ** The rules *)
Definition plain_pairs : list (str * alternative) -> list (str * alternative) := map (fun na => (na.1, plain_alternative na.2)).
Definition groups_of (l : list (str * alternative)) : list (list alternative) := concat (map (fun na => groups_alternative na.2) l).
Lemma report_alternatives_ext l : forall sg sg' sa sa', (forall x, x ∈ sg <-> x ∈ sg') -> (forall x, x ∈ sa <-> x ∈ sa') ->
  report_alternatives sg sa l = report_alternatives sg' sa' l.
Proof.
  induction l as [|[n a] l IH]; intros sg sg' sa sa' E1 E2; [done|]. cbn [report_alternatives].
  rewrite (report_groups_ext _ sg sg') by done. f_equal.
  rewrite (bool_decide_ext ((n, plain_alternative a) ∈ sa) ((n, plain_alternative a) ∈ sa')) by apply E2. f_equal.
  apply IH; intros x; [by rewrite !elem_of_app, E1|by rewrite !elem_of_cons, E2].
Qed.
Lemma report_alternatives_app l l' : forall sg sa,
  report_alternatives sg sa (l ++ l') = report_alternatives sg sa l ++ report_alternatives (plain_groups (groups_of l) ++ sg) (plain_pairs l ++ sa) l'.
Proof.
  induction l as [|[n a] l IH]; intros sg sa; [done|]. cbn [app report_alternatives]. rewrite IH, !app_assoc. f_equal.
  apply report_alternatives_ext; intros x.
  - change (groups_of ((n, a) :: l)) with (groups_alternative a ++ groups_of l). rewrite plain_groups_app. fold (plain_groups (groups_alternative a)). rewrite !elem_of_app. naive_solver.
  - change (plain_pairs ((n, a) :: l)) with ((n, plain_alternative a) :: plain_pairs l). cbn [app]. rewrite !elem_of_app, !elem_of_cons, !elem_of_app. naive_solver.
Qed.
Lemma groups_of_app l l' : groups_of (l ++ l') = groups_of l ++ groups_of l'.
Proof. unfold groups_of. by rewrite map_app, concat_app. Qed.
Lemma elem_plain_pairs n p l : (n, p) ∈ plain_pairs l <-> exists a, (n, a) ∈ l /\ plain_alternative a = p.
Proof.
  unfold plain_pairs. rewrite elem_of_list_fmap. split.
  - intros ([n' a] & E & Hin). injection E as -> ->. eauto.
  - intros (a & Hin & <-). by exists (n, a).
Qed.

(** The caches only grow. *)
Lemma suffix_keeps c id it s it' s' : apply_suffix c id it s = (it', s') -> keeps s s'.
Proof.
  assert (Hins : forall (m : gmap nat nat) k i n x, m !! k = None -> m !! i = Some n -> <[k := x]> m !! i = Some n).
  { intros m k i n x Hk Hi. rewrite lookup_insert_ne; [done|]. congruence. }
  unfold apply_suffix, apply_star, apply_plus, apply_question. intros H.
  destruct (element_ebnf_suffix c) as [x|]; [|injection H as <- <-; apply keeps_refl].
  destruct (suffix_star x); [|destruct (suffix_plus x)].
  - destruct (star_cache s !! id) eqn:E; injection H as <- <-; [apply keeps_refl|]. intros [[]|] n Hn; cbn in *; auto.
  - destruct (plus_cache s !! id) eqn:E; injection H as <- <-; [apply keeps_refl|]. intros [[]|] n Hn; cbn in *; auto.
  - destruct (question_cache s !! id) eqn:E; injection H as <- <-; [apply keeps_refl|]. intros [[]|] n Hn; cbn in *; auto.
Qed.
Lemma block_keeps rs s id s' : make_block rs s = (id, s') -> keeps s s'.
Proof.
  unfold make_block. destruct (block_cache s !! rs) eqn:E; intros [= <- <-]; [apply keeps_refl|]. intros [[]|rs'] n Hn; cbn in *; auto.
  rewrite lookup_insert_ne; [done|]. congruence.
Qed.
Section keeping.
  Context (f : rule_ctx -> production_state -> res (item * production_state)).
  Context (Hf : forall c s it s', f c s = Ret (it, s') -> keeps s s').
  Lemma elements_keeps cs : forall s its s', visit_elements f cs s = Ret (its, s') -> keeps s s'.
  Proof using Hf.
    induction cs as [|c cs IH]; intros s its s' H; cbn [visit_elements] in H; [injection H as <- <-; apply keeps_refl|].
    destruct (f c s) as [[it s1]| |] eqn:E; cbn [rbind] in H; [|done|done].
    destruct (visit_elements f cs s1) as [[its' s2]| |] eqn:E2; cbn [rbind] in H; [|done|done]. injection H as <- <-.
    eapply keeps_trans; eauto.
  Qed.
  Lemma alternative_keeps c s its s' : visit_alternative f c s = Ret (its, s') -> keeps s s'.
  Proof using Hf. unfold visit_alternative. destruct (alternative_epsilon c); [intros [= <- <-]; apply keeps_refl|]. apply elements_keeps. Qed.
  Lemma alternatives_keeps cs : forall s its s', visit_alternatives f cs s = Ret (its, s') -> keeps s s'.
  Proof using Hf.
    induction cs as [|c cs IH]; intros s its s' H; cbn [visit_alternatives] in H; [injection H as <- <-; apply keeps_refl|].
    destruct (visit_alternative f c s) as [[it s1]| |] eqn:E; cbn [rbind] in H; [|done|done].
    destruct (visit_alternatives f cs s1) as [[its' s2]| |] eqn:E2; cbn [rbind] in H; [|done|done]. injection H as <- <-.
    eapply keeps_trans; [by eapply alternative_keeps|eauto].
  Qed.
End keeping.
Lemma element_keeps fuel : forall c s it s', visit_element fuel c s = Ret (it, s') -> keeps s s'.
Proof.
  induction fuel as [|fuel IH]; intros c s it s' H; [done|]. cbn [visit_element] in H.
  destruct (element_token_ref c).
  { destruct (get_terminal_id_by_name _ _); cbn [unwrap rbind] in H; [|done]. apply out_ret in H. by eapply suffix_keeps. }
  destruct (element_string_literal c).
  { destruct (get_terminal_id_by_name _ _); cbn [unwrap rbind] in H; [|done]. apply out_ret in H. by eapply suffix_keeps. }
  destruct (element_rule_ref c).
  { destruct (get_nonterminal_id_by_name _ _); cbn [unwrap rbind] in H; [|done]. apply out_ret in H. by eapply suffix_keeps. }
  destruct (element_block c) as [b|]; [|done]. unfold visit_block in H.
  destruct (visit_alternatives _ (alternative_list b) s) as [[rs s1]| |] eqn:E; cbn [rbind] in H; [|done|done].
  destruct (make_block rs s1) as [id s2] eqn:Em. cbn [rbind] in H. apply out_ret in H.
  eapply keeps_trans; [by eapply alternatives_keeps|]. eapply keeps_trans; [by eapply block_keeps|by eapply suffix_keeps].
Qed.
Lemma rule_alternative_keeps fuel id s c s' : visit_rule_alternative fuel id s c = Ret s' -> keeps s s'.
Proof.
  unfold visit_rule_alternative. intros H. destruct (visit_alternative _ c s) as [[r s1]| |] eqn:E; cbn [rbind] in H; [|done|done].
  apply out_ret in H. subst s'. eapply keeps_trans; [eapply alternative_keeps; [apply element_keeps|exact E]|]. by intros [[]|] n.
Qed.
Lemma fold_keeps {A} (f : production_state -> A -> res production_state) : (forall s a s', f s a = Ret s' -> keeps s s') ->
  forall l s s', rfold f l s = Ret s' -> keeps s s'.
Proof.
  intros Hf l. induction l as [|a l IH]; intros s s' H; cbn [rfold] in H; [injection H as <-; apply keeps_refl|].
  destruct (f s a) as [s1| |] eqn:E; cbn [rbind] in H; [|done|done]. eapply keeps_trans; eauto.
Qed.
Lemma rule_keeps fuel s c s' : production_visit_parser_rule fuel s c = Ret s' -> keeps s s'.
Proof.
  unfold production_visit_parser_rule. destruct (parser_rule_rule_ref c); [|done]. cbn [unwrap rbind].
  destruct (get_nonterminal_id_by_name _ _); [|done]. cbn [unwrap rbind]. destruct (parser_rule_block c); [|done]. cbn [unwrap rbind].
  apply fold_keeps. intros. by eapply rule_alternative_keeps.
Qed.

Section rules_pass.
  Context (v0 : vocabulary) (R : nat) (G : list rule) (N : nat).
  Context (HR : forall i, i ∈ nonterminals v0 -> i < R) (Hv0 : vinv v0).
  Context (Hlit : forall l s, occurs (Element (StringLiteral l) s) G -> t_name_to_id v0 !! l = None).
  Context (Hinj : forall k it it', allowed v0 R G N k it -> allowed v0 R G N k it' -> item_id it = item_id it' -> it = it').
  Context (sF : production_state).
  Context (HJ : forall alt alt' r, known G [alt] -> known G [alt'] -> lk_alt v0 sF alt r -> lk_alt v0 sF alt' r -> plain_alternative alt = plain_alternative alt').
  Notation processed_lk := (processed_lk v0 R G N).
  Definition all_known (L : list (str * alternative)) : Prop := forall n a, (n, a) ∈ L -> known G [a].

  Lemma known_occ alt : known G [alt] <-> forall x, within_alternative x alt -> occurs x G.
  Proof using.
    split; [intros H x Hx; eapply H; [apply elem_of_list_here|done]|]. intros H a x ->%elem_of_list_singleton. apply H.
  Qed.
  Lemma rule_alternative_out fuel L name id alt c s o s' o' sg : processed_lk L s -> all_known L -> seen_ok v0 G sg s ->
    nt_name_to_id v0 !! name = Some id -> alternative_tree alt c -> known G [alt] ->
    out_rule_alternative fuel id (s, o) c = Ret (s', o') -> ps_next_rule_id s' <= N -> keeps s' sF ->
    o' = o ++ report_alternatives sg (plain_pairs L) [(name, alt)] /\ seen_ok v0 G (plain_groups (groups_alternative alt) ++ sg) s'.
  Proof using HR Hv0 Hlit Hinj HJ.
    intros (HP & Hw & Hsound & Hcomp) HL Hs Hname Ht Hkn H HN HkF. pose proof (proj1 (known_occ alt) Hkn) as Hocc.
    destruct HP as (Hi & Hsem & _ & _). destruct (named_below v0 R HR Hv0 _ _ Hname) as [Hid HidR].
    unfold out_rule_alternative in H.
    destruct (out_visit_alternative (out_visit_element fuel) c (s, o)) as [[r [s1 o1]]| |] eqn:E; cbn [rbind] in H; [|done|done].
    apply out_ret in H. injection H as <- <-. cbn [ps_next_rule_id] in HN.
    pose proof (erase_ret _ _ _ _ _ (erase_alternative _ _ (erase_element fuel) c s o) E) as V.
    destruct (alternative_sim v0 R G N HR Hv0 fuel alt c s r s1 Ht) as (Hs1 & [X1 X1'] & _); [|done|done|done|done|].
    { intros es e c' -> He Hc'. apply element_sim; try done. intros x Hx. apply Hocc. by econstructor. }
    destruct (alternative_lk v0 R G HR Hv0 fuel alt c s r s1 Ht) as (Hw1 & K1 & T1); [|done|done|done|].
    { intros es e c' -> He Hc'. apply element_lk; try done. intros x Hx. apply Hocc. by econstructor. }
    assert (keeps s1 sF) as K1F by (intros [[]|] n Hn; by apply HkF).
    destruct (alternative_out v0 R G HR Hv0 sF fuel alt c s o r s1 o1 sg Ht) as [-> Hseen]; [|done|done|done|done|done|].
    { intros es e c' -> He Hc'. assert (forall x, within_element x e -> occurs x G) as Hx by (intros x Hx; apply Hocc; by econstructor).
      split; [by apply element_lk|by apply (element_out v0 R G HR Hv0 Hlit sF HJ)]. }
    pose proof (lk_mono v0 s1 sF K1F) as (_ & _ & _ & MF & _). pose proof (lk_mono v0 s s1 K1) as (_ & _ & _ & M1 & _).
    split.
    - cbn [report_alternatives]. rewrite app_nil_r, <- app_assoc. f_equal. f_equal.
      rewrite (bool_decide_ext (Production id r ∈ ps_productions s1) ((name, plain_alternative alt) ∈ plain_pairs L)); [done|].
      rewrite elem_plain_pairs. split.
      + intros Hp. apply X1' in Hp; [|pose proof (pi_next _ _ _ Hi); lia]. destruct (Hsound id r HidR Hp) as (n' & a' & HLin & Hn' & La').
        assert (n' = name) as ->.
        { destruct (vi_n _ Hv0 n' id) as [A _]. destruct (vi_n _ Hv0 name id) as [B _]. specialize (A Hn'). specialize (B Hname). congruence. }
        exists a'. split; [done|]. eapply HJ; [by eapply HL|done|by apply MF, M1|by apply MF].
      + intros (a' & HLin & Ep). destruct (Hcomp name a' HLin) as (id' & r' & Hn' & Hp & La'). assert (id' = id) as -> by congruence.
        assert (r' = r) as -> by (eapply (proj1 (proj2 (proj2 (proj2 (lk_functional v0 s1))))); [by apply M1|exact Ep|exact T1]).
        apply X1'; [|done]. by apply (sem_left _ _ _ _ _ Hsem _ Hp).
    - revert Hseen. apply seen_keep; [by intros [[]|] n|done].
  Qed.
  Lemma rule_alternatives_out fuel name id alts cs : Forall2 alternative_tree alts cs -> forall L s o s' o' sg,
    processed_lk L s -> all_known L -> seen_ok v0 G sg s -> nt_name_to_id v0 !! name = Some id -> known G alts ->
    rfold (out_rule_alternative fuel id) cs (s, o) = Ret (s', o') -> ps_next_rule_id s' <= N -> keeps s' sF ->
    o' = o ++ report_alternatives sg (plain_pairs L) (map (pair name) alts) /\ seen_ok v0 G (plain_groups (groups_of (map (pair name) alts)) ++ sg) s'.
  Proof using HR Hv0 Hlit Hinj HJ.
    induction 1 as [|a c alts cs Ha HF IH]; intros L s o s' o' sg HP HL Hs Hname Hkn H HN HkF; cbn [rfold] in H.
    - apply out_ret in H. injection H as <- <-. cbn. by rewrite app_nil_r.
    - destruct (out_rule_alternative fuel id (s, o) c) as [[s1 o1]| |] eqn:E; cbn [rbind] in H; [|done|done].
      apply known_cons in Hkn as [Kna Kn].
      pose proof (drop_ret _ _ _ _ (erase_rule_alternative fuel id s o c) E) as V1.
      pose proof (drop_ret _ _ _ _ (erase_fold _ _ (erase_rule_alternative fuel id) cs s1 o1) H) as V2.
      destruct (named_below v0 R HR Hv0 _ _ Hname) as [Hid _]. destruct (rule_alternative_inv v0 R HR Hv0 _ _ _ _ _ (proj1 (proj1 HP)) Hid V1) as [Hi1 _].
      destruct (rule_alternatives_mono v0 R HR Hv0 _ _ _ _ _ Hi1 Hid V2) as [_ HN1].
      assert (HP1 : processed_lk (L ++ [(name, a)]) s1).
      { eapply rule_alternative_lk; eauto; [by apply known_occ|lia]. }
      assert (HL1 : all_known (L ++ [(name, a)])).
      { intros n' a'. rewrite elem_of_app, elem_of_list_singleton. intros [?|[= -> ->]]; [by eapply HL|done]. }
      assert (keeps s1 s') as K12 by (eapply fold_keeps; [|exact V2]; intros; by eapply rule_alternative_keeps).
      destruct (rule_alternative_out fuel L name id a c s o s1 o1 sg HP HL Hs Hname Ha Kna E) as [-> Hs1]; [lia|by eapply keeps_trans|].
      destruct (IH _ s1 _ s' o' _ HP1 HL1 Hs1 Hname Kn H HN HkF) as [-> Hs2].
      change (map (pair name) (a :: alts)) with ([(name, a)] ++ map (pair name) alts). split.
      + rewrite report_alternatives_app, app_assoc. f_equal. apply report_alternatives_ext; intros x.
        * change (groups_of [(name, a)]) with (groups_alternative a ++ []). by rewrite app_nil_r.
        * unfold plain_pairs. rewrite map_app. fold (plain_pairs L). cbn [map fst snd app]. rewrite elem_of_app, !elem_of_cons, elem_of_nil. naive_solver.
      + revert Hs2. apply seen_ext. intros x. rewrite groups_of_app, plain_groups_app.
        change (groups_of [(name, a)]) with (groups_alternative a ++ []). rewrite app_nil_r, !elem_of_app. naive_solver.
  Qed.
  Lemma rules_out fuel rules cs : Forall2 (fun na c => rule_tree (ParserRule na.1 na.2) c) rules cs -> forall L s o s' o' sg,
    processed_lk L s -> all_known L -> seen_ok v0 G sg s -> (forall name alts, (name, alts) ∈ rules -> known G alts) ->
    rfold (out_parser_rule fuel) cs (s, o) = Ret (s', o') -> ps_next_rule_id s' <= N -> keeps s' sF ->
    o' = o ++ report_alternatives sg (plain_pairs L) (concat (map (fun na => map (pair na.1) na.2) rules)).
  Proof using HR Hv0 Hlit Hinj HJ.
    induction 1 as [|[name alts] c rules cs Ht HF IH]; intros L s o s' o' sg HP HL Hs Hkn H HN HkF; cbn [rfold] in H.
    - apply out_ret in H. injection H as <- <-. cbn. by rewrite app_nil_r.
    - destruct (out_parser_rule fuel (s, o) c) as [[s1 o1]| |] eqn:E; cbn [rbind] in H; [|done|done].
      pose proof (drop_ret _ _ _ _ (erase_parser_rule fuel s o c) E) as V1.
      pose proof (drop_ret _ _ _ _ (erase_fold _ _ (erase_parser_rule fuel) cs s1 o1) H) as V2.
      destruct (rule_inv v0 R HR Hv0 _ _ _ _ (proj1 (proj1 HP)) V1) as [Hi1 _]. destruct (rules_mono v0 R HR Hv0 _ _ _ _ Hi1 V2) as [_ HN1].
      assert (keeps s1 s') as K12 by (eapply fold_keeps; [|exact V2]; intros; by eapply rule_keeps).
      cbn [map concat fst snd].
      apply rule_view in Ht as (_ & (t & Et & Hn) & b & Eb & Hb). unfold out_parser_rule in E. unfold production_visit_parser_rule in V1. cbn [fst snd] in *.
      rewrite Et, Eb in E, V1. cbn [unwrap rbind] in E, V1. unfold get_nonterminal_id_by_name in E, V1. rewrite (pi_n1 _ _ _ (proj1 (proj1 HP))), Hn in E, V1.
      destruct (nt_name_to_id v0 !! name) as [id|] eqn:En; cbn [unwrap rbind] in E, V1; [|done].
      assert (Ka : known G alts) by (apply (Hkn name), elem_of_list_here).
      assert (HP1 : processed_lk (L ++ map (pair name) alts) s1).
      { eapply rule_alternatives_lk; [exact HR|exact Hv0|exact Hlit|exact Hinj|by apply block_alternatives|exact HP|exact En| |exact V1|lia].
        intros alt x Ha Hx. by eapply Ka. }
      assert (HL1 : all_known (L ++ map (pair name) alts)).
      { intros n' a'. rewrite elem_of_app, elem_of_list_fmap. intros [?|(a & [= -> ->] & Ha)]; [by eapply HL|]. apply known_occ. intros x. by apply Ka. }
      destruct (rule_alternatives_out fuel name id alts (alternative_list b) (block_alternatives _ _ Hb) L s o s1 o1 sg HP HL Hs En Ka E) as [-> Hs1]; [lia|by eapply keeps_trans|].
      rewrite (IH _ s1 _ s' o' _ HP1 HL1 Hs1) by (try done; intros n' a' Hn'; apply (Hkn n'); by apply elem_of_list_further).
      rewrite report_alternatives_app, app_assoc. f_equal. apply report_alternatives_ext; intros x; [done|].
      unfold plain_pairs. rewrite map_app, !elem_of_app. naive_solver.
  Qed.
End rules_pass.

Lemma rule_alternatives_parser G : rule_alternatives G = concat (map (fun na => map (pair na.1) na.2) (parser_rules G)).
Proof. induction G as [|[n alts|n r] G IH]; [done| |done]. unfold rule_alternatives in *. cbn. by rewrite IH. Qed.

(** The whole report. *)
Lemma c81_report G r g data lines :
  grammar_tree G r -> proper G -> out_load_tree r = Ret (g, data, lines) -> no_collision (g_vocabulary g) G -> lines = report G.
Proof.
  intros Ht Hp Hout Hnc.
  assert (load_tree r = Ret (g, data)) as Hload by (rewrite <- erase_load, Hout; done).
  destruct (out_symbol_pass G r Ht Hp) as (s2 & Eo). pose proof (erase_ret _ _ _ _ _ (erase_symbols r _ []) Eo) as Ev.
  destruct (symbol_pass_tree G r Ht Hp) as (s2' & E2 & (Hs & HT & HNT & Hz) & HRn).
  assert (s2' = s2) as -> by congruence. clear E2.
  unfold out_load_tree in Hout. destruct (visit_children literal_visitor r _) as [[x s1]| |] eqn:E1; cbn [rbind] in Hout; [|done|done].
  apply literal_pass in E1. subst s1. cbn [lt_vocabulary lt_data lt_next_token_id] in Hout.
  change (g_vocabulary (grammar_new [25105; 30340; 25991; 27861]%N)) with vocabulary_new in Hout. rewrite Eo in Hout. cbn [rbind] in Hout.
  change (productions (grammar_new [25105; 30340; 25991; 27861]%N)) with (∅ : gset production) in Hout.
  destruct (out_rule_list (height r) r _) as [[s3 o3]| |] eqn:E3o; cbn [rbind] in Hout; [|done|done]. apply out_ret in Hout. injection Hout as <- <- <-.
  pose proof (drop_ret _ _ _ _ (erase_rule_list (height r) r _ _) E3o) as E3.
  cbn [g_vocabulary] in Hnc. clear Hload Eo Ev.
  pose proof (production_start s2 Hs) as Hi0.
  assert (Hv0 : vinv (sy_vocabulary s2)) by (destruct (si_ops _ Hs) as [ops ->]; apply vinv_reach).
  assert (HRlt : forall i, i ∈ nonterminals (sy_vocabulary s2) -> i < sy_next_rule_id s2) by (intros i Hi; by apply (si_nts _ Hs) in Hi as [? _]).
  pose proof (rule_list_inv _ _ HRlt Hv0 _ _ _ _ Hi0 E3) as Hi3.
  set (v0 := sy_vocabulary s2) in *. set (R := sy_next_rule_id s2) in *.
  assert (Hlit : forall l s, occurs (Element (StringLiteral l) s) G -> t_name_to_id v0 !! l = None).
  { intros l s Ho. apply eq_None_not_Some. rewrite HT. destruct Hp as (_ & Hp & _). by apply (Hp l s). }
  assert (Hinj : forall k it it', allowed v0 R G (ps_next_rule_id s3) k it -> allowed v0 R G (ps_next_rule_id s3) k it' -> item_id it = item_id it' -> it = it').
  { assert (Hx : forall k t n, allowed v0 R G (ps_next_rule_id s3) k (T t) -> allowed v0 R G (ps_next_rule_id s3) k (NT n) -> t <> n).
    { intros k t n (a & b & P & M & Ho & HM & Ha) (a' & b' & P' & M' & Ho' & HM' & Ha') <-.
      inversion Ha as [nm ? Hl| |]; subst. destruct (Hnc k b nm t Ho) as [H1 H2].
      { unfold get_terminal_id_by_name. by rewrite (pi_t1 _ _ _ Hi3). }
      inversion Ha' as [|m ? Hm|alts ? rs Hal Hn Hr]; subst.
      - apply (H1 m b' Ho'). unfold get_nonterminal_id_by_name. by rewrite (pi_n1 _ _ _ Hi3).
      - destruct (H2 alts b' Ho') as [nm' Hnm'].
        + unfold is_nonterminal_id. apply bool_decide_eq_true. apply (pi_n3 _ _ _ Hi3). right. lia.
        + unfold get_nonterminal_name_by_id in Hnm'. rewrite (pi_n2 _ _ _ Hi3) in Hnm'.
          assert (t ∈ nonterminals v0) as K by (apply (vi_nd _ Hv0); eauto). apply HRlt in K. lia. }
    intros k [n|t] [n'|t'] H1 H2 E; simpl in E; subst; try done.
    - exfalso. by apply (Hx k t' t').
    - exfalso. by apply (Hx k n' n'). }
  pose proof Ht as (m & cs & Er & HF). unfold production_visit_rule_list in E3. unfold out_rule_list in E3o.
  pose proof (grammar_parser_rules G m cs HF) as HF'. rewrite <- Er in HF'.
  assert (HP0 : processed_lk v0 R G (ps_next_rule_id s3) [] (production_visitor_new v0 ∅ R)).
  { split; [|split; [|split]].
    - split; [exact Hi0|]. split; [by eapply production_start_sem|]. split.
      + intros i r' _ Hr'. simpl in Hr'. by apply elem_of_empty in Hr'.
      + intros n a Hn. by apply elem_of_nil in Hn.
    - split.
      + intros [[]|] n Hn; cbn in Hn; by rewrite lookup_empty in Hn.
      + intros [[]|] k' n Hn; cbn in Hn; by rewrite lookup_empty in Hn.
      + cbn. intros n Hn. lia.
      + intros [] id n Hn; cbn in Hn; by rewrite lookup_empty in Hn.
      + intros rs n Hn; cbn in Hn; by rewrite lookup_empty in Hn.
    - intros i r' _ Hr'. simpl in Hr'. by apply elem_of_empty in Hr'.
    - intros n a Hn. by apply elem_of_nil in Hn. }
  assert (Hocc : forall n alts alt x, (n, alts) ∈ parser_rules G -> alt ∈ alts -> within_alternative x alt -> occurs x G).
  { intros n alts alt y Hn Ha Hx. exists n, alts, alt. split; [by apply elem_of_parser_rules|done]. }
  destruct (rules_lk v0 R G (ps_next_rule_id s3) HRlt Hv0 Hlit Hinj (height r) _ _ HF' [] _ _ HP0 Hocc E3 ltac:(done)) as ((_ & Hsem & _) & Hw & _).
  pose proof (wf_range _ _ _ _ Hw) as Hrange.
  destruct (lk_mk v0 R G s3 (ps_productions s3) Hrange eq_refl Hsem Hinj) as (_ & _ & _ & M4 & _).
  assert (HRn' : forall name id, nt_name_to_id v0 !! name = Some id -> id < R) by (intros n i Hn; by apply (named_below v0 R HRlt Hv0 n)).
  pose proof (mk_injective v0 R s3 (ps_productions s3) HRn' Hv0) as Hmk.
  assert (HJ : forall alt alt' r0, known G [alt] -> known G [alt'] -> lk_alt v0 s3 alt r0 -> lk_alt v0 s3 alt' r0 -> plain_alternative alt = plain_alternative alt').
  { intros alt alt' r0 K K' L L'. eapply Hmk; [apply Hw|apply M4; [exact L|by apply known_occ]|apply M4; [exact L'|by apply known_occ]]. }
  unfold report. rewrite rule_alternatives_parser.
  refine (rules_out v0 R G (ps_next_rule_id s3) HRlt Hv0 Hlit Hinj s3 HJ (height r) _ _ HF' [] _ _ _ _ [] HP0 _ _ _ E3o _ _).
  - intros n a Hn. by apply elem_of_nil in Hn.
  - split.
    + intros rs n Hn. cbn in Hn. by rewrite lookup_empty in Hn.
    + intros g0 Hg. by apply elem_of_nil in Hg.
  - intros n alts Hn alt y Ha Hx. by eapply Hocc.
  - done.
  - apply keeps_refl.
Qed.
