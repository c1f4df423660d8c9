(** SameProofs.v -- loading reads nothing from a tree but the grammar it stands for (C84). *)
From Verif Require Export RewriteProofs.

Section same.
  Notation step := (rule_ctx -> production_state -> res (item * production_state)).
  Definition agree (rec : step) : Prop := forall e c e' c' s,
    element_tree e c -> element_tree e' c' -> plain_element e = plain_element e' -> rec c s = rec c' s.

  Lemma elements_same rec es cs : agree rec -> Forall2 element_tree es cs -> forall es' cs' s,
    Forall2 element_tree es' cs' -> map plain_element es = map plain_element es' -> visit_elements rec cs s = visit_elements rec cs' s.
  Proof.
    intros Hrec. induction 1 as [|e c es cs He _ IH]; intros es' cs' s H' E.
    - destruct H'; done.
    - destruct H' as [|e' c' es' cs' He' H']; [done|]. cbn [map] in E. injection E as E1 E2. cbn [visit_elements].
      rewrite (Hrec _ _ _ _ s He He' E1). destruct (rec c' s) as [[it s1]| |]; cbn [rbind]; [|done|done]. by rewrite (IH _ _ _ H' E2).
  Qed.
  Lemma alternative_same rec a c a' c' s : agree rec -> alternative_tree a c -> alternative_tree a' c' -> plain_alternative a = plain_alternative a' ->
    visit_alternative rec c s = visit_alternative rec c' s.
  Proof.
    intros Hrec Ha Ha' E. apply alternative_view in Ha, Ha'. unfold visit_alternative.
    destruct a as [|es], a' as [|es']; cbn [plain_alternative] in E.
    - destruct Ha as [x ->], Ha' as [x' ->]. done.
    - destruct Ha as [x ->], Ha' as [-> H']. destruct es'; [|done]. by inversion H'.
    - destruct Ha as [-> H], Ha' as [x' ->]. destruct es; [|done]. by inversion H.
    - destruct Ha as [-> H], Ha' as [-> H']. injection E as E. by eapply elements_same.
  Qed.
  Lemma alternatives_same rec alts cs : agree rec -> Forall2 alternative_tree alts cs -> forall alts' cs' s,
    Forall2 alternative_tree alts' cs' -> map plain_alternative alts = map plain_alternative alts' ->
    visit_alternatives rec cs s = visit_alternatives rec cs' s.
  Proof.
    intros Hrec. induction 1 as [|e c es cs He _ IH]; intros es' cs' s H' E.
    - destruct H'; done.
    - destruct H' as [|e' c' es' cs' He' H']; [done|]. cbn [map] in E. injection E as E1 E2. cbn [visit_alternatives].
      rewrite (alternative_same rec _ _ _ _ s Hrec He He' E1). destruct (visit_alternative rec c' s) as [[it s1]| |]; cbn [rbind]; [|done|done].
      by rewrite (IH _ _ _ H' E2).
  Qed.
  Lemma suffix_same a sx c a' sx' c' id it s : element_view (Element a sx) c -> element_view (Element a' sx') c' ->
    plain_element (Element a sx) = plain_element (Element a' sx') -> apply_suffix c id it s = apply_suffix c' id it s.
  Proof.
    intros [_ H] [_ H'] E. cbn [plain_element] in E. injection E as _ E. unfold apply_suffix.
    destruct sx as [[k b]|], sx' as [[k' b']|]; [|done|done|by rewrite H, H'].
    injection E as <-. destruct H as (x & -> & H), H' as (x' & -> & H').
    destruct k.
    - destruct H as [t ->], H' as [t' ->]. done.
    - destruct H as [-> [t ->]], H' as [-> [t' ->]]. done.
    - destruct H as [-> ->], H' as [-> ->]. done.
  Qed.
  Lemma element_same fuel : agree (visit_element fuel).
  Proof.
    induction fuel as [|fuel IH]; [done|]. intros e c e' c' s He He' E. apply element_tree_view in He, He'.
    destruct e as [a sx], e' as [a' sx'].
    assert (Hs : forall id it s, apply_suffix c id it s = apply_suffix c' id it s) by (intros; by eapply suffix_same).
    destruct He as [He _], He' as [He' _]. cbn [plain_element] in E. injection E as E _. cbn [visit_element].
    destruct a as [n|l|n|alts], a' as [n'|l'|n'|alts']; cbn [plain_atom] in E; try discriminate E.
    - destruct He as (_ & t & -> & ->), He' as (_ & t' & -> & ->). injection E as ->. destruct (unwrap _); cbn [rbind]; [|done|done]. by rewrite Hs.
    - destruct He as (-> & t & -> & ->), He' as (-> & t' & -> & ->). injection E as ->. destruct (unwrap _); cbn [rbind]; [|done|done]. by rewrite Hs.
    - destruct He as (-> & -> & t & -> & ->), He' as (-> & -> & t' & -> & ->). injection E as ->. destruct (unwrap _); cbn [rbind]; [|done|done]. by rewrite Hs.
    - destruct He as (-> & -> & -> & b & -> & Hb), He' as (-> & -> & -> & b' & -> & Hb'). injection E as E. unfold visit_block.
      rewrite (alternatives_same _ _ _ IH (block_alternatives _ _ Hb) _ _ s (block_alternatives _ _ Hb') E).
      destruct (visit_alternatives _ _ _) as [[rs s1]| |]; cbn [rbind]; [|done|done].
      destruct (make_block rs s1) as [id s2]. cbn [rbind]. by rewrite Hs.
  Qed.

  Lemma rule_alternatives_same fuel id alts cs : Forall2 alternative_tree alts cs -> forall alts' cs' s,
    Forall2 alternative_tree alts' cs' -> map plain_alternative alts = map plain_alternative alts' ->
    rfold (visit_rule_alternative fuel id) cs s = rfold (visit_rule_alternative fuel id) cs' s.
  Proof.
    induction 1 as [|e c es cs He _ IH]; intros es' cs' s H' E.
    - destruct H'; done.
    - destruct H' as [|e' c' es' cs' He' H']; [done|]. cbn [map] in E. injection E as E1 E2. cbn [rfold].
      unfold visit_rule_alternative at 1 3. rewrite (alternative_same _ _ _ _ _ s (element_same fuel) He He' E1).
      destruct (visit_alternative _ c' s) as [[r s1]| |]; cbn [rbind]; [|done|done]. by apply (IH es').
  Qed.
  Lemma parser_rules_same fuel rs cs : Forall2 (fun na c => rule_tree (ParserRule na.1 na.2) c) rs cs -> forall rs' cs' s,
    Forall2 (fun na c => rule_tree (ParserRule na.1 na.2) c) rs' cs' ->
    map (fun na => (na.1, map plain_alternative na.2)) rs = map (fun na => (na.1, map plain_alternative na.2)) rs' ->
    rfold (production_visit_parser_rule fuel) cs s = rfold (production_visit_parser_rule fuel) cs' s.
  Proof.
    induction 1 as [|[n alts] c rs cs He _ IH]; intros rs' cs' s H' E.
    - destruct H'; done.
    - destruct H' as [|[n' alts'] c' rs' cs' He' H']; [done|]. cbn [map fst snd] in *. injection E as E1 E2 E3. cbn [rfold].
      apply rule_view in He as (_ & (t & Et & En) & b & Eb & Hb), He' as (_ & (t' & Et' & En') & b' & Eb' & Hb').
      assert (production_visit_parser_rule fuel s c = production_visit_parser_rule fuel s c') as ->.
      { unfold production_visit_parser_rule. rewrite Et, Et'. cbn [unwrap rbind]. rewrite En, En', E1, Eb, Eb'. cbn [unwrap rbind].
        destruct (get_nonterminal_id_by_name _ _) as [id|]; cbn [unwrap rbind]; [|done].
        by eapply rule_alternatives_same; [apply block_alternatives|apply block_alternatives|]. }
      destruct (production_visit_parser_rule fuel s c') as [s1| |]; cbn [rbind]; [|done|done]. by apply (IH rs').
  Qed.
End same.

Definition rules_named (G : list rule) : list (str * list alternative) :=
  omap (fun r => match r with ParserRule n a => Some (n, a) | _ => None end) G.
Lemma rules_named_plain G : map (fun na => (na.1, map plain_alternative na.2)) (rules_named G) = rules_named (map plain_rule G).
Proof.
  induction G as [|[n a|n r] G IH]; [done|..].
  - change (rules_named (ParserRule n a :: G)) with ((n, a) :: rules_named G). cbn [map fst snd plain_rule].
    change (rules_named (ParserRule n (map plain_alternative a) :: map plain_rule G)) with ((n, map plain_alternative a) :: rules_named (map plain_rule G)).
    by rewrite IH.
  - exact IH.
Qed.
Lemma productions_same G r G' r' F F' s : grammar_tree G r -> grammar_tree G' r' -> map plain_rule G = map plain_rule G' ->
  height r <= F -> height r' <= F' -> production_visit_rule_list F r s = production_visit_rule_list F' r' s.
Proof.
  intros (m & cs & -> & H) (m' & cs' & -> & H') E HF HF'.
  rewrite (proj1 (rule_list_fuel F (F `max` F') _ s HF ltac:(lia))), (proj1 (rule_list_fuel F' (F `max` F') _ s HF' ltac:(lia))).
  unfold production_visit_rule_list. eapply parser_rules_same; [by apply grammar_parser_rules|by apply grammar_parser_rules|].
  fold (rules_named G) (rules_named G'). by rewrite !rules_named_plain, E.
Qed.

(** *** The other passes *)
Definition tops_alternative (a : alternative) : list element := match a with Epsilon => [] | Sequence es => es end.
Definition tops_rule (r : rule) : list element := match r with ParserRule _ alts => concat (map tops_alternative alts) | LexerRule _ _ => [] end.
Lemma below_cons p c cs n i : outermost_below p (RuleCtx n (c :: cs) i) =
  (match c with Rule c => outermost p c | _ => [] end) ++ outermost_below p (RuleCtx n cs i).
Proof. by destruct c. Qed.
Lemma below_nil p n i : outermost_below p (RuleCtx n [] i) = [].
Proof. done. Qed.
Notation is_element := (fun i => i =? ELEMENT).
Lemma tops_elements es cs n i : elements_trees es cs -> Forall2 element_tree es (outermost_below is_element (RuleCtx n cs i)).
Proof.
  induction 1 as [|e c es cs He _ IH]; [constructor|]. rewrite below_cons, outermost_at by (by destruct He). by constructor.
Qed.
Lemma tops_alternative_tree a c : alternative_tree a c -> Forall2 element_tree (tops_alternative a) (outermost is_element c).
Proof.
  destruct 1 as [n m e (t & -> & _)|n es cs H].
  - cbn. constructor.
  - rewrite outermost_children' by done. by apply tops_elements.
Qed.
Lemma tops_alternatives alts cs n i : alternatives_trees alts cs ->
  Forall2 element_tree (concat (map tops_alternative alts)) (outermost_below is_element (RuleCtx n cs i)).
Proof.
  induction 1 as [a c Ha|a c o alts cs Ha (t & -> & _) _ IH]; rewrite ?below_cons, ?below_nil; cbn [map concat].
  - apply Forall2_app; [by apply tops_alternative_tree|constructor].
  - apply Forall2_app; [by apply tops_alternative_tree|done].
Qed.
Lemma tops_rule_tree g c : rule_tree g c -> Forall2 element_tree (tops_rule g) (outermost is_element c).
Proof.
  destruct 1 as [name alts n a c b s (t1 & -> & _) (t2 & -> & _) Hb (t3 & -> & _)|name regex n m a c r s (t1 & -> & _) (t2 & -> & _) (t3 & -> & _) (t4 & -> & _)].
  - rewrite outermost_children' by done. rewrite !below_cons, below_nil. rewrite app_nil_r. cbn [app].
    destruct Hb as [alts m cs H]. rewrite outermost_children' by done. by apply tops_alternatives.
  - cbn. constructor.
Qed.
Lemma tops_grammar G r : grammar_tree G r -> Forall2 element_tree (concat (map tops_rule G)) (outermost_below is_element r).
Proof.
  intros (n & cs & -> & H). induction H as [|g c G cs Hg _ IH]; [constructor|]. cbn [map concat]. rewrite below_cons.
  apply Forall2_app; [by apply tops_rule_tree|done].
Qed.
Lemma tops_plain_alternative a : map plain_element (tops_alternative a) = tops_alternative (plain_alternative a).
Proof. by destruct a. Qed.
Lemma tops_plain_rule g : map plain_element (tops_rule g) = tops_rule (plain_rule g).
Proof.
  destruct g as [n alts|]; [|done]. cbn [tops_rule plain_rule]. rewrite concat_map, !map_map. f_equal. apply map_ext. apply tops_plain_alternative.
Qed.
Lemma tops_plain G : map plain_element (concat (map tops_rule G)) = concat (map tops_rule (map plain_rule G)).
Proof. rewrite concat_map, !map_map. f_equal. apply map_ext, tops_plain_rule. Qed.

Lemma literal_same G r G' r' s : grammar_tree G r -> grammar_tree G' r' -> map plain_rule G = map plain_rule G' ->
  visit_children literal_visitor r s = visit_children literal_visitor r' s.
Proof.
  intros H H' E. rewrite !literal_fold. apply tops_grammar in H, H'.
  assert (map plain_element (concat (map tops_rule G)) = map plain_element (concat (map tops_rule G'))) as Ep by (by rewrite !tops_plain, E).
  clear E. f_equal. revert s. revert Ep H'. generalize (concat (map tops_rule G')) as es', (outermost_below is_element r') as cs'.
  induction H as [|e c es cs He _ IH]; intros es' cs' Ep H' s.
  - destruct H'; done.
  - destruct H' as [|e' c' es' cs' He' H']; [done|]. cbn [map] in Ep. injection Ep as E1 E2. cbn [rfold].
    assert (literal_visit_element c s = literal_visit_element c' s) as ->.
    { unfold literal_visit_element. destruct e as [a sx], e' as [a' sx']. apply element_tree_view in He as [He _], He' as [He' _].
      cbn [plain_element] in E1. injection E1 as E1 _.
      destruct a as [n|l|n|alts], a' as [n'|l'|n'|alts']; cbn [plain_atom] in E1; try discriminate E1.
      - destruct He as (-> & _), He' as (-> & _). done.
      - destruct He as (_ & t & -> & _), He' as (_ & t' & -> & _). done.
      - destruct He as (_ & -> & _), He' as (_ & -> & _). done.
      - destruct He as (_ & -> & _), He' as (_ & -> & _). done. }
    destruct (literal_visit_element c' s) as [[x s1]| |]; cbn [rbind]; [|done|done]. by apply (IH es').
Qed.

Lemma rules_overridden {A} (v : visitor A unit) G n cs : Forall2 rule_tree G cs ->
  outermost_below is_rule_index (RuleCtx n (map Rule cs) RULE_LIST) = cs.
Proof.
  induction 1 as [|g c G cs Hg _ IH]; [done|]. cbn [map]. rewrite below_cons, IH, outermost_at; [done|].
  by destruct Hg.
Qed.
Lemma symbol_same G r G' r' s : grammar_tree G r -> grammar_tree G' r' -> map plain_rule G = map plain_rule G' ->
  visit_children symbol_visitor r s = visit_children symbol_visitor r' s.
Proof.
  intros (n & cs & -> & H) (n' & cs' & -> & H') E. rewrite !visit_children_fold by done.
  assert (Ho : forall r, outermost_below (overridden symbol_visitor) r = outermost_below is_rule_index r).
  { intros r. apply outermost_below_ext. intros i. unfold overridden. destruct i as [|[|[|[|[|[|[|[|[|i]]]]]]]]]; done. }
  rewrite !Ho, !(rules_overridden symbol_visitor _ _ _ H), !(rules_overridden symbol_visitor _ _ _ H'). f_equal. clear Ho n n'.
  revert G' cs' H' E s. induction H as [|g c G cs Hg _ IH]; intros G' cs' H' E s.
  - destruct H'; done.
  - destruct H' as [|g' c' G' cs' Hg' H']; [done|]. cbn [map] in E. injection E as E1 E2. cbn [rfold].
    assert (visit_step symbol_visitor s c = visit_step symbol_visitor s c') as ->.
    { unfold visit_step. apply rule_view in Hg, Hg'. destruct g as [m alts|m rx], g' as [m' alts'|m' rx']; cbn [plain_rule] in E1; try discriminate E1.
      - destruct Hg as (-> & (t & Et & En) & _), Hg' as (-> & (t' & Et' & En') & _). injection E1 as E1 _.
        change (v_override symbol_visitor PARSER_RULE) with (Some symbol_visit_parser_rule). cbv iota beta.
        unfold symbol_visit_parser_rule. rewrite Et, Et'. cbn [unwrap rbind]. by rewrite En, En', E1.
      - injection E1 as E1 Er. destruct Hg as (-> & (t & reg & rl & H1 & H2 & H3 & H4 & H5)%defines_acc), Hg' as (-> & (t' & reg' & rl' & H1' & H2' & H3' & H4' & H5')%defines_acc).
        change (v_override symbol_visitor LEXER_RULE) with (Some symbol_visit_lexer_rule). cbv iota beta.
        unfold symbol_visit_lexer_rule. rewrite H1, H1', H2, H2'. cbn [unwrap rbind]. rewrite H3, H3'. cbn [unwrap rbind].
        by rewrite H4, H4', H5, H5', E1, Er. }
    destruct (visit_step symbol_visitor s c') as [s1| |]; cbn [rbind]; [|done|done]. by apply (IH G').
Qed.

Lemma c84_load G r G' r' : grammar_tree G r -> grammar_tree G' r' -> map plain_rule G = map plain_rule G' -> load_tree r = load_tree r'.
Proof.
  intros H H' E. unfold load_tree. rewrite (literal_same _ _ _ _ _ H H' E). destruct (visit_children literal_visitor r' _) as [[x s1]| |]; cbn [rbind]; [|done|done].
  rewrite (symbol_same _ _ _ _ _ H H' E). destruct (visit_children symbol_visitor r' _) as [[x2 s2]| |]; cbn [rbind]; [|done|done].
  by rewrite (productions_same _ _ _ _ (height r) (height r') _ H H' E).
Qed.

(** *** The passes of the lexer generator *)
Fixpoint lits_element (e : element) : list str := match e with Element a _ => lits_atom a end
with lits_atom (a : atom) : list str :=
  match a with StringLiteral l => [l] | Group alts => concat (map lits_alternative alts) | _ => [] end
with lits_alternative (a : alternative) : list str :=
  match a with Epsilon => [] | Sequence es => concat (map lits_element es) end.
Definition lits_rule (r : rule) : list str := match r with ParserRule _ alts => concat (map lits_alternative alts) | LexerRule _ _ => [] end.

Definition leaves (cs : list ast) : list ast := concat (map (fun a => match a with Rule c => leaf_nodes c | _ => [a] end) cs).
Lemma leaf_nodes_leaves n cs i : leaf_nodes (RuleCtx n cs i) = leaves cs.
Proof. unfold leaves. induction cs as [|[t|c|t] cs IH]; cbn [leaf_nodes map concat app]; [done|f_equal; exact IH|f_equal; exact IH|f_equal; exact IH]. Qed.
Lemma leaves_cons a cs : leaves (a :: cs) = match a with Rule c => leaf_nodes c | _ => [a] end ++ leaves cs.
Proof. done. Qed.
Lemma leaves_app cs cs' : leaves (cs ++ cs') = leaves cs ++ leaves cs'.
Proof. unfold leaves. by rewrite map_app, concat_app. Qed.
Notation lits cs := (omap literal_of (leaves cs)).
Notation is_lexer := (fun i => i =? LEXER_RULE).
Notation below cs := (outermost_below is_lexer (RuleCtx [] cs 0)).
Lemma outermost_lexer n cs i : (i =? LEXER_RULE) = false -> outermost is_lexer (RuleCtx n cs i) = below cs.
Proof. intros E. by rewrite outermost_children'. Qed.
Lemma below_app' cs cs' : below (cs ++ cs') = below cs ++ below cs'.
Proof. unfold outermost_below. cbn [children]. by rewrite map_app, concat_app. Qed.
Lemma literal_any ty a : any_tok ty a -> ty <> STRING_LITERAL -> lits [a] = [] /\ below [a] = [].
Proof. intros (t & -> & E) Hne. split; [|done]. cbn. rewrite E. by destruct (Nat.eqb_spec ty STRING_LITERAL). Qed.
Lemma literal_tok ty x a : tok ty x a -> ty <> STRING_LITERAL -> lits [a] = [] /\ below [a] = [].
Proof. intros (t & -> & E & _) Hne. split; [|done]. cbn. rewrite E. by destruct (Nat.eqb_spec ty STRING_LITERAL). Qed.
Lemma lits_cons a cs : lits (a :: cs) = lits [a] ++ lits cs.
Proof. rewrite <- omap_app, <- leaves_app. done. Qed.
Lemma below_cons' a cs : below (a :: cs) = below [a] ++ below cs.
Proof. apply (below_app' [a] cs). Qed.
Lemma lits_one c : lits [Rule c] = omap literal_of (leaf_nodes c).
Proof. unfold leaves. cbn [map concat]. by rewrite app_nil_r. Qed.
Lemma below_one c : below [Rule c] = outermost is_lexer c.
Proof. unfold outermost_below. cbn [children map concat]. by rewrite app_nil_r. Qed.
Lemma suffix_lits sx ss : suffix_tree sx ss -> lits ss = [] /\ below ss = [].
Proof.
  destruct 1 as [|k a n Ha|k a q n Ha Hq]; [done|..]; rewrite lits_one, below_one, leaf_nodes_leaves, outermost_lexer by done.
  - destruct (literal_any _ _ Ha); [by destruct k|done].
  - rewrite lits_cons, below_cons'. destruct (literal_any _ _ Ha) as [-> ->]; [by destruct k|]. by destruct (literal_any _ _ Hq) as [-> ->].
Qed.

Scheme et_mut := Minimality for element_tree Sort Prop
with at_mut := Minimality for atom_trees Sort Prop
with bt_mut := Minimality for block_tree Sort Prop
with ast_mut := Minimality for alternatives_trees Sort Prop
with alt_mut := Minimality for alternative_tree Sort Prop
with els_mut := Minimality for elements_trees Sort Prop.
Combined Scheme trees_mut from et_mut, at_mut, bt_mut, ast_mut, alt_mut, els_mut.
Lemma tree_lits :
  (forall e c, element_tree e c -> lits [Rule c] = lits_element e /\ below [Rule c] = []) /\
  (forall a cs, atom_trees a cs -> lits cs = lits_atom a /\ below cs = []) /\
  (forall alts b, block_tree alts b -> lits [Rule b] = concat (map lits_alternative alts) /\ below [Rule b] = []) /\
  (forall alts cs, alternatives_trees alts cs -> lits cs = concat (map lits_alternative alts) /\ below cs = []) /\
  (forall a c, alternative_tree a c -> lits [Rule c] = lits_alternative a /\ below [Rule c] = []) /\
  (forall es cs, elements_trees es cs -> lits cs = concat (map lits_element es) /\ below cs = []).
Proof.
  apply trees_mut.
  - intros a sx n cs ss _ [IH1 IH2] Hs. apply suffix_lits in Hs as [Hs1 Hs2]. rewrite lits_one, below_one, leaf_nodes_leaves, outermost_lexer by done.
    rewrite leaves_app, omap_app, below_app', IH1, IH2, Hs1, Hs2, app_nil_r. done.
  - intros name a Ha. by apply (literal_tok _ _ _ Ha).
  - intros l a (t & -> & E & <-). cbn. by rewrite E.
  - intros name a Ha. by apply (literal_tok _ _ _ Ha).
  - intros alts l b r Hl Hr _ [IH1 IH2]. rewrite (lits_cons l), (lits_cons (Rule b)), (below_cons' l), (below_cons' (Rule b)), IH1, IH2.
    destruct (literal_any _ _ Hl) as [-> ->]; [done|]. destruct (literal_any _ _ Hr) as [-> ->]; [done|]. cbn [app lits_atom]. by rewrite app_nil_r.
  - intros alts n cs _ [IH1 IH2]. rewrite lits_one, below_one, leaf_nodes_leaves, outermost_lexer by done. done.
  - intros a c _ [IH1 IH2]. rewrite IH1, IH2. cbn [map concat]. by rewrite app_nil_r.
  - intros a c o alts cs _ [IH1 IH2] Ho _ [IH3 IH4]. rewrite (lits_cons (Rule c)), (lits_cons o), (below_cons' (Rule c)), (below_cons' o), IH1, IH2, IH3, IH4.
    destruct (literal_any _ _ Ho) as [-> ->]; done.
  - intros n m e He. rewrite lits_one, below_one, leaf_nodes_leaves, outermost_lexer by done. rewrite lits_one, below_one, leaf_nodes_leaves, outermost_lexer by done.
    by destruct (literal_any _ _ He) as [-> ->].
  - intros n es cs _ [IH1 IH2]. rewrite lits_one, below_one, leaf_nodes_leaves, outermost_lexer by done. done.
  - done.
  - intros e c es cs _ [IH1 IH2] _ [IH3 IH4]. rewrite lits_cons, below_cons', IH1, IH2, IH3, IH4. done.
Qed.
Lemma rule_lits g c : rule_tree g c -> lits [Rule c] = lits_rule g /\ match g with ParserRule _ _ => below [Rule c] = [] | LexerRule _ _ => below [Rule c] = [c] end.
Proof.
  destruct 1 as [name alts n a c b s Ha Hc Hb Hs|name regex n m a c r s Ha Hc Hr Hs].
  - rewrite lits_one, below_one, leaf_nodes_leaves, outermost_lexer by done.
    rewrite (lits_cons a), (lits_cons c), (lits_cons (Rule b)), (below_cons' a), (below_cons' c), (below_cons' (Rule b)).
    destruct (literal_tok _ _ _ Ha) as [-> ->]; [done|]. destruct (literal_any _ _ Hc) as [-> ->]; [done|]. destruct (literal_any _ _ Hs) as [-> ->]; [done|].
    destruct (proj1 (proj2 (proj2 tree_lits)) _ _ Hb) as [-> ->]. cbn [app]. by rewrite app_nil_r.
  - rewrite lits_one, below_one, leaf_nodes_leaves. split; [|by rewrite outermost_at].
    rewrite (lits_cons a), (lits_cons c), (lits_cons (Rule _)), lits_one, leaf_nodes_leaves.
    destruct (literal_tok _ _ _ Ha) as [-> _]; [done|]. destruct (literal_any _ _ Hc) as [-> _]; [done|]. destruct (literal_any _ _ Hs) as [-> _]; [done|].
    by destruct (literal_tok _ _ _ Hr) as [-> _].
Qed.

Fixpoint lits_plain_element (e : element) : lits_element (plain_element e) = lits_element e
with lits_plain_atom (a : atom) : lits_atom (plain_atom a) = lits_atom a
with lits_plain_alternative (a : alternative) : lits_alternative (plain_alternative a) = lits_alternative a.
Proof.
  - destruct e as [a sx]. exact (lits_plain_atom a).
  - destruct a as [n|l|n|alts]; [done|done|done|]. cbn [plain_atom lits_atom]. induction alts as [|a alts IH]; [done|].
    cbn [map concat]. rewrite IH. f_equal. apply lits_plain_alternative.
  - destruct a as [|es]; [done|]. cbn [plain_alternative lits_alternative]. induction es as [|e es IH]; [done|].
    cbn [map concat]. rewrite IH. f_equal. apply lits_plain_element.
Qed.
Lemma lits_plain_rule g : lits_rule (plain_rule g) = lits_rule g.
Proof. destruct g as [n alts|]; [|done]. cbn [plain_rule lits_rule]. rewrite map_map. f_equal. apply map_ext, lits_plain_alternative. Qed.

Lemma lexer_same G r G' r' s : grammar_tree G r -> grammar_tree G' r' -> map plain_rule G = map plain_rule G' ->
  visit_children lexer_visitor r s = visit_children lexer_visitor r' s.
Proof.
  intros (n & cs & -> & H) (n' & cs' & -> & H') E. rewrite !lexer_fold. f_equal.
  change (rfold (fun s r => let! (_, s') := lexer_visit_lexer_rule r s in Ret s') (below (map Rule cs)) s =
          rfold (fun s r => let! (_, s') := lexer_visit_lexer_rule r s in Ret s') (below (map Rule cs')) s).
  revert G' cs' H' E s. induction H as [|g c G cs Hg _ IH]; intros G' cs' H' E s.
  - destruct H'; done.
  - destruct H' as [|g' c' G' cs' Hg' H']; [done|]. cbn [map] in *. injection E as E1 E2.
    rewrite (below_cons' (Rule c)), (below_cons' (Rule c')). pose proof (rule_lits _ _ Hg) as [_ Hl]. pose proof (rule_lits _ _ Hg') as [_ Hl'].
    apply rule_view in Hg, Hg'. destruct g as [m alts|m rx], g' as [m' alts'|m' rx']; cbn [plain_rule] in E1; try discriminate E1.
    + rewrite Hl, Hl'. cbn [app]. by apply (IH G').
    + injection E1 as E1 Er. rewrite Hl, Hl'. cbn [app rfold].
      destruct Hg as (_ & (t & reg & rl & H1 & H2 & H3 & H4 & H5)%defines_acc), Hg' as (_ & (t' & reg' & rl' & H1' & H2' & H3' & H4' & H5')%defines_acc).
      assert (lexer_visit_lexer_rule c s = lexer_visit_lexer_rule c' s) as ->.
      { unfold lexer_visit_lexer_rule. rewrite H1, H1', H2, H2'. cbn [unwrap rbind]. rewrite H3, H3'. cbn [unwrap rbind].
        by rewrite H4, H4', H5, H5', E1, Er. }
      destruct (lexer_visit_lexer_rule c' s) as [[x s1]| |]; cbn [rbind]; [|done|done]. by apply (IH G').
Qed.

Lemma grammar_lits G r : grammar_tree G r -> omap literal_of (leaf_nodes r) = concat (map lits_rule G).
Proof.
  intros (n & cs & -> & H). rewrite leaf_nodes_leaves. induction H as [|g c G cs Hg _ IH]; [done|]. cbn [map concat].
  rewrite lits_cons, IH. by rewrite (proj1 (rule_lits _ _ Hg)).
Qed.
(** The string visitor sees the string literals only. *)
Lemma strings_literals l : forall l' s, omap literal_of l = omap literal_of l' ->
  rfold (visit_leaf strings_visitor) l s = rfold (visit_leaf strings_visitor) l' s.
Proof.
  assert (Hskip : forall a s, literal_of a = None -> visit_leaf strings_visitor s a = Ret s).
  { intros [t|c|t] s Ha; cbn in *; [|done|done]. unfold strings_visit_terminal. by destruct (token_type t =? STRING_LITERAL). }
  assert (Hdrop : forall l s, omap literal_of l = [] -> rfold (visit_leaf strings_visitor) l s = Ret s).
  { clear l. intros l. induction l as [|a l IH]; intros s E; [done|]. cbn [omap list_omap] in E. cbn [rfold].
    destruct (literal_of a) as [x|] eqn:Ea; [done|]. rewrite (Hskip a s Ea). cbn [rbind]. by apply IH. }
  induction l as [|a l IH]; intros l' s E.
  - symmetry. apply Hdrop. by rewrite <- E.
  - cbn [omap list_omap] in E. cbn [rfold]. destruct (literal_of a) as [x|] eqn:Ea.
    + revert s. induction l' as [|a' l' IH']; intros s; [done|]. cbn [omap list_omap] in E. cbn [rfold].
      destruct (literal_of a') as [x'|] eqn:Ea'.
      * injection E as <- E.
        assert (visit_leaf strings_visitor s a = visit_leaf strings_visitor s a') as ->.
        { destruct a as [t|c|t]; [|done|done]. destruct a' as [t'|c|t']; [|done|done]. cbn in Ea, Ea' |- *. unfold strings_visit_terminal.
          destruct (token_type t =? STRING_LITERAL); [|done]. destruct (token_type t' =? STRING_LITERAL); [|done].
          injection Ea as Ea. injection Ea' as Ea'. by rewrite Ea, Ea'. }
        destruct (visit_leaf strings_visitor s a') as [s1| |]; cbn [rbind]; [|done|done]. by apply IH.
      * rewrite (Hskip a' s Ea'). cbn [rbind]. by apply IH'.
    + rewrite (Hskip a s Ea). cbn [rbind]. by apply IH.
Qed.
Lemma strings_same G r G' r' s : grammar_tree G r -> grammar_tree G' r' -> map plain_rule G = map plain_rule G' ->
  visit_children strings_visitor r s = visit_children strings_visitor r' s.
Proof.
  intros H H' E. rewrite !strings_fold. f_equal. apply strings_literals. rewrite (grammar_lits _ _ H), (grammar_lits _ _ H').
  assert (forall G, concat (map lits_rule (map plain_rule G)) = concat (map lits_rule G)) as K.
  { clear. intros G. rewrite map_map. f_equal. apply map_ext, lits_plain_rule. }
  by rewrite <- (K G), <- (K G'), E.
Qed.
