(** SameLines.v -- loading prints the same lines for two trees of the same grammar (C84), also when it panics. *)
From Verif Require Export SameProofs ProgramProofs.

Lemma pbind_ext {A B} (m m' : printed A) (f f' : A -> printed B) : m = m' -> (forall a, f a = f' a) -> pbind m f = pbind m' f'.
Proof. intros -> H. destruct m' as [l [a| |]]; cbn; [by rewrite H|done|done]. Qed.

Section lines.
  Notation step := (rule_ctx -> production_state -> printed (item * production_state)).
  Definition agree2 (f f' : nat) (rec rec' : step) : Prop := forall e c e' c' s, height c <= f -> height c' <= f' ->
    element_tree e c -> element_tree e' c' -> plain_element e = plain_element e' -> rec c s = rec' c' s.
  Lemma elements_lines f f' rec rec' es cs : agree2 f f' rec rec' -> Forall2 element_tree es cs -> forall es' cs' s,
    Forall2 element_tree es' cs' -> map plain_element es = map plain_element es' ->
    Forall (fun c => height c <= f) cs -> Forall (fun c => height c <= f') cs' ->
    print_elements rec cs s = print_elements rec' cs' s.
  Proof.
    intros Hrec. induction 1 as [|e c es cs He _ IH]; intros es' cs' s H' E F F'.
    - destruct H'; done.
    - destruct H' as [|e' c' es' cs' He' H']; [done|]. cbn [map] in E. injection E as E1 E2. cbn [print_elements].
      inversion F; subst. inversion F'; subst.
      apply pbind_ext; [by eapply Hrec|]. intros [it s1]. apply pbind_ext; [by eapply IH|done].
  Qed.
  Lemma element_list_heights f a : height a <= S f -> Forall (fun c => height c <= f) (element_list a).
  Proof. intros H. apply Forall_forall. intros e He. apply rule_contexts_child in He as [He _]. apply height_child in He. lia. Qed.
  Lemma alternative_list_heights f a : height a <= S f -> Forall (fun c => height c <= f) (alternative_list a).
  Proof. intros H. apply Forall_forall. intros e He. apply rule_contexts_child in He as [He _]. apply height_child in He. lia. Qed.
  Lemma alternative_lines f f' rec rec' a c a' c' s : agree2 f f' rec rec' -> alternative_tree a c -> alternative_tree a' c' ->
    plain_alternative a = plain_alternative a' -> height c <= S f -> height c' <= S f' ->
    print_alternative rec c s = print_alternative rec' c' s.
  Proof.
    intros Hrec Ha Ha' E Hc Hc'. apply alternative_view in Ha, Ha'. unfold print_alternative.
    destruct a as [|es], a' as [|es']; cbn [plain_alternative] in E.
    - destruct Ha as [x ->], Ha' as [x' ->]. done.
    - destruct Ha as [x ->], Ha' as [-> H']. destruct es'; [|done]. by inversion H'.
    - destruct Ha as [-> H], Ha' as [x' ->]. destruct es; [|done]. by inversion H.
    - destruct Ha as [-> H], Ha' as [-> H']. injection E as E. eapply elements_lines; [done..| |]; by apply element_list_heights.
  Qed.
  Lemma alternatives_lines f f' rec rec' alts cs : agree2 f f' rec rec' -> Forall2 alternative_tree alts cs -> forall alts' cs' s,
    Forall2 alternative_tree alts' cs' -> map plain_alternative alts = map plain_alternative alts' ->
    Forall (fun c => height c <= S f) cs -> Forall (fun c => height c <= S f') cs' ->
    print_alternatives rec cs s = print_alternatives rec' cs' s.
  Proof.
    intros Hrec. induction 1 as [|e c es cs He _ IH]; intros es' cs' s H' E F F'.
    - destruct H'; done.
    - destruct H' as [|e' c' es' cs' He' H']; [done|]. cbn [map] in E. injection E as E1 E2. cbn [print_alternatives].
      inversion F; subst. inversion F'; subst.
      apply pbind_ext; [by eapply alternative_lines|]. intros [it s1]. apply pbind_ext; [by eapply IH|done].
  Qed.
  Lemma element_lines f : forall f', agree2 f f' (print_element f) (print_element f').
  Proof.
    induction f as [|f IH]; intros f' e c e' c' s Hc Hc' He He' E; [destruct c; cbn in Hc; lia|].
    destruct f' as [|f']; [destruct c'; cbn in Hc'; lia|]. apply element_tree_view in He, He'.
    destruct e as [a sx], e' as [a' sx'].
    assert (Hs : forall id it s, apply_suffix c id it s = apply_suffix c' id it s) by (intros; by eapply suffix_same).
    destruct He as [He _], He' as [He' _]. cbn [plain_element] in E. injection E as E _. cbn [print_element].
    destruct a as [n|l|n|alts], a' as [n'|l'|n'|alts']; cbn [plain_atom] in E; try discriminate E.
    - destruct He as (_ & t & -> & ->), He' as (_ & t' & -> & ->). injection E as ->. apply pbind_ext; [done|]. intros id. by rewrite Hs.
    - destruct He as (-> & t & -> & ->), He' as (-> & t' & -> & ->). injection E as ->. apply pbind_ext; [done|]. intros id. by rewrite Hs.
    - destruct He as (-> & -> & t & -> & ->), He' as (-> & -> & t' & -> & ->). injection E as ->. apply pbind_ext; [done|]. intros id. by rewrite Hs.
    - destruct He as (-> & -> & -> & b & Eb & Hb), He' as (-> & -> & -> & b' & Eb' & Hb'). rewrite Eb, Eb'. injection E as E.
      apply rule_context_child in Eb as [Kb _], Eb' as [Kb' _]. apply height_child in Kb, Kb'.
      apply pbind_ext; [|intros [id s1]; by rewrite Hs]. unfold print_block. apply pbind_ext; [|done].
      eapply alternatives_lines; [apply IH|by apply block_alternatives|by apply block_alternatives|done|..]; apply alternative_list_heights; lia.
  Qed.
  Lemma rule_alternatives_lines f f' id alts cs : Forall2 alternative_tree alts cs -> forall alts' cs' s,
    Forall2 alternative_tree alts' cs' -> map plain_alternative alts = map plain_alternative alts' ->
    Forall (fun c => height c <= S f) cs -> Forall (fun c => height c <= S f') cs' ->
    pfold (print_rule_alternative f id) cs s = pfold (print_rule_alternative f' id) cs' s.
  Proof.
    induction 1 as [|e c es cs He _ IH]; intros es' cs' s H' E F F'.
    - destruct H'; done.
    - destruct H' as [|e' c' es' cs' He' H']; [done|]. cbn [map] in E. injection E as E1 E2. cbn [pfold].
      inversion F; subst. inversion F'; subst.
      apply pbind_ext; [|intros s1; by eapply IH]. unfold print_rule_alternative. apply pbind_ext; [|done]. by eapply alternative_lines; [apply element_lines|..].
  Qed.
  Lemma parser_rules_lines f f' rs cs : Forall2 (fun na c => rule_tree (ParserRule na.1 na.2) c) rs cs -> forall rs' cs' s,
    Forall2 (fun na c => rule_tree (ParserRule na.1 na.2) c) rs' cs' ->
    map (fun na => (na.1, map plain_alternative na.2)) rs = map (fun na => (na.1, map plain_alternative na.2)) rs' ->
    Forall (fun c => height c <= f) cs -> Forall (fun c => height c <= f') cs' ->
    pfold (print_parser_rule f) cs s = pfold (print_parser_rule f') cs' s.
  Proof.
    induction 1 as [|[n alts] c rs cs He _ IH]; intros rs' cs' s H' E F F'.
    - destruct H'; done.
    - destruct H' as [|[n' alts'] c' rs' cs' He' H']; [done|]. cbn [map fst snd] in *. injection E as E1 E2 E3. cbn [pfold].
      inversion F; subst. inversion F'; subst. apply pbind_ext; [|intros s1; by eapply IH].
      apply rule_view in He as (_ & (t & Et & En) & b & Eb & Hb), He' as (_ & (t' & Et' & En') & b' & Eb' & Hb').
      apply rule_context_child in Eb as Kb, Eb' as Kb'. destruct Kb as [Kb _], Kb' as [Kb' _]. apply height_child in Kb, Kb'.
      unfold print_parser_rule. rewrite Et, Et'. cbn [unwrap]. unfold pres at 1 4. cbn [pbind]. rewrite En, En', Eb, Eb'. cbn [unwrap].
      match goal with |- (let '(_, _) := ?x in _) = (let '(_, _) := ?y in _) => enough (x = y) as -> by done end.
      apply pbind_ext; [done|]. intros id. unfold pres. cbn [pbind].
      match goal with |- (let '(_, _) := ?x in _) = (let '(_, _) := ?y in _) => enough (x = y) as -> by done end.
      eapply rule_alternatives_lines; [by apply block_alternatives|by apply block_alternatives|done|..]; apply alternative_list_heights; lia.
  Qed.
End lines.

Lemma print_symbol_same G r G' r' st : grammar_tree G r -> grammar_tree G' r' -> map SpecRewrite.plain_rule G = map SpecRewrite.plain_rule G' ->
  visit_children print_symbol_visitor r st = visit_children print_symbol_visitor r' st.
Proof.
  intros (n & cs & -> & H) (n' & cs' & -> & H') E. rewrite !visit_children_fold by done.
  assert (Ho : forall r, outermost_below (overridden print_symbol_visitor) r = outermost_below is_rule_index r).
  { intros r. apply outermost_below_ext. intros i. unfold overridden. destruct i as [|[|[|[|[|[|[|[|[|i]]]]]]]]]; done. }
  rewrite !Ho, !(rules_overridden print_symbol_visitor _ _ _ H), !(rules_overridden print_symbol_visitor _ _ _ H'). f_equal. clear Ho n n'.
  revert G' cs' H' E st. induction H as [|g c G cs Hg _ IH]; intros G' cs' H' E s.
  - destruct H'; done.
  - destruct H' as [|g' c' G' cs' Hg' H']; [done|]. cbn [map] in E. injection E as E1 E2. cbn [rfold].
    assert (visit_step print_symbol_visitor s c = visit_step print_symbol_visitor s c') as ->.
    { unfold visit_step. apply rule_view in Hg, Hg'. destruct g as [m alts|m rx], g' as [m' alts'|m' rx']; cbn [SpecRewrite.plain_rule] in E1; try discriminate E1.
      - destruct Hg as (-> & (t & Et & En) & _), Hg' as (-> & (t' & Et' & En') & _). injection E1 as E1 _.
        cbn [v_override print_symbol_visitor v_parser_rule Nat.eqb PARSER_RULE]. cbn [rbind]. f_equal. apply pbind_ext; [done|]. intros s0.
        unfold print_call, out_symbol_parser_rule. rewrite Et, Et'. cbn [unwrap rbind]. by rewrite En, En', E1.
      - injection E1 as E1 Er. destruct Hg as (-> & (t & reg & rl & H1 & H2 & H3 & H4 & H5)%defines_acc), Hg' as (-> & (t' & reg' & rl' & H1' & H2' & H3' & H4' & H5')%defines_acc).
        cbn [v_override print_symbol_visitor v_lexer_rule Nat.eqb LEXER_RULE]. cbn [rbind]. f_equal. apply pbind_ext; [done|]. intros s0.
        unfold print_call, out_symbol_lexer_rule. rewrite H1, H1', H2, H2'. cbn [unwrap rbind]. rewrite H3, H3'. cbn [unwrap rbind].
        by rewrite H4, H4', H5, H5', E1, Er. }
    destruct (visit_step print_symbol_visitor s c') as [s1| |]; cbn [rbind]; [|done|done]. by apply (IH G').
Qed.

Lemma c84_lines G r G' r' : grammar_tree G r -> grammar_tree G' r' -> map SpecRewrite.plain_rule G = map SpecRewrite.plain_rule G' -> print_load_tree r = print_load_tree r'.
Proof.
  intros H H' E. unfold print_load_tree. cbv zeta. apply pbind_ext; [by rewrite (literal_same _ _ _ _ _ H H' E)|]. intros [x s1].
  apply pbind_ext; [by rewrite (print_symbol_same _ _ _ _ _ H H' E)|]. intros [x2 st]. apply pbind_ext; [done|]. intros s2. apply pbind_ext; [|done].
  destruct H as (m & cs & -> & H), H' as (m' & cs' & -> & H').
  eapply parser_rules_lines; [by apply grammar_parser_rules|by apply grammar_parser_rules| |..].
  - fold (rules_named G) (rules_named G'). by rewrite !rules_named_plain, E.
  - apply Forall_forall. intros c Hc. apply rule_contexts_child in Hc as [Hc _]. apply height_child in Hc. lia.
  - apply Forall_forall. intros c Hc. apply rule_contexts_child in Hc as [Hc _]. apply height_child in Hc. lia.
Qed.

(** The same grammar written twice, with a repeated token and a repeated alternative. *)
Definition twice (lazy : bool) : list rule :=
  [ParserRule (lit "ab") [Sequence [Element (TokenRef (lit "Xy")) (Some (Star, lazy))]; Sequence [Element (TokenRef (lit "Xy")) (Some (Star, negb lazy))]];
   LexerRule (lit "Xy") (lit "/x/"); LexerRule (lit "Xy") (lit "/y/")].
Lemma twice_lines : grammar_tree (twice true) (build_grammar (twice true)) /\ grammar_tree (twice false) (build_grammar (twice false)) /\
  map SpecRewrite.plain_rule (twice true) = map SpecRewrite.plain_rule (twice false) /\ build_grammar (twice true) <> build_grammar (twice false) /\
  fst (print_load_tree (build_grammar (twice true))) = [says_token (lit "Xy"); says_alternative].
Proof. split_and!; [apply build_grammar_tree; by repeat constructor|apply build_grammar_tree; by repeat constructor|done|done|by vm_compute]. Qed.
