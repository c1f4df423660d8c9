(** NamedProofs.v -- C102. *)
From Verif Require Export SpecNamed UnusedMain.

Lemma named_in name body l l' : named_alternatives name body l l' -> (forall a, a ∈ l -> exists a', a' ∈ l' /\ named_alternative name body a a') /\
  (forall a', a' ∈ l' -> exists a, a ∈ l /\ named_alternative name body a a').
Proof.
  induction 1 as [|a a' l l' Ha _ [IH1 IH2]]; [split; intros a Ha; by apply elem_of_nil in Ha|].
  split; intros x [->|Hx]%elem_of_cons.
  - exists a'. split; [by left|done].
  - destruct (IH1 x Hx) as (y & ? & ?). exists y. split; [by right|done].
  - exists a. split; [by left|done].
  - destruct (IH2 x Hx) as (y & ? & ?). exists y. split; [by right|done].
Qed.
Section named.
  Context (name : str) (body : list alternative) (G G' : list rule) (H : group_named name body G G').
  Lemma named_forth : (forall e w, matches_element G e w -> forall e', named_element name body e e' -> matches_element G' e' w) /\
    (forall a w, matches_atom G a w -> forall a', named_atom name body a a' -> matches_atom G' a' w) /\
    (forall a w, matches_alternative G a w -> forall a', named_alternative name body a a' -> matches_alternative G' a' w) /\
    (forall es w, matches_elements G es w -> forall es', named_elements name body es es' -> matches_elements G' es' w).
  Proof using H.
    destruct H as (_ & _ & (body' & B1 & B2) & H1 & _).
    apply matches_mut.
    all: try (intros; match goal with K : named_element _ _ _ _ |- _ => inversion K; subst end; econstructor; by eauto using named_element_intro).
    - intros n a' K. inversion K; subst. constructor.
    - intros n a' K. inversion K; subst. constructor.
    - intros n alts alt w Hr Ha _ IH a' K. inversion K; subst. destruct (H1 n alts Hr) as (alts' & Hr' & Hn). destruct (proj1 (named_in _ _ _ _ Hn) alt Ha) as (alt' & Ha' & Hn').
      eapply matches_rule; [exact Hr'|exact Ha'|by apply IH].
    - intros alts alt w Ha _ IH a' K. inversion K as [? H2|? alts' Hn|]; subst.
      + by edestruct H2.
      + destruct (proj1 (named_in _ _ _ _ Hn) alt Ha) as (alt' & Ha' & Hn'). eapply matches_group; [exact Ha'|by apply IH].
      + destruct (proj1 (named_in _ _ _ _ B2) alt Ha) as (alt' & Ha' & Hn'). eapply matches_rule; [exact B1|exact Ha'|by apply IH].
    - intros a' K. inversion K; subst. constructor.
    - intros es w _ IH a' K. inversion K; subst. constructor. by apply IH.
    - intros es' K. inversion K; subst. constructor.
    - intros e es w1 w2 _ IH1 _ IH2 es' K. inversion K; subst. constructor; [by apply IH1|by apply IH2].
  Qed.
  Definition clean_element (e : element) : Prop := forall s, ~ within_element (Element (RuleRef name) s) e.
  Definition clean_alternative (a : alternative) : Prop := forall s, ~ within_alternative (Element (RuleRef name) s) a.
  Definition clean_atom (a : atom) : Prop := exists s, clean_element (Element a s).
  Lemma clean_operand a s : clean_element (Element a s) -> clean_atom a.
  Proof using Type. by exists s. Qed.
  Lemma clean_group alts alt : clean_atom (Group alts) -> alt ∈ alts -> clean_alternative alt.
  Proof using Type. intros [s Hc] Ha x Hx. apply (Hc x). by eapply within_group. Qed.
  Lemma named_back : (forall e' w, matches_element G' e' w -> forall e, named_element name body e e' -> clean_element e -> matches_element G e w) /\
    (forall a' w, matches_atom G' a' w -> forall a, named_atom name body a a' -> clean_atom a -> matches_atom G a w) /\
    (forall a' w, matches_alternative G' a' w -> forall a, named_alternative name body a a' -> clean_alternative a -> matches_alternative G a w) /\
    (forall es' w, matches_elements G' es' w -> forall es, named_elements name body es es' -> clean_alternative (Sequence es) -> matches_elements G es w).
  Proof using H.
    destruct H as (_ & Hno & _ & _ & H2).
    apply matches_mut.
    all: try (intros; match goal with K : named_element _ _ _ _ |- _ => inversion K; subst end; econstructor; by eauto using named_element_intro, clean_operand).
    - intros n a K _. inversion K; subst. constructor.
    - intros n a K _. inversion K; subst. constructor.
    - intros n alts' alt' w Hr Ha _ IH a K Hc. specialize (H2 n alts' Hr). inversion K as [? Hg| |]; subst.
      + case_decide as E.
        * subst n. destruct Hc as [s Hc]. exfalso. apply (Hc s). constructor.
        * destruct H2 as (alts & Hr2 & Hn). destruct (proj2 (named_in _ _ _ _ Hn) alt' Ha) as (alt & Ha2 & Hn'). eapply matches_rule; [exact Hr2|exact Ha2|]. apply IH; [done|].
          intros s Hs. apply (Hno s). by exists n, alts, alt.
      + rewrite decide_True in H2 by done. destruct (proj2 (named_in _ _ _ _ H2) alt' Ha) as (alt & Ha2 & Hn'). eapply matches_group; [exact Ha2|]. apply IH; [done|]. by eapply clean_group.
    - intros alts' alt' w Ha _ IH a K Hc. inversion K as [? Hg|alts ? Hn|]; subst.
      + by edestruct Hg.
      + destruct (proj2 (named_in _ _ _ _ Hn) alt' Ha) as (alt & Ha2 & Hn'). eapply matches_group; [exact Ha2|]. apply IH; [done|]. by eapply clean_group.
    - intros a K _. inversion K; subst. constructor.
    - intros es w _ IH a K Hc. inversion K; subst. constructor. by apply IH.
    - intros es K _. inversion K; subst. constructor.
    - intros e' es' w1 w2 _ IH1 _ IH2 es K Hc. inversion K as [|e ? es0 ? K1 K2]; subst. constructor.
      + apply IH1; [done|]. intros s Hs. apply (Hc s). eapply within_sequence; [|exact Hs]. by left.
      + apply IH2; [done|]. intros s Hs. apply (Hc s). inversion Hs as [? x Hx Hw]; subst. eapply within_sequence; [|exact Hw]. by right.
  Qed.
  Lemma c102_language n w : n <> name -> (matches_atom G' (RuleRef n) w <-> matches_atom G (RuleRef n) w).
  Proof using H.
    intros Hn. split; intros Hm.
    - apply (proj1 (proj2 named_back) _ _ Hm); [by constructor|]. exists None. intros s Hs. inversion Hs as [|? ? ? ? ? ? E]; [congruence|discriminate E].
    - apply (proj1 (proj2 named_forth) _ _ Hm). by constructor.
  Qed.
End named.

(** *** Grammars that match the same *)
Lemma c102_same compile G G' r r' g g' data data' name name' order order' ws s rules ts :
  grammar_tree G r -> grammar_tree G' r' -> proper G -> proper G' -> load_tree r = Ret (g, data) -> load_tree r' = Ret (g', data') ->
  no_collision (g_vocabulary g) G -> no_collision (g_vocabulary g') G' -> head (parser_rule_names G) = Some name -> head (parser_rule_names G') = Some name' ->
  lexer_rules_of G = lexer_rules_of G' -> (forall w, matches_atom G (RuleRef name) w <-> matches_atom G' (RuleRef name') w) ->
  ll1 (productions g) -> ll1 (productions g') -> iteration_order g order -> iteration_order g' order' ->
  engine_ok compile -> compiled compile G rules -> (lit "WHITE_SPACE", ws) ∈ generated_constants data -> tokenized rules s ts ->
  data = data' /\ ((exists t, accepted compile order g data ws s ts t) <-> (exists t', accepted compile order' g' data' ws s ts t')).
Proof.
  intros HT HT' Hp Hp' Hl Hl' Hc Hc' Hh Hh' El L Hll Hll' Ho Ho' He Hcomp Hws Hts.
  assert (Ed : data = data').
  { destruct (load_tokens _ _ _ _ HT Hp Hl) as (sT & E & D & K), (load_tokens _ _ _ _ HT' Hp' Hl') as (sT' & E' & D' & K'). rewrite El, E' in E. injection E as ->. congruence. }
  split; [done|].
  assert (Hcomp' : compiled compile G' rules).
  { unfold compiled, lexer_rules in *. change (omap _ G) with (defs G) in Hcomp. change (omap _ G') with (defs G'). by rewrite (defs_parts G'), <- El, <- defs_parts. }
  assert (Hws' : (lit "WHITE_SPACE", ws) ∈ generated_constants data') by (by rewrite <- Ed).
  pose proof (c85_accepts_all compile G r g data name rules order ws s ts HT Hp Hl Hc Hh Ho He Hcomp Hws Hll Hts) as A.
  pose proof (c85_accepts_all compile G' r' g' data' name' rules order' ws s ts HT' Hp' Hl' Hc' Hh' Ho' He Hcomp' Hws' Hll' Hts) as A'.
  assert (B : (exists t, accepted compile order g data ws s ts t) <-> matches_atom G (RuleRef name) (map fst (visible ts))).
  { rewrite <- A. split; [intros (t & (n & K) & Hv); exists t, n; split; [done|]; split; [|done]|intros (t & n & K & _ & Hv); exists t; split; [by exists n|done]].
    destruct (c85_silent_all compile G r g data name rules order ws s n t [] HT Hp Hl Hc Hh Ho He Hcomp Hws (K n (le_n _))) as (? & ? & _ & Ht & _). exact Ht. }
  assert (B' : (exists t, accepted compile order' g' data' ws s ts t) <-> matches_atom G' (RuleRef name') (map fst (visible ts))).
  { rewrite <- A'. split; [intros (t & (n & K) & Hv); exists t, n; split; [done|]; split; [|done]|intros (t & n & K & _ & Hv); exists t; split; [by exists n|done]].
    destruct (c85_silent_all compile G' r' g' data' name' rules order' ws s n t [] HT' Hp' Hl' Hc' Hh' Ho' He Hcomp' Hws' (K n (le_n _))) as (? & ? & _ & Ht & _). exact Ht. }
  rewrite B, B', L. done.
Qed.
