(** UnusedProofs.v -- C101. *)
From Verif Require Export SpecUnused TokensMain ChainMain.

Lemma chain_forget compile order fuel g data ws s t w rest mm :
  chain_run compile order fuel g data ws s = Ret (t, w, rest, mm) <-> chain_log compile order fuel g data ws s = Ret (w, rest, (mm, inl t)).
Proof.
  unfold chain_run, chain_log. destruct (build_table _ _ _) as [[tab w1]| |]; cbn [rbind]; [|done..]. destruct (scan_all _ _ _ _ _) as [[toks rest1]| |]; cbn [rbind]; [|done..].
  rewrite c87_same. destruct (log_parse _ _ _ _) as [l [r|[]]]; cbn [forget_log rbind]; (split; [first [by intros [= -> -> -> ->]|done]|first [by intros [= -> -> -> ->]|done]]).
Qed.

(** *** What the old rules match *)
Section language.
  Context (G G' : list rule) (Hn : new_rules G G').
  Lemma matches_kept : (forall e w, matches_element G e w -> matches_element G' e w) /\ (forall a w, matches_atom G a w -> matches_atom G' a w) /\
    (forall a w, matches_alternative G a w -> matches_alternative G' a w) /\ (forall es w, matches_elements G es w -> matches_elements G' es w).
  Proof using Hn.
    apply matches_mut; intros; try by econstructor. destruct Hn as [(Ho & _) _]. destruct (Ho name alt) as (alts' & ? & ?); [by exists alts|]. by eapply matches_rule.
  Qed.
  Context (Hd : references_defined G).
  Definition old_element (e : element) : Prop := forall x, within_element x e -> occurs x G.
  Definition old_alternative (a : alternative) : Prop := forall x, within_alternative x a -> occurs x G.
  Definition old_atom (a : atom) : Prop := exists s, old_element (Element a s).
  Lemma old_operand a s : old_element (Element a s) -> old_atom a.
  Proof using Type. by exists s. Qed.
  Lemma matches_old : (forall e w, matches_element G' e w -> old_element e -> matches_element G e w) /\ (forall a w, matches_atom G' a w -> old_atom a -> matches_atom G a w) /\
    (forall a w, matches_alternative G' a w -> old_alternative a -> matches_alternative G a w) /\
    (forall es w, matches_elements G' es w -> old_alternative (Sequence es) -> matches_elements G es w).
  Proof using Hn Hd.
    apply matches_mut; try (intros; econstructor; by eauto using old_operand); try (intros; by econstructor).
    - intros name alts alt w Hr Ha _ IH [s Ho]. destruct (proj2 Hn name alt) as (alts' & Hr' & Ha').
      + apply (proj1 (proj2 Hd) name s). apply Ho. constructor.
      + by exists alts.
      + eapply matches_rule; [exact Hr'|exact Ha'|]. apply IH. intros x Hx. by exists name, alts', alt.
    - intros alts alt w Ha _ IH [s Ho]. eapply matches_group; [exact Ha|]. apply IH. intros x Hx. apply Ho. by eapply within_group.
    - intros e es w1 w2 _ IH1 _ IH2 Ho. constructor.
      + apply IH1. intros x Hx. apply Ho. eapply within_sequence; [|exact Hx]. by left.
      + apply IH2. intros x Hx. inversion Hx as [es' e' He Hw]; subst. apply Ho. eapply within_sequence; [|exact Hw]. by right.
  Qed.
  Lemma c101_language n w : n ∈ parser_rule_names G -> (matches_atom G' (RuleRef n) w <-> matches_atom G (RuleRef n) w).
  Proof using Hn Hd.
    intros Hin. split; [|apply matches_kept]. intros H. inversion H as [| |? alts alt ? Hr Ha Hm|]; subst.
    destruct (proj2 Hn n alt Hin) as (alts' & Hr' & Ha'); [by exists alts|]. eapply matches_rule; [exact Hr'|exact Ha'|]. apply matches_old; [done|]. intros x Hx. by exists n, alts', alt.
  Qed.
End language.

Section chain.
  Context (G G' : list rule) (r r' : rule_ctx) (g g' : grammar) (data data' : list lexer_rule_data) (Hnew : new_rules G G').
  Context (HT : grammar_tree G r) (HT' : grammar_tree G' r') (Hp' : proper G') (Hl : load_tree r = Ret (g, data)) (Hl' : load_tree r' = Ret (g', data')).
  Context (Hc : no_collision (g_vocabulary g) G) (Hc' : no_collision (g_vocabulary g') G').
  Context (compile : str -> matcher) (order order' : list production) (ws : nat) (s : str) (rules : list (str * matcher)) (ts : list (str * str)).
  Context (Hne : parser_rule_names G <> []) (Hll' : ll1 (productions g')) (Ho : iteration_order g order) (Ho' : iteration_order g' order').
  Context (He : engine_ok compile) (Hcomp : compiled compile G rules) (Hws : (lit "WHITE_SPACE", ws) ∈ generated_constants data) (Hts : tokenized rules s ts).
  Lemma both_accept : (exists t, accepted compile order g data ws s ts t) <-> (exists t', accepted compile order' g' data' ws s ts t').
  Proof using All.
    destruct Hnew as [Hm Hnew']. pose proof (less_proper _ _ Hm Hp') as Hp. destruct (c99_data _ _ _ _ _ _ _ _ Hm HT HT' Hp' Hl Hl') as [Ed _].
    pose proof (c99_ll1 _ _ _ _ _ _ _ _ Hm HT HT' Hp' Hl Hl' Hc Hc' Hne Hll') as Hll.
    assert (Hd : references_defined G) by (apply (c42 _ _ HT Hp); by eexists).
    destruct (parser_rule_names G) as [|name ns] eqn:En; [done|]. assert (Hh : head (parser_rule_names G) = Some name) by (by rewrite En).
    assert (Hh' : head (parser_rule_names G') = Some name) by (destruct Hm as (_ & _ & _ & <-); exact Hh).
    assert (Hcomp' : compiled compile G' rules).
    { unfold compiled, lexer_rules in *. assert (E : lexer_rules_of G = lexer_rules_of G') by apply Hm. change (omap _ G) with (defs G) in Hcomp. change (omap _ G') with (defs G'). by rewrite (defs_parts G'), <- E, <- defs_parts. }
    assert (Hws' : (lit "WHITE_SPACE", ws) ∈ generated_constants data') by (by rewrite <- Ed).
    pose proof (c85_accepts_all compile G r g data name rules order ws s ts HT Hp Hl Hc Hh Ho He Hcomp Hws Hll Hts) as A.
    pose proof (c85_accepts_all compile G' r' g' data' name rules order' ws s ts HT' Hp' Hl' Hc' Hh' Ho' He Hcomp' Hws' Hll' Hts) as A'.
    pose proof (c101_language G G' Hnew Hd name (map fst (visible ts)) ltac:(rewrite En; by left)) as L.
    assert (B : (exists t, accepted compile order g data ws s ts t) <-> matches_atom G (RuleRef name) (map fst (visible ts))).
    { rewrite <- A. split; [intros (t & (n & K) & Hv); exists t, n; split; [done|]; split; [|done]|intros (t & n & K & _ & Hv); exists t; split; [by exists n|done]].
      destruct (c85_silent_all compile G r g data name rules order ws s n t [] HT Hp Hl Hc Hh Ho He Hcomp Hws (K n (le_n _))) as (? & ? & _ & Ht & _). exact Ht. }
    assert (B' : (exists t, accepted compile order' g' data' ws s ts t) <-> matches_atom G' (RuleRef name) (map fst (visible ts))).
    { rewrite <- A'. split; [intros (t & (n & K) & Hv); exists t, n; split; [done|]; split; [|done]|intros (t & n & K & _ & Hv); exists t; split; [by exists n|done]].
      destruct (c85_silent_all compile G' r' g' data' name rules order' ws s n t [] HT' Hp' Hl' Hc' Hh' Ho' He Hcomp' Hws' (K n (le_n _))) as (? & ? & _ & Ht & _). exact Ht. }
    rewrite B, B', L. done.
  Qed.
  Lemma c101_same t t' : accepted compile order g data ws s ts t -> accepted compile order' g' data' ws s ts t' -> unnumbered t = unnumbered t'.
  Proof using All.
    intros [[n K] _] [[n' K'] _]. destruct (c99_chain _ _ _ _ _ _ _ _ (proj1 Hnew) HT HT' Hp' Hl Hl' Hc Hc' compile order order' ws s Hne Hll' Ho Ho') as [m Hm].
    set (f := n `max` n' `max` m). specialize (Hm f ltac:(lia)). specialize (K f ltac:(lia)). specialize (K' f ltac:(lia)). apply chain_forget in K, K'. rewrite K, K' in Hm.
    destruct Hm as (_ & _ & _ & t2 & [= <-] & E). exact E.
  Qed.
  Lemma c101_chain : (forall t, accepted compile order g data ws s ts t -> exists t', accepted compile order' g' data' ws s ts t' /\ unnumbered t = unnumbered t') /\
    (forall t', accepted compile order' g' data' ws s ts t' -> exists t, accepted compile order g data ws s ts t /\ unnumbered t = unnumbered t').
  Proof using All.
    split; [intros t H; destruct (proj1 both_accept (ex_intro _ _ H)) as [t' H']; exists t'|intros t' H'; destruct (proj2 both_accept (ex_intro _ _ H')) as [t H]; exists t];
      (split; [done|by apply c101_same]).
  Qed.
End chain.
