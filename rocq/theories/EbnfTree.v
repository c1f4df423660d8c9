(** EbnfTree.v -- what the accessors return on the tree of a grammar. *)
From Verif Require Export SpecEbnf CollectProofs.

Scheme element_tree_mut := Induction for element_tree Sort Prop
with atom_trees_mut := Induction for atom_trees Sort Prop
with block_tree_mut := Induction for block_tree Sort Prop
with alternatives_trees_mut := Induction for alternatives_trees Sort Prop
with alternative_tree_mut := Induction for alternative_tree Sort Prop
with elements_trees_mut := Induction for elements_trees Sort Prop.

Definition terminal_of (ty : nat) (a : ast) : option token := match a with Terminal t => if token_type t =? ty then Some t else None | _ => None end.
Definition rule_of (ty : nat) (a : ast) : option rule_ctx := match a with Rule c => if rule_index c =? ty then Some c else None | _ => None end.

Lemma get_terminals_omap r ty : get_terminals r ty = omap (terminal_of ty) (children r).
Proof.
  unfold get_terminals. change (omap (terminal_of ty) (children r)) with ([] ++ omap (terminal_of ty) (children r)).
  generalize (@nil token) at 2 3 as acc.
  induction (children r) as [|c cs IH]; intros acc; [by rewrite app_nil_r|]. simpl. rewrite IH.
  destruct c as [t|c|t]; simpl; [|done|done]. destruct (_ =? _); [|done]. by rewrite <- app_assoc.
Qed.
Lemma get_rule_contexts_omap r ty : get_rule_contexts r ty = omap (rule_of ty) (children r).
Proof.
  unfold get_rule_contexts. change (omap (rule_of ty) (children r)) with ([] ++ omap (rule_of ty) (children r)).
  generalize (@nil rule_ctx) at 2 3 as acc.
  induction (children r) as [|c cs IH]; intros acc; [by rewrite app_nil_r|]. simpl. rewrite IH.
  destruct c as [t|c|t]; simpl; [done| |done]. destruct (_ =? _); [|done]. by rewrite <- app_assoc.
Qed.
Lemma get_terminal_head r ty : get_terminal r ty 0 = head (omap (terminal_of ty) (children r)).
Proof. rewrite (proj2 (c15_terminals r ty)), get_terminals_omap. by destruct (omap _ _). Qed.
Lemma get_rule_context_head r ty : get_rule_context r ty 0 = head (omap (rule_of ty) (children r)).
Proof. rewrite (proj2 (c15_rule_contexts r ty)), get_rule_contexts_omap. by destruct (omap _ _). Qed.

Lemma terminal_of_tok ty txt ty' a : tok ty txt a -> terminal_of ty' a = (if ty =? ty' then terminal_of ty a else None).
Proof. intros (t & -> & <- & _). simpl. rewrite Nat.eqb_refl. done. Qed.
Lemma terminal_of_any ty ty' a : any_tok ty a -> terminal_of ty' a = (if ty =? ty' then terminal_of ty a else None).
Proof. intros (t & -> & <-). simpl. rewrite Nat.eqb_refl. done. Qed.
Lemma terminal_of_tok_same ty txt a : tok ty txt a -> exists t, terminal_of ty a = Some t /\ text t = txt.
Proof. intros (t & -> & <- & <-). simpl. rewrite Nat.eqb_refl. eauto. Qed.
Lemma terminal_of_any_same ty a : any_tok ty a -> exists t, terminal_of ty a = Some t.
Proof. intros (t & -> & <-). simpl. rewrite Nat.eqb_refl. eauto. Qed.
Lemma rule_of_tok ty txt ty' a : tok ty txt a -> rule_of ty' a = None.
Proof. by intros (t & -> & _). Qed.
Lemma rule_of_any ty ty' a : any_tok ty a -> rule_of ty' a = None.
Proof. by intros (t & -> & _). Qed.

Lemma suffix_terminals s ss ty : suffix_tree s ss -> omap (terminal_of ty) ss = [].
Proof. by destruct 1. Qed.
Lemma suffix_rules s ss ty : suffix_tree s ss -> ty <> EBNF_SUFFIX -> omap (rule_of ty) ss = [].
Proof. intros H Hne. destruct H; [done|..]; cbn [omap list_omap rule_of rule_index]; by rewrite (proj2 (Nat.eqb_neq _ _) (not_eq_sym Hne)). Qed.

Ltac toks := repeat match goal with
  | H : tok _ _ ?a |- context [rule_of _ ?a] => rewrite (rule_of_tok _ _ _ _ H)
  | H : any_tok _ ?a |- context [rule_of _ ?a] => rewrite (rule_of_any _ _ _ H)
  | H : tok ?ty _ ?a |- context [terminal_of ?ty' ?a] => lazymatch ty with ty' => fail | _ => rewrite (terminal_of_tok _ _ ty' _ H); cbn end
  | H : any_tok ?ty ?a |- context [terminal_of ?ty' ?a] => lazymatch ty with ty' => fail | _ => rewrite (terminal_of_any _ ty' _ H); cbn end
  end.

(** Elements *)
Lemma element_suffix a s n cs ss : atom_trees a cs -> suffix_tree s ss ->
  element_ebnf_suffix (RuleCtx n (cs ++ ss) ELEMENT) = match ss with Rule c :: _ => Some c | _ => None end.
Proof.
  intros Ha Hs. unfold element_ebnf_suffix. rewrite get_rule_context_head. cbn [children]. rewrite omap_app.
  assert (omap (rule_of EBNF_SUFFIX) cs = []) as ->.
  { inversion Ha; subst; cbn [omap list_omap]; toks; try done.
    match goal with H : block_tree _ ?b |- _ => destruct H end. done. }
  simpl. by destruct Hs.
Qed.
Lemma suffix_kind s ss c : suffix_tree s ss -> head ss = Some (Rule c) ->
  exists k b, s = Some (k, b) /\
    (match k with Star => exists t, suffix_star c = Some t | Plus => suffix_star c = None /\ exists t, suffix_plus c = Some t
     | Question => suffix_star c = None /\ suffix_plus c = None end).
Proof.
  intros H E. destruct H as [|k a n Ha|k a q n Ha Hq]; [done|..]; injection E as <-; exists k; eexists; (split; [reflexivity|]);
    unfold suffix_star, suffix_plus; rewrite !get_terminal_head; cbn [children omap list_omap];
    destruct k; cbn [suffix_type] in Ha; destruct (terminal_of_any_same _ _ Ha) as [t Et]; toks; rewrite ?Et; eauto.
Qed.

Definition element_view (e : element) (c : rule_ctx) : Prop :=
  match e with
  | Element a s =>
      (match a with
       | TokenRef n => element_string_literal c = None /\ exists t, element_token_ref c = Some t /\ text t = n
       | StringLiteral l => element_token_ref c = None /\ exists t, element_string_literal c = Some t /\ text t = l
       | RuleRef n => element_token_ref c = None /\ element_string_literal c = None /\ exists t, element_rule_ref c = Some t /\ text t = n
       | Group alts => element_token_ref c = None /\ element_string_literal c = None /\ element_rule_ref c = None /\
           exists b, element_block c = Some b /\ block_tree alts b
       end) /\
      (match s with
       | None => element_ebnf_suffix c = None
       | Some (k, _) => exists x, element_ebnf_suffix c = Some x /\
           match k with Star => exists t, suffix_star x = Some t | Plus => suffix_star x = None /\ exists t, suffix_plus x = Some t
           | Question => suffix_star x = None /\ suffix_plus x = None end
       end)
  end.
Lemma element_tree_view e c : element_tree e c -> element_view e c.
Proof.
  destruct 1 as [a s n cs ss Ha Hs]. split.
  - unfold element_token_ref, element_string_literal, element_rule_ref, element_block.
    rewrite !get_terminal_head, get_rule_context_head. cbn [children]. rewrite !omap_app, !(suffix_terminals _ _ _ Hs), !app_nil_r.
    rewrite (suffix_rules _ _ BLOCK Hs) by done. rewrite app_nil_r.
    inversion Ha as [name x Hx|l x Hx|name x Hx|alts l b r Hl Hr Hb]; subst; cbn [omap list_omap]; toks.
    + destruct (terminal_of_tok_same _ _ _ Hx) as (t & -> & ?). eauto.
    + destruct (terminal_of_tok_same _ _ _ Hx) as (t & -> & ?). eauto.
    + destruct (terminal_of_tok_same _ _ _ Hx) as (t & -> & ?). eauto.
    + split_and!; try done. exists b. split; [|done]. destruct Hb. done.
  - rewrite (element_suffix a s n cs ss Ha Hs). destruct s as [[k lazy]|].
    + destruct ss as [|[|c|] ss]; [by inversion Hs..| |by inversion Hs].
      exists c. split; [done|]. destruct (suffix_kind _ _ c Hs eq_refl) as (k' & b' & [= <- <-] & ?). done.
    + inversion Hs. done.
Qed.

Lemma block_alternatives alts b : block_tree alts b -> Forall2 alternative_tree alts (alternative_list b).
Proof.
  destruct 1 as [alts n cs H]. unfold alternative_list. rewrite get_rule_contexts_omap. cbn [children].
  induction H as [a c Ha|a c o alts cs Ha Ho _ IH]; cbn [omap list_omap]; toks.
  - destruct Ha; cbn; repeat constructor; done.
  - assert (rule_of ALTERNATIVE (Rule c) = Some c) as -> by (by destruct Ha). constructor; done.
Qed.
Lemma alternative_view a c : alternative_tree a c ->
  match a with
  | Epsilon => exists x, alternative_epsilon c = Some x
  | Sequence es => alternative_epsilon c = None /\ Forall2 element_tree es (element_list c)
  end.
Proof.
  destruct 1 as [n m e He|n es cs H]; unfold alternative_epsilon, element_list; rewrite ?get_rule_context_head, ?get_rule_contexts_omap; cbn [children].
  - cbn. eauto.
  - induction H as [|e c es cs He _ [IH1 IH2]]; [split; [done|constructor]|].
    assert (rule_of EPSILON_RULE (Rule c) = None) as E1 by (by destruct He).
    assert (rule_of ELEMENT (Rule c) = Some c) as E2 by (by destruct He).
    cbn [omap list_omap]. rewrite E1, E2. split; [done|]. constructor; done.
Qed.

(** Rules *)
Lemma rule_view g c : rule_tree g c ->
  match g with
  | ParserRule name alts => rule_index c = PARSER_RULE /\ (exists t, parser_rule_rule_ref c = Some t /\ text t = name) /\
      exists b, parser_rule_block c = Some b /\ block_tree alts b
  | LexerRule name regex => rule_index c = LEXER_RULE /\ defines c name regex
  end.
Proof.
  destruct 1 as [name alts n a c b s Ha Hc Hb Hs|name regex n m a c r s Ha Hc Hr Hs].
  - split; [done|]. unfold parser_rule_rule_ref, parser_rule_block. rewrite get_terminal_head, get_rule_context_head. cbn [children omap list_omap].
    toks. destruct (terminal_of_tok_same _ _ _ Ha) as (t & -> & ?). split; [eauto|].
    exists b. split; [by destruct Hb|done].
  - split; [done|]. destruct (terminal_of_tok_same _ _ _ Ha) as (t & Et & ?). destruct (terminal_of_tok_same _ _ _ Hr) as (t' & Et' & ?).
    apply defines_acc. exists t, (RuleCtx m [r] REGULAR), t'. unfold lexer_rule_token_ref, lexer_rule_regular, regular_regular_literal.
    rewrite !get_terminal_head, get_rule_context_head. cbn [children omap list_omap]. toks. rewrite Et, Et'. done.
Qed.
Lemma grammar_parser_rules G n cs : Forall2 rule_tree G cs ->
  Forall2 (fun na c => rule_tree (ParserRule na.1 na.2) c)
    (omap (fun r => match r with ParserRule n a => Some (n, a) | _ => None end) G) (parser_rule_list (RuleCtx n (map Rule cs) RULE_LIST)).
Proof.
  intros H. unfold parser_rule_list. rewrite get_rule_contexts_omap. cbn [children].
  induction H as [|g c G cs Hg _ IH]; [constructor|]. cbn [omap list_omap map rule_of].
  pose proof (rule_view _ _ Hg) as Hv. destruct g as [name alts|name regex]; destruct Hv as [-> _]; cbn.
  - constructor; done.
  - done.
Qed.
