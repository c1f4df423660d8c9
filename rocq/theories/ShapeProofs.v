(** ShapeProofs.v -- C89: the typed accessors describe exactly the trees of grammars. *)
From Verif Require Export SpecShape BootstrapProofs.

Scheme shape_element_mut := Minimality for element_tree Sort Prop
  with shape_atom_mut := Minimality for atom_trees Sort Prop
  with shape_block_mut := Minimality for block_tree Sort Prop
  with shape_alternatives_mut := Minimality for alternatives_trees Sort Prop
  with shape_alternative_mut := Minimality for alternative_tree Sort Prop
  with shape_elements_mut := Minimality for elements_trees Sort Prop.
Combined Scheme shape_mut from shape_element_mut, shape_atom_mut, shape_block_mut, shape_alternatives_mut, shape_alternative_mut, shape_elements_mut.

(** *** From the tree of a grammar to its accessors *)
Definition all_described (a : accessors) (r : rule_ctx) : Prop := forall x, node_of x r -> described a x.
Definition below (a : accessors) (cs : list ast) : Prop := forall c, Rule c ∈ cs -> all_described a c.

Lemma all_intro a r : described a r -> below a (children r) -> all_described a r.
Proof. intros Hd Hb x Hx. destruct Hx as [r|x c r Hc Hx]; [done|]. exact (Hb c Hc x Hx). Qed.
Lemma all_here a r : all_described a r -> described a r.
Proof. intros H. apply H. constructor. Qed.
Lemma all_below a r : all_described a r -> below a (children r).
Proof. intros H c Hc x Hx. apply H. by econstructor. Qed.
Lemma below_cons a c cs : below a (c :: cs) <-> match c with Rule c => all_described a c | _ => True end /\ below a cs.
Proof.
  split.
  - intros H. split; [destruct c; try done; apply H; left|]. intros d Hd. apply H. by right.
  - intros [H1 H2] d Hd. apply elem_of_cons in Hd as [<-|Hd]; [done|by apply H2].
Qed.
Lemma below_app a cs cs' : below a (cs ++ cs') <-> below a cs /\ below a cs'.
Proof.
  unfold below. split; [intros H; split; intros c Hc; apply H, elem_of_app; auto|].
  intros [H1 H2] c Hc. apply elem_of_app in Hc as []; auto.
Qed.

Definition atom_shape (cs : list ast) : Prop :=
  (exists t, cs = [Terminal t] /\ (token_type t = TOKEN_REF \/ token_type t = STRING_LITERAL \/ token_type t = RULE_REF)) \/
  (exists l b p, cs = [Terminal l; Rule b; Terminal p] /\ token_type l = LPAREN /\ rule_index b = BLOCK /\ token_type p = RPAREN).

Ltac open_tok := repeat match goal with
  | H : any_tok _ _ |- _ => destruct H as (? & -> & ?)
  | H : tok _ _ _ |- _ => destruct H as (? & -> & ? & ?)
  | t : token |- _ => destruct t
  | H : rule_index ?b = _ |- _ => is_var b; destruct b; cbn in H; subst
  end; cbn in *; subst.

Lemma suffix_described s ss : suffix_tree s ss ->
  (ss = [] \/ exists c, ss = [Rule c] /\ rule_index c = EBNF_SUFFIX) /\ below hand_accessors ss.
Proof.
  intros H. split; [destruct H; eauto|]. destruct H as [|s a n Ha|s a q n Ha Hq].
  - intros c Hc. by apply elem_of_nil in Hc.
  - apply below_cons. split; [|intros c Hc; by apply elem_of_nil in Hc]. open_tok.
    apply all_intro; [|intros c Hc; cbn in Hc; apply elem_of_list_singleton in Hc; done].
    destruct s; cbn.
    + left. eexists. repeat split; try reflexivity; cbn; lia.
    + right; left. eexists. repeat split; try reflexivity; cbn; lia.
    + right; right. repeat split; try reflexivity; lia.
  - apply below_cons. split; [|intros c Hc; by apply elem_of_nil in Hc]. open_tok.
    apply all_intro; [|intros c Hc; cbn in Hc; apply elem_of_cons in Hc as [Hc|Hc]; [done|]; apply elem_of_list_singleton in Hc; done].
    destruct s; cbn.
    + left. eexists. repeat split; try reflexivity; cbn; lia.
    + right; left. eexists. repeat split; try reflexivity; cbn; lia.
    + right; right. repeat split; try reflexivity; cbn; lia.
Qed.

Lemma trees_described :
  (forall e r, element_tree e r -> rule_index r = ELEMENT /\ all_described hand_accessors r) /\
  (forall a cs, atom_trees a cs -> atom_shape cs /\ below hand_accessors cs) /\
  (forall alts r, block_tree alts r -> rule_index r = BLOCK /\ all_described hand_accessors r) /\
  (forall alts cs, alternatives_trees alts cs ->
     separated (map Rule (omap (rule_of ALTERNATIVE) cs)) (map Terminal (omap (terminal_of OR) cs)) cs /\ below hand_accessors cs) /\
  (forall a r, alternative_tree a r -> rule_index r = ALTERNATIVE /\ all_described hand_accessors r) /\
  (forall es cs, elements_trees es cs ->
     omap (rule_of EPSILON_RULE) cs = [] /\ cs = map Rule (omap (rule_of ELEMENT) cs) /\ below hand_accessors cs).
Proof.
  apply shape_mut.
  - intros a s n cs ss _ [Hs Hb] Hss. apply suffix_described in Hss as [Hss Hbs]. split; [done|].
    apply all_intro; [|by apply below_app]. unfold described. cbn [rule_index ELEMENT].
    destruct Hs as [(t & -> & Ht)|(l & b & p & -> & Hl & Hbb & Hp)], Hss as [->|(c & -> & Hc)].
    + destruct Ht as [Ht|[Ht|Ht]]; open_tok; eexists; (split; [first [eapply operand_token; reflexivity|eapply operand_literal; reflexivity|eapply operand_rule; reflexivity]|reflexivity]).
    + destruct Ht as [Ht|[Ht|Ht]]; open_tok; eexists; (split; [first [eapply operand_token; reflexivity|eapply operand_literal; reflexivity|eapply operand_rule; reflexivity]|reflexivity]).
    + open_tok. eexists; split; [eapply operand_group; reflexivity|reflexivity].
    + open_tok. eexists; split; [eapply operand_group; reflexivity|reflexivity].
  - intros name a Ha. open_tok. split; [left; eauto|]. intros c Hc. by apply elem_of_list_singleton in Hc.
  - intros name a Ha. open_tok. split; [left; eauto|]. intros c Hc. by apply elem_of_list_singleton in Hc.
  - intros name a Ha. open_tok. split; [left; eauto|]. intros c Hc. by apply elem_of_list_singleton in Hc.
  - intros alts l b r Hl Hr _ [Hi Hb]. destruct Hl as (l' & -> & Hl), Hr as (r' & -> & Hr).
    split; [right; eauto 10|]. rewrite !below_cons. repeat split; auto. intros c Hc. by apply elem_of_nil in Hc.
  - intros alts n cs _ [Hs Hb]. split; [done|]. apply all_intro; [|done]. unfold described. cbn [rule_index BLOCK].
    cbn [of_block_alternatives of_block_ors hand_accessors]. unfold alternative_list, or_list.
    by rewrite get_rule_contexts_omap, get_terminals_omap.
  - intros a c _ [Hi Hc]. split; [|apply below_cons; split; [done|]; intros d Hd; by apply elem_of_nil in Hd].
    cbn. rewrite Hi. cbn. constructor.
  - intros a c o alts cs _ [Hi Hc] Ho _ [Hs Hb]. destruct Ho as (o' & -> & Ho).
    split; [|rewrite !below_cons; auto]. cbn. rewrite Hi, Ho. cbn. by constructor.
  - intros n m e He. split; [done|]. destruct He as (e' & -> & He). destruct e'. cbn in He. subst.
    apply all_intro.
    + cbn. left. eexists. repeat split; reflexivity.
    + cbn. apply below_cons. split; [|intros d Hd; by apply elem_of_nil in Hd]. apply all_intro.
      * cbn. eexists. split; reflexivity.
      * intros d Hd. cbn in Hd. by apply elem_of_list_singleton in Hd.
  - intros n es cs _ (He & Hs & Hb). split; [done|]. apply all_intro; [|done]. unfold described. cbn [rule_index ALTERNATIVE]. right.
    cbn [of_alternative_epsilon of_alternative_elements hand_accessors]. unfold alternative_epsilon, element_list, get_rule_context.
    rewrite !get_rule_contexts_omap. cbn [children]. rewrite He. by split.
  - repeat split; try done. intros c Hc. by apply elem_of_nil in Hc.
  - intros e c es cs _ [Hi Hc] _ (He & Hs & Hb). cbn. rewrite Hi. cbn. repeat split; [exact He|by f_equal|]. by apply below_cons.
Qed.

Lemma rule_described g c : rule_tree g c -> (rule_index c = PARSER_RULE \/ rule_index c = LEXER_RULE) /\ all_described hand_accessors c.
Proof.
  destruct 1 as [name alts n a c b s Ha Hc Hb Hs|name regex n m a c r s Ha Hc Hr Hs]; (split; [auto|]).
  - apply trees_described in Hb as [Hi Hb]. destruct Ha as (a' & -> & Ha & _), Hc as (c' & -> & Hc), Hs as (s' & -> & Hs).
    apply all_intro; [|cbn; rewrite !below_cons; repeat split; auto; intros d Hd; by apply elem_of_nil in Hd].
    destruct a', c', s', b. cbn in *. subst. do 4 eexists. repeat split; reflexivity.
  - destruct Ha as (a' & -> & Ha & _), Hc as (c' & -> & Hc), Hs as (s' & -> & Hs), Hr as (r' & -> & Hr & _).
    destruct a', c', s', r'. cbn in *. subst.
    apply all_intro; [do 4 eexists; repeat split; reflexivity|].
    cbn; rewrite !below_cons; repeat split; auto; [|intros d Hd; by apply elem_of_nil in Hd].
    apply all_intro; [cbn; eexists; split; reflexivity|]. intros d Hd. cbn in Hd. by apply elem_of_list_singleton in Hd.
Qed.
Lemma grammar_described G r : grammar_tree G r -> rule_index r = RULE_LIST /\ all_described hand_accessors r.
Proof.
  intros (n & cs & -> & HG). split; [done|].
  assert (merged (map Rule (omap (rule_of PARSER_RULE) (map Rule cs))) (map Rule (omap (rule_of LEXER_RULE) (map Rule cs))) (map Rule cs) /\
    below hand_accessors (map Rule cs)) as [Hm Hb].
  { induction HG as [|g c G cs Hg _ [IH1 IH2]]; [split; [constructor|intros c Hc; by apply elem_of_nil in Hc]|].
    apply rule_described in Hg as [Hi Hc]. split; [|cbn [map]; rewrite below_cons; auto].
    cbn. destruct Hi as [Hi|Hi]; rewrite Hi; cbn; by constructor. }
  apply all_intro; [|done]. unfold described. cbn [rule_index RULE_LIST of_list_parser_rules of_list_lexer_rules hand_accessors].
  unfold parser_rule_list, lexer_rule_list. by rewrite !get_rule_contexts_omap.
Qed.

(** *** And back *)
Lemma terminal_some r ty t : get_terminal r ty 0 = Some t -> token_type t = ty.
Proof.
  rewrite get_terminal_head. intros H. apply head_Some_elem_of in H. apply elem_of_list_omap in H as (c & _ & H).
  destruct c as [u|u|u]; [|done..]. cbn in H. destruct (Nat.eqb_spec (token_type u) ty); [|done]. by injection H as ->.
Qed.
Lemma terminals_in r ty t : t ∈ get_terminals r ty -> token_type t = ty.
Proof.
  rewrite get_terminals_omap. intros H. apply elem_of_list_omap in H as (c & _ & H).
  destruct c as [u|u|u]; [|done..]. cbn in H. destruct (Nat.eqb_spec (token_type u) ty); [|done]. by injection H as ->.
Qed.
Lemma contexts_in r i c : c ∈ get_rule_contexts r i -> rule_index c = i.
Proof.
  rewrite get_rule_contexts_omap. intros H. apply elem_of_list_omap in H as (d & _ & H).
  destruct d as [u|u|u]; [done| |done]. cbn in H. destruct (Nat.eqb_spec (rule_index u) i); [|done]. by injection H as ->.
Qed.
Lemma context_some r i c : get_rule_context r i 0 = Some c -> rule_index c = i.
Proof.
  rewrite get_rule_context_head, <- get_rule_contexts_omap. intros H. apply head_Some_elem_of in H. by apply contexts_in in H.
Qed.
Lemma ctx_eta r i cs : rule_index r = i -> children r = cs -> r = RuleCtx (rule_name r) cs i.
Proof. destruct r. cbn. by intros -> ->. Qed.

Definition kinds (r : rule_ctx) : Prop :=
  (rule_index r = PARSER_RULE \/ rule_index r = LEXER_RULE -> exists g, rule_tree g r) /\
  (rule_index r = BLOCK -> exists alts, block_tree alts r) /\
  (rule_index r = ALTERNATIVE -> exists a, alternative_tree a r) /\
  (rule_index r = EPSILON_RULE -> exists e, any_tok EPSILON e /\ r = RuleCtx (rule_name r) [e] EPSILON_RULE) /\
  (rule_index r = ELEMENT -> exists e, element_tree e r) /\
  (rule_index r = EBNF_SUFFIX -> exists s, suffix_tree (Some s) [Rule r]) /\
  (rule_index r = REGULAR -> exists x e, tok REGULAR_LITERAL x e /\ r = RuleCtx (rule_name r) [e] REGULAR).

Lemma suffix_back r : described hand_accessors r -> rule_index r = EBNF_SUFFIX -> exists s, suffix_tree (Some s) [Rule r].
Proof.
  intros Hd Hi. unfold described in Hd. rewrite Hi in Hd. cbn [EBNF_SUFFIX of_suffix_star of_suffix_plus of_suffix_questions hand_accessors] in Hd.
  assert (forall t, t ∈ question_list r -> any_tok QUESTION (Terminal t)) as Hq.
  { intros t Ht. apply terminals_in in Ht. by exists t. }
  destruct Hd as [(t & Ht & _ & Hl & Hc)|[(t & _ & Ht & Hl & Hc)|(_ & _ & Hl & Hc)]].
  - apply terminal_some in Ht. rewrite (ctx_eta _ _ _ Hi Hc).
    destruct (question_list r) as [|q [|q' qs]]; [exists (Star, false); constructor; by exists t| |cbn in Hl; lia].
    exists (Star, true). constructor; [by exists t|]. apply Hq. left.
  - apply terminal_some in Ht. rewrite (ctx_eta _ _ _ Hi Hc).
    destruct (question_list r) as [|q [|q' qs]]; [exists (Plus, false); constructor; by exists t| |cbn in Hl; lia].
    exists (Plus, true). constructor; [by exists t|]. apply Hq. left.
  - rewrite (ctx_eta _ _ _ Hi Hc). destruct (question_list r) as [|q [|q' [|q'' qs]]]; [cbn in Hl; lia|..|cbn in Hl; lia].
    + exists (Question, false). constructor. apply Hq. left.
    + exists (Question, true). constructor; apply Hq; [left|right; left].
Qed.

Lemma kinds_back r : all_described hand_accessors r -> kinds r.
Proof.
  revert r. apply (rule_ctx_rect' (fun a => forall r, a = Rule r -> all_described hand_accessors r -> kinds r) (fun r => all_described hand_accessors r -> kinds r)).
  - done.
  - done.
  - intros r IH r' [= <-]. exact IH.
  - intros n cs i IH Hall. pose proof (all_here _ _ Hall) as Hd. pose proof (all_below _ _ Hall) as Hb. cbn [children] in Hb.
    assert (forall c, Rule c ∈ cs -> kinds c) as K.
    { intros c Hc. rewrite Forall_forall in IH. exact (IH _ Hc c eq_refl (Hb c Hc)). }
    clear IH Hb. set (r := RuleCtx n cs i) in *. assert (children r = cs) as Ecs by done. assert (rule_index r = i) as Ei by done.
    unfold kinds. rewrite Ei. repeat split; intros Hi.
    + destruct Hi as [Hi|Hi]; unfold described in Hd; rewrite Ei, Hi in Hd; cbn in Hd; destruct Hd as (a & c & b & s & Ha & Hc & Hbb & Hs & E).
      * apply terminal_some in Ha, Hc, Hs. apply context_some in Hbb.
        destruct (K b) as (_ & Kb & _); [rewrite E; set_solver|]. destruct (Kb Hbb) as (alts & Halts).
        exists (ParserRule (text a) alts). subst r. rewrite E, Hi. constructor; [by exists a|by exists c|done|by exists s].
      * apply terminal_some in Ha, Hc, Hs. apply context_some in Hbb.
        destruct (K b) as (_ & _ & _ & _ & _ & _ & Kb); [rewrite E; set_solver|]. destruct (Kb Hbb) as (x & e & He & Eb).
        exists (LexerRule (text a) x). subst r. rewrite E, Hi, Eb. constructor; [by exists a|by exists c|done|by exists s].
    + unfold described in Hd. rewrite Ei, Hi in Hd. cbn [BLOCK of_block_alternatives of_block_ors hand_accessors] in Hd. rewrite Ecs in Hd.
      assert (forall c, c ∈ alternative_list r -> exists a, alternative_tree a c) as Ha.
      { intros c Hc. pose proof Hc as Hx. apply contexts_in in Hx. unfold alternative_list in Hc. rewrite get_rule_contexts_omap in Hc.
        apply elem_of_list_omap in Hc as (d & Hd' & Hdc). destruct d as [|d|]; [done| |done]. cbn in Hdc. destruct (_ =? _); [|done].
        injection Hdc as ->. destruct (K c Hd') as (_ & _ & Kc & _). by apply Kc. }
      assert (forall t, t ∈ or_list r -> any_tok OR (Terminal t)) as Ho.
      { intros t Ht. apply terminals_in in Ht. by exists t. }
      assert (exists alts, alternatives_trees alts cs) as (alts & Halts).
      { clear - Hd Ha Ho. revert Hd Ha Ho. generalize (alternative_list r) (or_list r). intros l os Hd. 
        remember (map Rule l) as xs. remember (map Terminal os) as ys. revert l os Heqxs Heqys.
        induction Hd as [x|x o xs ys zs Hd IH]; intros [|a l] [|o' os]; try done; intros Hx Hy Ha Ho.
        - cbn in Hx. injection Hx as -> Hl. destruct l; [|done]. destruct (Ha a) as (alt & Halt); [left|]. exists [alt]. by constructor.
        - injection Hx as -> ->. injection Hy as -> ->. destruct (Ha a) as (alt & Halt); [left|].
          destruct (IH l os eq_refl eq_refl) as (alts & Halts); [intros c Hc; apply Ha; by right|intros t Ht; apply Ho; by right|].
          exists (alt :: alts). constructor; [done| |done]. apply Ho. left. }
      exists alts. subst r. rewrite Hi. by constructor.
    + unfold described in Hd. rewrite Ei, Hi in Hd. cbn [ALTERNATIVE of_alternative_epsilon of_alternative_elements hand_accessors] in Hd. rewrite Ecs in Hd.
      destruct Hd as [(e & He & _ & E)|[_ E]].
      * apply context_some in He. destruct (K e) as (_ & _ & _ & Ke & _); [rewrite E; set_solver|].
        destruct (Ke He) as (t & Ht & Et). exists Epsilon. subst r. rewrite E, Hi, Et. by constructor.
      * assert (forall c, c ∈ element_list r -> exists e, element_tree e c) as Hel.
        { intros c Hc. pose proof Hc as Hx. apply contexts_in in Hx. destruct (K c) as (_ & _ & _ & _ & Kc & _); [|by apply Kc].
          rewrite E. apply elem_of_list_fmap. eauto. }
        assert (exists es, elements_trees es cs) as (es & Hes).
        { rewrite E. clear - Hel. induction (element_list r) as [|c l IH]; [exists []; constructor|].
          destruct (Hel c) as (e & He); [left|]. destruct IH as (es & Hes); [intros d Hd; apply Hel; by right|].
          exists (e :: es). by constructor. }
        exists (Sequence es). subst r. rewrite Hi. by constructor.
    + unfold described in Hd. rewrite Ei, Hi in Hd. cbn in Hd. destruct Hd as (t & Ht & E). apply terminal_some in Ht.
      exists (Terminal t). split; [by exists t|]. subst r. cbn. by rewrite E, Hi.
    + unfold described in Hd. rewrite Ei, Hi in Hd. cbn [ELEMENT of_element_suffix hand_accessors] in Hd. destruct Hd as (hd & Ho & E). rewrite Ecs in E.
      assert (exists s, suffix_tree s match element_ebnf_suffix r with Some s => [Rule s] | None => [] end) as (s & Hs).
      { destruct (element_ebnf_suffix r) as [c|] eqn:Ec; [|exists None; constructor]. apply context_some in Ec.
        destruct (K c) as (_ & _ & _ & _ & _ & Kc & _); [rewrite E; set_solver|]. destruct (Kc Ec) as (s & Hs). by exists (Some s). }
      assert (exists a, atom_trees a hd) as (a & Ha).
      { destruct Ho as [t Ht _ _ _ _ _|t _ Ht _ _ _ _|t _ _ Ht _ _ _|l b p _ _ _ Hl Hbb Hp]; cbn in *.
        - apply terminal_some in Ht. exists (TokenRef (text t)). constructor. by exists t.
        - apply terminal_some in Ht. exists (StringLiteral (text t)). constructor. by exists t.
        - apply terminal_some in Ht. exists (RuleRef (text t)). constructor. by exists t.
        - apply terminal_some in Hl, Hp. apply context_some in Hbb.
          destruct (K b) as (_ & Kb & _); [rewrite E; set_solver|]. destruct (Kb Hbb) as (alts & Halts).
          exists (Group alts). constructor; [by exists l|by exists p|done]. }
      exists (Element a s). subst r. rewrite Hi. rewrite E at 1. by constructor.
    + by apply suffix_back.
    + unfold described in Hd. rewrite Ei, Hi in Hd. cbn in Hd. destruct Hd as (t & Ht & E). apply terminal_some in Ht.
      exists (text t), (Terminal t). split; [by exists t|]. subst r. cbn. by rewrite E, Hi.
Qed.

Lemma grammar_back r : rule_index r = RULE_LIST -> all_described hand_accessors r -> exists G, grammar_tree G r.
Proof.
  intros Hi Hall. pose proof (all_here _ _ Hall) as Hd. pose proof (all_below _ _ Hall) as Hb.
  unfold described in Hd. rewrite Hi in Hd. cbn [RULE_LIST of_list_parser_rules of_list_lexer_rules hand_accessors] in Hd.
  assert (forall c, Rule c ∈ children r -> rule_index c = PARSER_RULE \/ rule_index c = LEXER_RULE -> exists g, rule_tree g c) as K.
  { intros c Hc. apply (kinds_back c (Hb c Hc)). }
  assert (forall c, c ∈ parser_rule_list r -> rule_index c = PARSER_RULE) as Hp by (intros c; apply contexts_in).
  assert (forall c, c ∈ lexer_rule_list r -> rule_index c = LEXER_RULE) as Hl by (intros c; apply contexts_in).
  assert (exists G cs, children r = map Rule cs /\ Forall2 rule_tree G cs) as (G & cs & E & HG).
  { clear - Hd K Hp Hl. revert Hd Hp Hl K. generalize (parser_rule_list r) (lexer_rule_list r) (children r). intros ps ls zs Hd.
    remember (map Rule ps) as xs. remember (map Rule ls) as ys. revert ps ls Heqxs Heqys.
    induction Hd as [|x xs ys zs Hd IH|y xs ys zs Hd IH]; intros ps ls Hx Hy Hp Hl K.
    - exists [], []. by split.
    - destruct ps as [|p ps]; [done|]. injection Hx as -> ->.
      destruct (IH ps ls eq_refl Hy) as (G & cs & -> & HG); [intros c Hc; apply Hp; by right|done|intros c Hc; apply K; by right|].
      destruct (K p) as (g & Hg); [left|left; apply Hp; left|]. exists (g :: G), (p :: cs). split; [done|by constructor].
    - destruct ls as [|p ls]; [done|]. injection Hy as -> ->.
      destruct (IH ps ls Hx eq_refl) as (G & cs & -> & HG); [done|intros c Hc; apply Hl; by right|intros c Hc; apply K; by right|].
      destruct (K p) as (g & Hg); [left|right; apply Hl; left|]. exists (g :: G), (p :: cs). split; [done|by constructor]. }
  exists G, (rule_name r), cs. split; [|done]. by apply ctx_eta.
Qed.

Lemma c89_hand r : (exists G, grammar_tree G r) <-> rule_index r = RULE_LIST /\ forall x, node_of x r -> described hand_accessors x.
Proof. split; [intros (G & HG); by apply (grammar_described G)|intros []; by apply grammar_back]. Qed.

(** *** The generated accessors, through the renumbering *)
Lemma retype_token_inj t u : retype hand_type t = retype hand_type u -> t = u.
Proof. destruct t, u. unfold retype. cbn. intros [= H -> -> -> -> -> -> -> ->]. by apply hand_type_inj in H as ->. Qed.
Lemma retype_ast_inj a : forall b, retype_ast hand_type a = retype_ast hand_type b -> a = b.
Proof.
  revert a. apply (ast_rect' (fun a => forall b, retype_ast hand_type a = retype_ast hand_type b -> a = b)
    (fun r => forall r', retype_rule hand_type r = retype_rule hand_type r' -> r = r')).
  - intros t [u|u|u] H; try discriminate H. f_equal. apply retype_token_inj. exact (f_equal (fun a => match a with Terminal x => x | _ => t end) H).
  - intros t [u|u|u] H; try discriminate H. f_equal. apply retype_token_inj. exact (f_equal (fun a => match a with Error x => x | _ => t end) H).
  - intros r IH [u|u|u] H; try discriminate H. f_equal. apply IH. by injection H.
  - intros n cs i IH [n' cs' i'] H. cbn in H. injection H. intros -> H' ->. f_equal. clear H. revert cs' H'.
    induction IH as [|c cs Hc _ IH]; intros [|c' cs'] H'; try discriminate H'; [done|]. cbn in H'. injection H'. intros. f_equal; auto.
Qed.
Lemma retype_rule_inj r r' : retype_rule hand_type r = retype_rule hand_type r' -> r = r'.
Proof. intros H. assert (Rule r = Rule r') as [= ->]; [|done]. apply retype_ast_inj. cbn. by f_equal. Qed.

Section mapped.
  Context {A B} (h : A -> B) (Hh : forall a b, h a = h b -> a = b).
  Lemma map_inj l l' : map h l = map h l' -> l = l'.
  Proof. revert l'. induction l as [|x l IH]; intros [|y l'] H; try discriminate H; [done|]. injection H. intros. f_equal; auto. Qed.
  Lemma merged_map xs ys zs : merged (map h xs) (map h ys) (map h zs) <-> merged xs ys zs.
  Proof.
    split.
    - remember (map h xs) as xs'. remember (map h ys) as ys'. remember (map h zs) as zs'. intros H. revert xs ys zs Heqxs' Heqys' Heqzs'.
      induction H as [|x xs' ys' zs' H IH|y xs' ys' zs' H IH]; intros xs ys zs Hx Hy Hz.
      + destruct xs, ys, zs; try done. constructor.
      + destruct xs as [|a xs], zs as [|c zs]; try done. injection Hx as -> ->. injection Hz as Hz ->. apply Hh in Hz as ->. constructor. by apply IH.
      + destruct ys as [|a ys], zs as [|c zs]; try done. injection Hy as -> ->. injection Hz as Hz ->. apply Hh in Hz as ->. constructor. by apply IH.
    - induction 1; cbn; by constructor.
  Qed.
  Lemma separated_map xs ys zs : separated (map h xs) (map h ys) (map h zs) <-> separated xs ys zs.
  Proof.
    split.
    - remember (map h xs) as xs'. remember (map h ys) as ys'. remember (map h zs) as zs'. intros H. revert xs ys zs Heqxs' Heqys' Heqzs'.
      induction H as [x|x o xs' ys' zs' H IH]; intros xs ys zs Hx Hy Hz.
      + destruct xs as [|a [|]], ys, zs as [|c [|]]; try done. injection Hx as ->. injection Hz as Hz. apply Hh in Hz as ->. constructor.
      + destruct xs as [|a xs], ys as [|b ys], zs as [|c [|d zs]]; try done. injection Hx as -> ->. injection Hy as -> ->. injection Hz as Hz Hz' ->.
        apply Hh in Hz as ->. apply Hh in Hz' as ->. constructor. by apply IH.
    - induction 1; cbn; by constructor.
  Qed.
End mapped.

Lemma map_rule_retype l : map Rule (map (retype_rule hand_type) l) = map (retype_ast hand_type) (map Rule l).
Proof. rewrite !map_map. done. Qed.
Lemma map_terminal_retype l : map Terminal (map (retype hand_type) l) = map (retype_ast hand_type) (map Terminal l).
Proof. rewrite !map_map. done. Qed.
Lemma option_map_some {A B} (h : A -> B) o y : option_map h o = Some y -> exists x, o = Some x /\ y = h x.
Proof. destruct o as [x|]; [|done]. intros [= <-]. eauto. Qed.
Lemma option_map_none {A B} (h : A -> B) o : option_map h o = None -> o = None.
Proof. by destruct o. Qed.

Ltac back := repeat match goal with
  | H : option_map _ _ = Some _ |- _ => apply option_map_some in H as (? & ? & ->)
  | H : option_map _ _ = None |- _ => apply option_map_none in H
  end.
Ltac strip := apply (map_inj _ retype_ast_inj); cbn [map retype_ast]; try rewrite map_rule_retype; try rewrite map_terminal_retype.

Lemma operand_retype x hd : operand v1_accessors x hd -> operand hand_accessors (retype_rule hand_type x) (map (retype_ast hand_type) hd).
Proof.
  pose proof (c45_accessors x) as (_&_&_&_&_&_&_&_&_&_&_&_&_&_&_&H1&H2&H3&H4&H5&H6&_).
  destruct 1; [eapply operand_token|eapply operand_literal|eapply operand_rule|eapply operand_group]; cbn in *;
    first [rewrite H1|rewrite H2|rewrite H3|rewrite H4|rewrite H5|rewrite H6];
    match goal with E : ?o = _ |- option_map _ ?o = _ => rewrite E; reflexivity end.
Qed.
Lemma operand_retype_back x hd : operand hand_accessors (retype_rule hand_type x) hd ->
  exists hd', hd = map (retype_ast hand_type) hd' /\ operand v1_accessors x hd'.
Proof.
  pose proof (c45_accessors x) as (_&_&_&_&_&_&_&_&_&_&_&_&_&_&_&H1&H2&H3&H4&H5&H6&_).
  destruct 1 as [t E1 E2 E3 E4 E5 E6|t E1 E2 E3 E4 E5 E6|t E1 E2 E3 E4 E5 E6|l b p E1 E2 E3 E4 E5 E6]; cbn in E1, E2, E3, E4, E5, E6;
    rewrite H1 in E1; rewrite H2 in E2; rewrite H3 in E3; rewrite H4 in E4; rewrite H6 in E5; rewrite H5 in E6; back.
  - exists [Terminal x0]. split; [done|]. by eapply operand_token.
  - exists [Terminal x0]. split; [done|]. by eapply operand_literal.
  - exists [Terminal x0]. split; [done|]. by eapply operand_rule.
  - eexists [Terminal _; Rule _; Terminal _]. split; [reflexivity|]. by eapply operand_group.
Qed.

Lemma described_retype x : described hand_accessors (retype_rule hand_type x) <-> described v1_accessors x.
Proof.
  pose proof (c45_accessors x) as (H1&H2&H3&H4&H5&H6&H7&H8&H9&H10&H11&H12&H13&H14&H15&_&_&_&_&_&_&H22&H23&H24&H25&H26).
  unfold described. rewrite index_retype, children_retype.
  destruct (rule_index x) as [|[|[|[|[|[|[|[|[|k]]]]]]]]]; [..|done]; cbn [of_list_parser_rules of_list_lexer_rules of_parser_rule_name of_parser_rule_colon
    of_parser_rule_block of_parser_rule_semi of_lexer_rule_name of_lexer_rule_colon of_lexer_rule_regular of_lexer_rule_semi
    of_block_alternatives of_block_ors of_alternative_elements of_alternative_epsilon of_epsilon_token of_element_suffix
    of_suffix_star of_suffix_plus of_suffix_questions of_regular_literal hand_accessors v1_accessors].
  - rewrite H1, H2, !map_rule_retype. apply merged_map, retype_ast_inj.
  - rewrite H3, H4, H5, H6. split.
    + intros (n & c & b & s & E1 & E2 & E3 & E4 & E). back. do 4 eexists. repeat (split; [eassumption|]). strip. exact E.
    + intros (n & c & b & s & -> & -> & -> & -> & ->). do 4 eexists. repeat split; reflexivity.
  - rewrite H11, H12, map_rule_retype, map_terminal_retype. apply separated_map, retype_ast_inj.
  - rewrite H13, H14. split.
    + intros [(e & E1 & E2 & E)|(E1 & E)]; back; [left|right].
      * eexists. split; [eassumption|]. split; [by destruct (v1_element_list x)|]. strip. exact E.
      * split; [done|]. strip. by rewrite <- map_rule_retype.
    + intros [(e & -> & -> & ->)|(-> & ->)]; [left|right].
      * eexists. repeat split; reflexivity.
      * split; [done|]. by rewrite map_rule_retype.
  - rewrite H15. split.
    + intros (t & E1 & E). back. eexists. split; [eassumption|]. strip. exact E.
    + intros (t & -> & ->). eexists. split; reflexivity.
  - rewrite H22. split.
    + intros (hd & Ho & E). apply operand_retype_back in Ho as (hd' & -> & Ho). exists hd'. split; [done|]. strip. rewrite E, map_app.
      by destruct (v1_element_ebnf_suffix x).
    + intros (hd & Ho & ->). exists (map (retype_ast hand_type) hd). split; [by apply operand_retype|]. rewrite map_app.
      by destruct (v1_element_ebnf_suffix x).
  - rewrite H23, H24, H25, map_length. split.
    + intros [(t & E1 & E2 & Hl & E)|[(t & E1 & E2 & Hl & E)|(E1 & E2 & Hl & E)]]; back; [left|right; left|right; right].
      * eexists. repeat (split; [eassumption|]). strip. rewrite E. by rewrite map_terminal_retype.
      * eexists. repeat (split; [eassumption|]). strip. rewrite E. by rewrite map_terminal_retype.
      * repeat (split; [eassumption|]). strip. rewrite E. by rewrite map_terminal_retype.
    + intros [(t & -> & -> & Hl & ->)|[(t & -> & -> & Hl & ->)|(-> & -> & Hl & ->)]]; [left|right; left|right; right].
      * eexists. repeat (split; [reflexivity|]). split; [done|]. cbn [map retype_ast]. by rewrite map_terminal_retype.
      * eexists. repeat (split; [reflexivity|]). split; [done|]. cbn [map retype_ast]. by rewrite map_terminal_retype.
      * repeat (split; [reflexivity|]). split; [done|]. by rewrite map_terminal_retype.
  - rewrite H7, H8, H9, H10. split.
    + intros (n & c & b & s & E1 & E2 & E3 & E4 & E). back. do 4 eexists. repeat (split; [eassumption|]). strip. exact E.
    + intros (n & c & b & s & -> & -> & -> & -> & ->). do 4 eexists. repeat split; reflexivity.
  - rewrite H26. split.
    + intros (t & E1 & E). back. eexists. split; [eassumption|]. strip. exact E.
    + intros (t & -> & ->). eexists. split; reflexivity.
Qed.

Lemma node_retype x r : node_of x r -> node_of (retype_rule hand_type x) (retype_rule hand_type r).
Proof.
  induction 1 as [r|x c r Hc _ IH]; [constructor|]. apply (node_child _ (retype_rule hand_type c)); [|done].
  rewrite children_retype. change (Rule (retype_rule hand_type c)) with (retype_ast hand_type (Rule c)). apply elem_of_list_fmap. eauto.
Qed.
Lemma node_retype_back y r : node_of y (retype_rule hand_type r) -> exists x, y = retype_rule hand_type x /\ node_of x r.
Proof.
  remember (retype_rule hand_type r) as r' eqn:E. intros H. revert r E. induction H as [r'|y c r' Hc _ IH]; intros r ->; [exists r; split; [done|constructor]|].
  rewrite children_retype in Hc. apply elem_of_list_fmap in Hc as ([|c'|] & E & Hc); try discriminate E. injection E as ->.
  destruct (IH c' eq_refl) as (x & -> & Hx). exists x. split; [done|]. by econstructor.
Qed.

Lemma c89_v1 r : (exists G, grammar_tree G (retype_rule hand_type r)) <-> rule_index r = RULE_LIST /\ forall x, node_of x r -> described v1_accessors x.
Proof.
  rewrite c89_hand, index_retype. split; intros [Hi H]; (split; [done|]).
  - intros x Hx. by apply described_retype, H, node_retype.
  - intros y Hy. apply node_retype_back in Hy as (x & -> & Hx). by apply described_retype, H.
Qed.

Lemma c89_main nd g d order fuel s r w rest :
  digits_ok nd -> load_ast syntaxis2_json = Ret (g, d) -> iteration_order g order ->
  main_run nd order fuel syntaxis2_json s = Ret (r, w, rest, []) ->
  rule_index r = RULE_LIST /\ forall x, node_of x r -> described v1_accessors x.
Proof.
  intros Hnd Hload Ho Hrun. destruct (c44_sound _ _ _ _ _ _ _ _ _ Hnd Hload Ho Hrun) as (_ & _ & G & ts & _ & _ & HG).
  apply c89_v1. by exists G.
Qed.

(** aa: (BB cc)+ | epsilon; CC: /x/; *)
Definition ex_shape_token (ty : nat) (x : str) : ast := Terminal (token_new ty [] x).
Definition ex_shape_element (cs : list ast) : ast := Rule (RuleCtx (lit "element") cs ELEMENT).
Definition ex_shape_tree : rule_ctx :=
  RuleCtx (lit "rule_list") (map Rule [
    RuleCtx (lit "parser_rule") [ex_shape_token RULE_REF (lit "aa"); ex_shape_token COLON (lit ":");
      Rule (RuleCtx (lit "block") [
        Rule (RuleCtx (lit "alternative") [ex_shape_element [ex_shape_token LPAREN (lit "(");
          Rule (RuleCtx (lit "block") [Rule (RuleCtx (lit "alternative") [ex_shape_element [ex_shape_token TOKEN_REF (lit "BB")];
             ex_shape_element [ex_shape_token RULE_REF (lit "cc")]] ALTERNATIVE)] BLOCK);
          ex_shape_token RPAREN (lit ")"); Rule (RuleCtx (lit "ebnf_suffix") [ex_shape_token PLUS (lit "+")] EBNF_SUFFIX)]] ALTERNATIVE);
        ex_shape_token OR (lit "|");
        Rule (RuleCtx (lit "alternative") [Rule (RuleCtx (lit "epsilon") [ex_shape_token EPSILON (lit "epsilon")] EPSILON_RULE)] ALTERNATIVE)] BLOCK);
      ex_shape_token SEMI (lit ";")] PARSER_RULE;
    RuleCtx (lit "lexer_rule") [ex_shape_token TOKEN_REF (lit "CC"); ex_shape_token COLON (lit ":");
      Rule (RuleCtx (lit "regular") [ex_shape_token REGULAR_LITERAL (lit "/x/")] REGULAR); ex_shape_token SEMI (lit ";")] LEXER_RULE]) RULE_LIST.
Definition ex_shape_grammar : list rule :=
  [ParserRule (lit "aa") [Sequence [Element (Group [Sequence [Element (TokenRef (lit "BB")) None; Element (RuleRef (lit "cc")) None]]) (Some (Plus, false))]; Epsilon];
   LexerRule (lit "CC") (lit "/x/")].
Lemma ex_shape : grammar_tree ex_shape_grammar ex_shape_tree /\
  ~ described hand_accessors (RuleCtx (lit "parser_rule") [Terminal (token_new RULE_REF (lit "RULE_REF") (lit "aa"))] PARSER_RULE).
Proof.
  split.
  - exists (lit "rule_list"). eexists. split; [reflexivity|].
    assert (forall ty x, tok ty x (ex_shape_token ty x)) as Ht by (intros; eexists; repeat split).
    assert (forall ty x, any_tok ty (ex_shape_token ty x)) as Ha by (intros; eexists; repeat split).
    constructor; [|constructor; [|constructor]].
    + constructor; auto. constructor. apply alternatives_more; auto; [|constructor; constructor; auto].
      constructor. constructor; [|constructor].
      match goal with |- element_tree _ (RuleCtx _ [?a; ?b; ?c; ?d] _) => change [a; b; c; d] with ([a; b; c] ++ [d]) end.
      constructor; [|constructor; apply (Ha PLUS)]. constructor; auto. constructor. constructor. constructor.
      constructor; [|constructor; [|constructor]].
      * apply (element_tree_intro _ None _ [_] []); [by constructor|constructor].
      * apply (element_tree_intro _ None _ [_] []); [by constructor|constructor].
    + constructor; auto.
  - cbn. intros (n & c & b & s & _ & H & _). discriminate H.
Qed.
