(** GroupsProofs.v -- groups of a grammar that has a tree are not empty; every symbol of a loaded grammar in which all rules match something derives something. *)
From Verif Require Export RewriteProofs SpellProofs ExampleTree SpecEarliest.

Fixpoint element_tree_wf e : forall c, element_tree e c -> wf_element e = true
with atom_tree_wf a : forall cs, atom_trees a cs -> wf_atom a = true
with alternative_tree_wf a : forall c, alternative_tree a c -> wf_alternative a = true.
Proof.
  - intros c H. destruct e as [a s]. inversion H as [? ? ? cs ss Ha]; subst. exact (atom_tree_wf a cs Ha).
  - intros cs H. destruct a as [| | |alts]; [done..|]. inversion H as [| | |? l b r _ _ Hb]; subst. inversion Hb as [? n cs' Hal]; subst. clear H Hb.
    cbn [wf_atom]. apply andb_true_iff. split; [by destruct Hal|].
    revert cs' Hal. induction alts as [|a alts IH]; intros cs' Hal; [done|]. cbn [forallb]. apply andb_true_iff.
    inversion Hal as [? c Ha|? c o ? cs Ha _ Hal']; subst; (split; [exact (alternative_tree_wf a c Ha)|]); [done|exact (IH _ Hal')].
  - intros c H. destruct a as [|es]; [done|]. inversion H as [|n ? cs He]; subst. clear H. cbn [wf_alternative].
    revert cs He. induction es as [|e es IH]; intros cs He; [done|]. inversion He as [|? c ? cs' Hc Hes]; subst. cbn [forallb]. apply andb_true_iff.
    split; [exact (element_tree_wf e c Hc)|exact (IH _ Hes)].
Qed.
Lemma alternatives_trees_wf alts cs : alternatives_trees alts cs -> alts <> [] /\ forallb wf_alternative alts = true.
Proof.
  intros H. assert (forall l r, any_tok LPAREN l -> any_tok RPAREN r -> wf_atom (Group alts) = true) as K.
  { intros l r Hl Hr. apply (atom_tree_wf _ [l; Rule (RuleCtx [] cs BLOCK); r]). constructor; [done..|]. by constructor. }
  specialize (K _ _ (any_tk LPAREN []) (any_tk RPAREN [])). cbn [wf_atom] in K. apply andb_true_iff in K as [K1 K2]. split; [|done]. by destruct alts.
Qed.
Lemma within_wf x :
  (forall e, within_element x e -> wf_element e = true -> wf_element x = true) /\
  (forall a, within_alternative x a -> wf_alternative a = true -> wf_element x = true).
Proof.
  apply (within_mut x (fun e => wf_element e = true -> wf_element x = true) (fun a => wf_alternative a = true -> wf_element x = true)).
  - done.
  - intros alts alt e s Ha _ IH -> Hw. cbn [wf_element wf_atom] in Hw. apply andb_true_iff in Hw as [_ Hw]. rewrite forallb_forall in Hw.
    apply IH, Hw. by apply elem_of_list_In.
  - intros es e He _ IH Hw. cbn [wf_alternative] in Hw. rewrite forallb_forall in Hw. apply IH, Hw. by apply elem_of_list_In.
Qed.
Lemma rules_wf G r name alts : grammar_tree G r -> ParserRule name alts ∈ G -> alts <> [] /\ forallb wf_alternative alts = true.
Proof.
  intros (m & cs & _ & HF) HG. apply elem_of_list_lookup in HG as [i Hi]. destruct (Forall2_lookup_l _ _ _ _ _ HF Hi) as (c & _ & Hc).
  inversion Hc as [? ? n a c' b s _ _ Hb _|]; subst. inversion Hb as [? ? cs' Hal]; subst. by eapply alternatives_trees_wf.
Qed.
Lemma occurs_wf G r e : grammar_tree G r -> occurs e G -> wf_element e = true.
Proof.
  intros Ht (name & alts & alt & HG & Ha & Hw). destruct (rules_wf _ _ _ _ Ht HG) as [_ H]. rewrite forallb_forall in H.
  apply (proj2 (within_wf e) alt Hw). apply H. by apply elem_of_list_In.
Qed.

Section symbols.
  Context (G : list rule) (v : vocabulary) (f : element -> item) (P : gset production).
  Context (Hf : stands_for G v f) (HP : forall p, rewritten G v f (fun _ a => a) p -> p ∈ P).
  Context (Hrules : forall name i, get_nonterminal_id_by_name v name = Some i -> exists w, derives P [NT i] (map T w)).
  Context (Hlit : forall l s, ~ occurs (Element (StringLiteral l) s) G).
  Notation derivable α := (exists w, derives P α (map T w)).

  Lemma items_derivable its : (forall it, it ∈ its -> derivable [it]) -> derivable its.
  Proof using.
    induction its as [|it its IH]; intros H; [exists []; apply derives_refl|].
    destruct (H it) as [w1 H1]; [apply elem_of_list_here|]. destruct IH as [w2 H2]; [intros x Hx; by apply H, elem_of_list_further|].
    exists (w1 ++ w2). rewrite map_app. exact (derives_app P [it] _ its _ H1 H2).
  Qed.
  Fixpoint element_derivable e : wf_element e = true -> occurs e G -> derivable [f e]
  with atom_derivable a : forall s, wf_atom a = true -> occurs (Element a s) G -> derivable [f (Element a None)]
  with alternative_derivable alt : wf_alternative alt = true -> alternative_of G alt -> derivable (items f alt).
  Proof using Hf HP Hrules Hlit.
    - intros Hw Ho. destruct e as [a [[k b]|]]; [|exact (atom_derivable a None Hw Ho)].
      destruct (sf_new _ _ _ Hf (Element a (Some (k, b)))) as (n & En & _); [left; eauto 10|]. rewrite En. destruct k.
      + exists []. apply (derives_by P n []); [|apply derives_refl]. apply HP. eapply rewritten_star; [done|done|set_solver].
      + destruct (atom_derivable a _ Hw Ho) as [w Hd]. exists w. apply (derives_by P n [f (Element a None)]); [|done].
        apply HP. eapply rewritten_plus; [done|done|set_solver].
      + exists []. apply (derives_by P n []); [|apply derives_refl]. apply HP. eapply rewritten_question; [done|done|set_solver].
    - intros s Hw Ho. destruct a as [n|l|n|alts].
      + destruct (sf_token _ _ _ Hf n s Ho) as (t & _ & ->). exists [t]. apply derives_refl.
      + by apply Hlit in Ho.
      + destruct (sf_rule _ _ _ Hf n s Ho) as (i & Hi & ->). by apply (Hrules n).
      + destruct (sf_new _ _ _ Hf (Element (Group alts) None)) as (n & En & _); [right; eauto|]. rewrite En.
        cbn [wf_atom] in Hw. apply andb_true_iff in Hw as [Hne Hw]. destruct alts as [|alt alts]; [done|]. cbn [forallb] in Hw. apply andb_true_iff in Hw as [Hw _].
        destruct (alternative_derivable alt Hw) as [w Hd]; [right; exists (alt :: alts), s; split; [done|apply elem_of_list_here]|].
        exists w. apply (derives_by P n (items f alt)); [|done]. apply HP. eapply rewritten_group; [exact Ho|apply elem_of_list_here|done].
    - intros Hw Ha. destruct alt as [|es]; [exists []; apply derives_refl|]. cbn [items].
      assert (forall e, e ∈ es -> occurs e G) as Ho by (intros e He; by eapply occurs_alternative). clear Ha. cbn [wf_alternative] in Hw.
      induction es as [|e es IH]; [exists []; apply derives_refl|]. cbn [forallb] in Hw. apply andb_true_iff in Hw as [Hw1 Hw2].
      destruct (element_derivable e Hw1) as [w1 H1]; [apply Ho, elem_of_list_here|].
      destruct (IH Hw2) as [w2 H2]; [intros x Hx; by apply Ho, elem_of_list_further|].
      exists (w1 ++ w2). rewrite map_app. exact (derives_app P [f e] _ (map f es) _ H1 H2).
  Qed.
End symbols.

Lemma loaded_derivable G r g data n : grammar_tree G r -> proper G -> load_tree r = Ret (g, data) -> no_collision (g_vocabulary g) G ->
  rules_match G -> n ∈ nonterminals (g_vocabulary g) -> exists w, derives (productions g) [NT n] (map T w).
Proof.
  intros Ht Hp Hload Hnc Hm Hn.
  assert (Hrules : forall name i, get_nonterminal_id_by_name (g_vocabulary g) name = Some i -> exists w, derives (productions g) [NT i] (map T w)).
  { intros name i Hi. destruct (met_all G r g data Ht Hp Hload) as (v1 & R1 & s & Ev & _ & Hinv & _ & _ & Hnames & _).
    assert (name ∈ parser_rule_names G) as Hname.
    { apply Hnames. rewrite <- (pi_n1 _ _ _ Hinv), <- Ev. by eexists. }
    unfold parser_rule_names in Hname. apply elem_of_list_omap in Hname as ([n' alts|] & HG & E); [|done]. injection E as ->.
    destruct (Hm _ _ HG) as [w Hw].
    destruct (translation G r g data Ht Hp Hload Hnc) as (v0 & R & N & Hv0 & Et & En & Ei & HR & Hsound & Hcomp).
    unfold get_nonterminal_id_by_name in Hi. rewrite En in Hi.
    destruct (proj1 (proj2 (matches_derives v0 R G (productions g) N HR Hv0 Hsound Hcomp)) _ _ Hw (NT i)) as (ids & _ & Hd); [by constructor|]. by exists ids. }
  destruct (c83 G r g data Ht Hp Hload Hnc) as (f & Hf & _ & HP).
  destruct (proj1 (c42 G r Ht Hp)) as (_ & _ & Hlit); [by eexists|].
  assert (HP' : forall p, rewritten G (g_vocabulary g) f (fun _ a => a) p -> p ∈ productions g) by (intros p; apply HP).
  destruct (sf_all _ _ _ Hf n) as [(name & _ & Hi)|(e & He & En)].
  - unfold is_nonterminal_id. by apply bool_decide_eq_true.
  - by apply (Hrules name).
  - rewrite <- En. destruct He as [(a & k & b & -> & Ho)|(alts & s & -> & Ho)].
    + exact (element_derivable G _ f _ Hf HP' Hrules Hlit _ (occurs_wf _ _ _ Ht Ho) Ho).
    + exact (atom_derivable G _ f _ Hf HP' Hrules Hlit (Group alts) s (occurs_wf _ _ _ Ht Ho) Ho).
Qed.
