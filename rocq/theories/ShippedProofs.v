(** ShippedProofs.v -- the grammar of syntaxis2.json: its productions, and what its nonterminals parse. *)
From Verif Require Export Main SpecShipped EbnfRefuted LexerInstMain GrammarMain.

Definition shipped_tree : rule_ctx := match from_value syntaxis2_json with Ret (Some r) => r | _ => RuleCtx [] [] 0 end.
Definition shipped : grammar := grammar_of shipped_tree.

Definition shipped_productions : list production :=
  [Production 0 [NT 10]; Production 10 [NT 9; NT 10]; Production 10 [];
   Production 9 [NT 1]; Production 9 [NT 7];
   Production 1 [T 2; T 4; NT 2; T 5];
   Production 2 [NT 3; NT 12]; Production 12 [NT 11; NT 12]; Production 12 []; Production 11 [T 6; NT 3];
   Production 3 [NT 5; NT 13]; Production 3 [NT 4]; Production 13 [NT 5; NT 13]; Production 13 [];
   Production 4 [T 7];
   Production 5 [NT 14; NT 15]; Production 14 [T 3]; Production 14 [T 13]; Production 14 [T 2]; Production 14 [T 11; NT 2; T 12];
   Production 15 [NT 6]; Production 15 [];
   Production 6 [NT 16; NT 17]; Production 16 [T 8]; Production 16 [T 9]; Production 16 [T 10]; Production 17 [T 10]; Production 17 [];
   Production 7 [T 3; T 4; NT 8; T 5]; Production 8 [T 14]].
Definition shipped_names : list str :=
  [lit "rule_list"; lit "parser_rule"; lit "block"; lit "alternative"; lit "epsilon"; lit "element"; lit "ebnf_suffix"; lit "lexer_rule"; lit "regular"].

Definition tt_of (t : token) : nat * str := (token_type t, text t).
Definition R (cs : list ast) : list ast := map (retype_ast hand_type) cs.
Lemma R_app cs1 cs2 : R (cs1 ++ cs2) = R cs1 ++ R cs2.
Proof. apply map_app. Qed.

Lemma any_tok_retype f t ty : f (token_type t) = ty -> any_tok ty (retype_ast f (Terminal t)).
Proof. intros H. eexists. split; [reflexivity|]. exact H. Qed.
Lemma tok_retype f t ty x : f (token_type t) = ty -> text t = x -> tok ty x (retype_ast f (Terminal t)).
Proof. intros H Hx. eexists. split; [reflexivity|]. split; [exact H|exact Hx]. Qed.

Section shipped.
  Context (P : gset production) (v : vocabulary).
  Context (HP : forall p, p ∈ P <-> p ∈ shipped_productions).
  Context (Hv : forall i, get_nonterminal_name_by_id v i = shipped_names !! i).

  Lemma node_named i cs n : shipped_names !! i = Some n -> node v i cs = [Rule (RuleCtx n cs i)].
  Proof. intros H. unfold node. by rewrite Hv, H. Qed.
  Lemma node_unnamed i cs : 9 <= i -> node v i cs = cs.
  Proof. intros H. unfold node. rewrite Hv, lookup_ge_None_2; [done|done]. Qed.

  (** What a nonterminal stands for: tokens [w] with forest [cs] below its node. *)
  Definition M (A : nat) (w : list token) (cs : list ast) : Prop :=
    let ts := map tt_of w in
    match A with
    | 0 | 10 => exists G rs, grammar_tokens G ts /\ R cs = map Rule rs /\ Forall2 rule_tree G rs
    | 9 => exists r c, rule_tokens r ts /\ R cs = [Rule c] /\ rule_tree r c
    | 1 => exists name alts, rule_tokens (ParserRule name alts) ts /\ forall n, rule_tree (ParserRule name alts) (RuleCtx n (R cs) 1)
    | 7 => exists name regex, rule_tokens (LexerRule name regex) ts /\ forall n, rule_tree (LexerRule name regex) (RuleCtx n (R cs) 7)
    | 2 => exists alts, alternatives_tokens alts ts /\ alternatives_trees alts (R cs)
    | 12 => (w = [] /\ cs = []) \/ exists o w' cs' alts, w = o :: w' /\ cs = Terminal o :: cs' /\ token_type o = V1_OR /\
              alternatives_tokens alts (map tt_of w') /\ alternatives_trees alts (R cs')
    | 11 => exists o w' cs' a c, w = o :: w' /\ cs = Terminal o :: cs' /\ token_type o = V1_OR /\
              alternative_tokens a (map tt_of w') /\ R cs' = [Rule c] /\ alternative_tree a c
    | 3 => exists a, alternative_tokens a ts /\ forall n, alternative_tree a (RuleCtx n (R cs) 3)
    | 13 => (w = [] /\ cs = []) \/ exists es, elements_tokens es ts /\ elements_trees es (R cs)
    | 4 => exists e, w = [e] /\ cs = [Terminal e] /\ token_type e = V1_EPSILON
    | 5 => exists e, element_tokens e ts /\ forall n, element_tree e (RuleCtx n (R cs) 5)
    | 14 => exists a, atom_tokens a ts /\ atom_trees a (R cs)
    | 15 => exists s, suffix_tokens s ts /\ suffix_tree s (R cs)
    | 6 => exists s b, suffix_tokens (Some (s, b)) ts /\ forall n, suffix_tree (Some (s, b)) [Rule (RuleCtx n (R cs) 6)]
    | 16 => exists s k, w = [k] /\ cs = [Terminal k] /\ token_type k = v1_suffix_type s
    | 17 => (w = [] /\ cs = []) \/ exists q, w = [q] /\ cs = [Terminal q] /\ token_type q = V1_QUESTION
    | 8 => exists x, w = [x] /\ cs = [Terminal x] /\ token_type x = V1_REGULAR_LITERAL
    | _ => False
    end.
  Fixpoint items (α : list item) (w : list token) (cs : list ast) : Prop :=
    match α with
    | [] => w = [] /\ cs = []
    | T t :: α => exists tok w' cs', w = tok :: w' /\ cs = Terminal tok :: cs' /\ token_type tok = t /\ items α w' cs'
    | NT A :: α => exists w1 w2 cs1 cs2, w = w1 ++ w2 /\ cs = node v A cs1 ++ cs2 /\ M A w1 cs1 /\ items α w2 cs2
    end.

  Lemma suffix_type_hand s : hand_type (v1_suffix_type s) = suffix_type s.
  Proof. by destruct s. Qed.

  Lemma step p w cs : p ∈ shipped_productions -> items (right p) w cs -> M (left p) w cs.
  Proof.
    unfold shipped_productions. rewrite !elem_of_cons.
    intros Hp H.
    repeat (destruct Hp as [->|Hp]); try (by apply elem_of_nil in Hp); cbn [right left items M] in *.
    - destruct H as (w1 & w2 & cs1 & cs2 & -> & -> & H & -> & ->). rewrite node_unnamed by lia. by rewrite !app_nil_r.
    - destruct H as (w1 & w2 & cs1 & cs2 & -> & -> & (r & c & Hr & Hc & Ht) & w3 & w4 & cs3 & cs4 & -> & -> & (G & rs & (tss & HG & Hts) & Hrs & HT) & -> & ->).
      rewrite !node_unnamed, !app_nil_r by lia. exists (r :: G), (c :: rs). split; [|split].
      + exists (map tt_of w1 :: tss). split; [by constructor|]. rewrite map_app, Hts. done.
      + by rewrite R_app, Hc, Hrs.
      + by constructor.
    - destruct H as [-> ->]. exists [], []. split; [|done]. by exists [].
    - destruct H as (w1 & w2 & cs1 & cs2 & -> & -> & (n & alts & Hr & Ht) & -> & ->).
      erewrite node_named by reflexivity. rewrite !app_nil_r. eexists _, _. split; [exact Hr|]. split; [reflexivity|]. apply Ht.
    - destruct H as (w1 & w2 & cs1 & cs2 & -> & -> & (n & alts & Hr & Ht) & -> & ->).
      erewrite node_named by reflexivity. rewrite !app_nil_r. eexists _, _. split; [exact Hr|]. split; [reflexivity|]. apply Ht.
    - destruct H as (a & ? & ? & -> & -> & Ha & c & ? & ? & -> & -> & Hc & w1 & w2 & cs1 & cs2 & -> & -> & (alts & H1 & H2) & s & ? & ? & -> & -> & Hs & -> & ->).
      erewrite node_named by reflexivity. exists (text a), alts. split.
      + cbn [map]. rewrite map_app. unfold tt_of at 1 2. rewrite Ha, Hc. cbn [map]. unfold tt_of at 2. rewrite Hs. by constructor.
      + intros n. cbn [R map]. cbn [app]. constructor; [apply tok_retype; [by rewrite Ha|done]|apply any_tok_retype; by rewrite Hc|by constructor|apply any_tok_retype; by rewrite Hs].
    - destruct H as (w1 & w2 & cs1 & cs2 & -> & -> & (a & H1 & H2) & w3 & w4 & cs3 & cs4 & -> & -> & H3 & -> & ->).
      erewrite node_named by reflexivity. rewrite node_unnamed, !app_nil_r by lia.
      destruct H3 as [[-> ->]|(o & w' & cs' & alts & -> & -> & Ho & H3 & H4)].
      + exists [a]. rewrite !app_nil_r. split; [by constructor|]. constructor. apply H2.
      + exists (a :: alts). rewrite map_app, R_app. split.
        * cbn [map]. unfold tt_of at 2. rewrite Ho. by constructor.
        * cbn [R map]. cbn [app]. constructor; [apply H2|apply any_tok_retype; by rewrite Ho|done].
    - destruct H as (w1 & w2 & cs1 & cs2 & -> & -> & (o & w' & cs' & a & c & -> & -> & Ho & H1 & H2 & H2') & w3 & w4 & cs3 & cs4 & -> & -> & H3 & -> & ->).
      rewrite !node_unnamed, !app_nil_r by lia. right.
      destruct H3 as [[-> ->]|(o' & w'' & cs'' & alts & -> & -> & Ho' & H3 & H4)].
      + exists o, w', cs', [a]. rewrite !app_nil_r. split_and!; [done..| |].
        * by constructor.
        * rewrite H2. by constructor.
      + eexists o, _, _, (a :: alts). split_and!; [reflexivity..|done| |].
        * rewrite map_app. cbn [map]. unfold tt_of at 2. rewrite Ho'. by constructor.
        * rewrite R_app, H2. cbn [R map]. cbn [app]. constructor; [done|apply any_tok_retype; by rewrite Ho'|done].
    - by left.
    - destruct H as (o & ? & ? & -> & -> & Ho & w1 & w2 & cs1 & cs2 & -> & -> & (a & H1 & H2) & -> & ->).
      erewrite node_named by reflexivity. rewrite !app_nil_r. eexists o, _, _, a, _. split_and!; [reflexivity..|done|done|reflexivity|apply H2].
    - destruct H as (w1 & w2 & cs1 & cs2 & -> & -> & (e & H1 & H2) & w3 & w4 & cs3 & cs4 & -> & -> & H3 & -> & ->).
      erewrite node_named by reflexivity. rewrite node_unnamed, !app_nil_r by lia.
      destruct H3 as [[-> ->]|(es & H3 & H4)].
      + exists (Sequence [e]). rewrite !app_nil_r. split; [by do 2 constructor|]. intros n. do 2 constructor; [apply H2|constructor].
      + exists (Sequence (e :: es)). rewrite map_app, R_app. split; [by do 2 constructor|]. intros n. do 2 constructor; [apply H2|done].
    - destruct H as (w1 & w2 & cs1 & cs2 & -> & -> & (e & -> & -> & He) & -> & ->). erewrite node_named by reflexivity.
      exists Epsilon. cbn [map app]. unfold tt_of. rewrite He. split; [constructor|]. intros n. constructor. apply any_tok_retype. by rewrite He.
    - destruct H as (w1 & w2 & cs1 & cs2 & -> & -> & (e & H1 & H2) & w3 & w4 & cs3 & cs4 & -> & -> & H3 & -> & ->).
      erewrite node_named by reflexivity. rewrite node_unnamed, !app_nil_r by lia. right.
      destruct H3 as [[-> ->]|(es & H3 & H4)].
      + exists [e]. rewrite !app_nil_r. split; [by constructor|]. constructor; [apply H2|constructor].
      + exists (e :: es). rewrite map_app, R_app. split; [by constructor|]. constructor; [apply H2|done].
    - by left.
    - destruct H as (e & ? & ? & -> & -> & He & -> & ->). by exists e.
    - destruct H as (w1 & w2 & cs1 & cs2 & -> & -> & (a & H1 & H2) & w3 & w4 & cs3 & cs4 & -> & -> & (s & H3 & H4) & -> & ->).
      rewrite !node_unnamed, !app_nil_r by lia. exists (Element a s). rewrite map_app, R_app. split; [by constructor|]. intros n. by constructor.
    - destruct H as (e & ? & ? & -> & -> & He & -> & ->). exists (TokenRef (text e)). cbn [map R]. unfold tt_of. rewrite He.
      split; [constructor|]. constructor. apply tok_retype; [by rewrite He|done].
    - destruct H as (e & ? & ? & -> & -> & He & -> & ->). exists (StringLiteral (text e)). cbn [map R]. unfold tt_of. rewrite He.
      split; [constructor|]. constructor. apply tok_retype; [by rewrite He|done].
    - destruct H as (e & ? & ? & -> & -> & He & -> & ->). exists (RuleRef (text e)). cbn [map R]. unfold tt_of. rewrite He.
      split; [constructor|]. constructor. apply tok_retype; [by rewrite He|done].
    - destruct H as (a & ? & ? & -> & -> & Ha & w1 & w2 & cs1 & cs2 & -> & -> & (alts & H1 & H2) & s & ? & ? & -> & -> & Hs & -> & ->).
      erewrite node_named by reflexivity. exists (Group alts). split.
      + cbn [map]. rewrite map_app. unfold tt_of at 1. rewrite Ha. cbn [map]. unfold tt_of at 2. rewrite Hs. by constructor.
      + cbn [R map]. cbn [app]. constructor; [apply any_tok_retype; by rewrite Ha|apply any_tok_retype; by rewrite Hs|by constructor].
    - destruct H as (w1 & w2 & cs1 & cs2 & -> & -> & (s & b & H1 & H2) & -> & ->).
      erewrite node_named by reflexivity. rewrite !app_nil_r. exists (Some (s, b)). split; [done|]. apply H2.
    - destruct H as [-> ->]. exists None. split; constructor.
    - destruct H as (w1 & w2 & cs1 & cs2 & -> & -> & (s & k & -> & -> & Hk) & w3 & w4 & cs3 & cs4 & -> & -> & H3 & -> & ->).
      rewrite !node_unnamed, !app_nil_r by lia. exists s.
      destruct H3 as [[-> ->]|(q & -> & -> & Hq)]; [exists false|exists true]; cbn [map app R]; unfold tt_of; rewrite Hk; try rewrite Hq.
      + split; [constructor|]. intros n. constructor. apply any_tok_retype. by rewrite Hk, suffix_type_hand.
      + split; [constructor|]. intros n. constructor; apply any_tok_retype; [by rewrite Hk, suffix_type_hand|by rewrite Hq].
    - destruct H as (e & ? & ? & -> & -> & He & -> & ->). by exists Star, e.
    - destruct H as (e & ? & ? & -> & -> & He & -> & ->). by exists Plus, e.
    - destruct H as (e & ? & ? & -> & -> & He & -> & ->). by exists Question, e.
    - destruct H as (e & ? & ? & -> & -> & He & -> & ->). right. by exists e.
    - by left.
    - destruct H as (a & ? & ? & -> & -> & Ha & c & ? & ? & -> & -> & Hc & w1 & w2 & cs1 & cs2 & -> & -> & (x & -> & -> & Hx) & s & ? & ? & -> & -> & Hs & -> & ->).
      erewrite node_named by reflexivity. exists (text a), (text x). cbn [map app R]. split.
      + unfold tt_of. rewrite Ha, Hc, Hx, Hs. constructor.
      + intros n. constructor; [apply tok_retype; [by rewrite Ha|done]|apply any_tok_retype; by rewrite Hc|apply tok_retype; [by rewrite Hx|done]|apply any_tok_retype; by rewrite Hs].
    - destruct H as (e & ? & ? & -> & -> & He & -> & ->). by exists e.
  Qed.

  Lemma parses_items α w cs : parses P v α w cs -> items α w cs.
  Proof.
    induction 1 as [|t α tok w cs Ht _ IH|p α w1 w2 cs1 cs2 Hp _ IH1 _ IH2]; cbn [items].
    - done.
    - by exists tok, w, cs.
    - exists w1, w2, cs1, cs2. split_and!; [done..| |done]. apply step; [by apply HP|done].
  Qed.

  (** The other direction: a written grammar is parsed, with its tree. *)
  Lemma parses_one p w cs : p ∈ shipped_productions -> parses P v (right p) w cs -> parses P v [NT (left p)] w (node v (left p) cs).
  Proof.
    intros Hp H. rewrite <- (app_nil_r w), <- (app_nil_r (node _ _ _)). constructor; [by apply HP|done|constructor].
  Qed.
  Lemma parses_tok t w : token_type w = t -> parses P v [T t] [w] [Terminal w].
  Proof. intros H. constructor; [done|constructor]. Qed.

  Lemma map_tt_app w ts1 ts2 : map tt_of w = ts1 ++ ts2 -> exists w1 w2, w = w1 ++ w2 /\ map tt_of w1 = ts1 /\ map tt_of w2 = ts2.
  Proof. intros H. apply map_eq_app in H as (w1 & w2 & -> & H1 & H2). by exists w1, w2. Qed.
  Lemma map_tt_cons w ty x ts : map tt_of w = (ty, x) :: ts -> exists t w', w = t :: w' /\ token_type t = ty /\ text t = x /\ map tt_of w' = ts.
  Proof. destruct w as [|t w]; [done|]. cbn [map]. unfold tt_of at 1. intros [= H1 H2 H3]. by exists t, w. Qed.
  Lemma map_tt_nil w : map tt_of w = [] -> w = [].
  Proof. by destruct w. Qed.

  Lemma in_shipped i p : shipped_productions !! i = Some p -> p ∈ shipped_productions.
  Proof. apply elem_of_list_lookup_2. Qed.

  Scheme element_tokens_mut := Minimality for element_tokens Sort Prop
  with atom_tokens_mut := Minimality for atom_tokens Sort Prop
  with alternatives_tokens_mut := Minimality for alternatives_tokens Sort Prop
  with alternative_tokens_mut := Minimality for alternative_tokens Sort Prop
  with elements_tokens_mut := Minimality for elements_tokens Sort Prop.
  Combined Scheme tokens_mut from element_tokens_mut, atom_tokens_mut, alternatives_tokens_mut, alternative_tokens_mut, elements_tokens_mut.

  Lemma suffix_parses s ts : suffix_tokens s ts -> forall w, map tt_of w = ts ->
    exists cs, parses P v [NT 15] w cs /\ suffix_tree s (R cs).
  Proof.
    assert (forall s t, token_type t = v1_suffix_type s -> parses P v [NT 16] [t] [Terminal t]) as K.
    { intros s0 t Ht. rewrite <- (node_unnamed 16 [Terminal t]) by lia. destruct s0.
      - apply (parses_one (Production 16 [T 8])); [by eapply (in_shipped 23)|]. by apply parses_tok.
      - apply (parses_one (Production 16 [T 9])); [by eapply (in_shipped 24)|]. by apply parses_tok.
      - apply (parses_one (Production 16 [T 10])); [by eapply (in_shipped 25)|]. by apply parses_tok. }
    intros H w Hw. destruct H as [|s x|s x y].
    - apply map_tt_nil in Hw as ->. exists []. split; [|constructor]. rewrite <- (node_unnamed 15 []) by lia.
      apply (parses_one (Production 15 [])); [by eapply (in_shipped 21)|constructor].
    - apply map_tt_cons in Hw as (t & w' & -> & Ht & _ & ->%map_tt_nil).
      exists [Rule (RuleCtx (lit "ebnf_suffix") [Terminal t] 6)]. split.
      + rewrite <- (node_unnamed 15 [_]) by lia. apply (parses_one (Production 15 [NT 6])); [by eapply (in_shipped 20)|].
        cbn [right]. rewrite <- (node_named 6 [Terminal t]) by reflexivity. apply (parses_one (Production 6 [NT 16; NT 17])); [by eapply (in_shipped 22)|].
        cbn [right]. change [NT 16; NT 17] with ([NT 16] ++ [NT 17]). change [t] with ([t] ++ []). change [Terminal t] with ([Terminal t] ++ []).
        apply parses_app; [by eapply K|]. rewrite <- (node_unnamed 17 []) by lia. apply (parses_one (Production 17 [])); [by eapply (in_shipped 27)|constructor].
      + cbn. constructor. apply any_tok_retype. by rewrite Ht, suffix_type_hand.
    - apply map_tt_cons in Hw as (t & w' & -> & Ht & _ & Hw). apply map_tt_cons in Hw as (q & w'' & -> & Hq & _ & ->%map_tt_nil).
      exists [Rule (RuleCtx (lit "ebnf_suffix") [Terminal t; Terminal q] 6)]. split.
      + rewrite <- (node_unnamed 15 [_]) by lia. apply (parses_one (Production 15 [NT 6])); [by eapply (in_shipped 20)|].
        cbn [right]. rewrite <- (node_named 6 [Terminal t; Terminal q]) by reflexivity. apply (parses_one (Production 6 [NT 16; NT 17])); [by eapply (in_shipped 22)|].
        cbn [right]. change [NT 16; NT 17] with ([NT 16] ++ [NT 17]). change [t; q] with ([t] ++ [q]). change [Terminal t; Terminal q] with ([Terminal t] ++ [Terminal q]).
        apply parses_app; [by eapply K|]. rewrite <- (node_unnamed 17 [_]) by lia. apply (parses_one (Production 17 [T 10])); [by eapply (in_shipped 26)|]. by apply parses_tok.
      + cbn. constructor; apply any_tok_retype; [by rewrite Ht, suffix_type_hand|by rewrite Hq].
  Qed.

  Lemma tokens_parses :
    (forall e ts, element_tokens e ts -> forall w, map tt_of w = ts ->
       exists cs c, parses P v [NT 5] w cs /\ R cs = [Rule c] /\ element_tree e c) /\
    (forall a ts, atom_tokens a ts -> forall w, map tt_of w = ts ->
       exists cs, parses P v [NT 14] w cs /\ atom_trees a (R cs)) /\
    (forall alts ts, alternatives_tokens alts ts -> forall w, map tt_of w = ts ->
       exists cs, parses P v [NT 3; NT 12] w cs /\ alternatives_trees alts (R cs)) /\
    (forall a ts, alternative_tokens a ts -> forall w, map tt_of w = ts ->
       exists cs c, parses P v [NT 3] w cs /\ R cs = [Rule c] /\ alternative_tree a c) /\
    (forall es ts, elements_tokens es ts -> forall w, map tt_of w = ts ->
       exists cs, parses P v [NT 5; NT 13] w cs /\ elements_trees es (R cs)).
  Proof.
    apply tokens_mut.
    - intros a s ts ss _ IH Hs w Hw. apply map_tt_app in Hw as (w1 & w2 & -> & H1 & H2).
      apply IH in H1 as (cs1 & H1 & T1). apply (suffix_parses _ _ Hs) in H2 as (cs2 & H2 & T2).
      eexists _, _. split; [apply (parses_one (Production 5 [NT 14; NT 15])); [by eapply (in_shipped 15)|]|].
      { apply (parses_app P v [NT 14] [NT 15]); [exact H1|exact H2]. }
      cbn [left]. rewrite (node_named 5 _ (lit "element")) by reflexivity. split; [reflexivity|]. rewrite map_app. by constructor.
    - intros n w Hw. apply map_tt_cons in Hw as (t & w' & -> & Ht & Hx & ->%map_tt_nil). eexists. split.
      + apply (parses_one (Production 14 [T 3])); [by eapply (in_shipped 16)|]. by apply parses_tok.
      + rewrite node_unnamed by (cbn; lia). cbn. constructor. apply tok_retype; [by rewrite Ht|done].
    - intros n w Hw. apply map_tt_cons in Hw as (t & w' & -> & Ht & Hx & ->%map_tt_nil). eexists. split.
      + apply (parses_one (Production 14 [T 13])); [by eapply (in_shipped 17)|]. by apply parses_tok.
      + rewrite node_unnamed by (cbn; lia). cbn. constructor. apply tok_retype; [by rewrite Ht|done].
    - intros n w Hw. apply map_tt_cons in Hw as (t & w' & -> & Ht & Hx & ->%map_tt_nil). eexists. split.
      + apply (parses_one (Production 14 [T 2])); [by eapply (in_shipped 18)|]. by apply parses_tok.
      + rewrite node_unnamed by (cbn; lia). cbn. constructor. apply tok_retype; [by rewrite Ht|done].
    - intros alts x ts y _ IH w Hw. apply map_tt_cons in Hw as (l & w' & -> & Hl & _ & Hw).
      apply map_tt_app in Hw as (w1 & w2 & -> & H1 & H2). apply map_tt_cons in H2 as (r & w' & -> & Hr & _ & ->%map_tt_nil).
      apply IH in H1 as (cs & H1 & T1). eexists. split.
      + apply (parses_one (Production 14 [T 11; NT 2; T 12])); [by eapply (in_shipped 19)|]. cbn [right]. constructor; [done|].
        change [NT 2; T 12] with ([NT 2] ++ [T 12]). apply parses_app; [|by apply parses_tok].
        apply (parses_one (Production 2 [NT 3; NT 12])); [by eapply (in_shipped 6)|exact H1].
      + rewrite node_unnamed by (cbn; lia). cbn [left]. rewrite (node_named 2 _ (lit "block")) by reflexivity. cbn [R map app].
        constructor; [apply any_tok_retype; by rewrite Hl|apply any_tok_retype; by rewrite Hr|by constructor].
    - intros a ts _ IH w Hw. apply IH in Hw as (cs & c & H & Hc & T). exists cs. split; [|rewrite Hc; by constructor].
      change [NT 3; NT 12] with ([NT 3] ++ [NT 12]). rewrite <- (app_nil_r w), <- (app_nil_r cs). apply parses_app; [done|].
      rewrite <- (node_unnamed 12 []) by lia. apply (parses_one (Production 12 [])); [by eapply (in_shipped 8)|constructor].
    - intros a ts x alts ts' _ IH1 _ IH2 w Hw. apply map_tt_app in Hw as (w1 & w2 & -> & H1 & H2).
      apply map_tt_cons in H2 as (o & w' & -> & Ho & _ & H2). apply IH1 in H1 as (cs1 & c & H1 & Hc & T1). apply IH2 in H2 as (cs2 & H2 & T2).
      exists (cs1 ++ Terminal o :: cs2). split.
      + change [NT 3; NT 12] with ([NT 3] ++ [NT 12]) in *. apply parses_app; [done|].
        apply parses_app_inv in H2 as (w1' & w2' & cs1' & cs2' & -> & -> & H2 & H3).
        change (o :: w1' ++ w2') with ((o :: w1') ++ w2'). change (Terminal o :: cs1' ++ cs2') with ((Terminal o :: cs1') ++ cs2').
        rewrite <- (node_unnamed 12 ((Terminal o :: cs1') ++ cs2')) by lia. apply (parses_one (Production 12 [NT 11; NT 12])); [by eapply (in_shipped 7)|].
        cbn [right]. change [NT 11; NT 12] with ([NT 11] ++ [NT 12]). apply parses_app; [|done].
        rewrite <- (node_unnamed 11 (Terminal o :: cs1')) by lia. apply (parses_one (Production 11 [T 6; NT 3])); [by eapply (in_shipped 9)|].
        cbn [right]. by constructor.
      + rewrite R_app, Hc. cbn [R map app]. constructor; [done|apply any_tok_retype; by rewrite Ho|done].
    - intros x w Hw. apply map_tt_cons in Hw as (t & w' & -> & Ht & _ & ->%map_tt_nil). eexists _, _. split.
      + apply (parses_one (Production 3 [NT 4])); [by eapply (in_shipped 11)|]. cbn [right].
        apply (parses_one (Production 4 [T 7])); [by eapply (in_shipped 14)|]. by apply parses_tok.
      + cbn [left]. rewrite (node_named 3 _ (lit "alternative")), (node_named 4 _ (lit "epsilon")) by reflexivity. split; [reflexivity|].
        cbn [map retype_ast retype_rule]. constructor. apply any_tok_retype. by rewrite Ht.
    - intros es ts _ IH w Hw. apply IH in Hw as (cs & H & T). eexists _, _. split.
      + apply (parses_one (Production 3 [NT 5; NT 13])); [by eapply (in_shipped 10)|exact H].
      + cbn [left]. rewrite (node_named 3 _ (lit "alternative")) by reflexivity. split; [reflexivity|]. by constructor.
    - intros e ts _ IH w Hw. apply IH in Hw as (cs & c & H & Hc & T). exists cs. split.
      + change [NT 5; NT 13] with ([NT 5] ++ [NT 13]). rewrite <- (app_nil_r w), <- (app_nil_r cs). apply parses_app; [done|].
        rewrite <- (node_unnamed 13 []) by lia. apply (parses_one (Production 13 [])); [by eapply (in_shipped 13)|constructor].
      + rewrite Hc. constructor; [done|constructor].
    - intros e ts es ts' _ IH1 _ IH2 w Hw. apply map_tt_app in Hw as (w1 & w2 & -> & H1 & H2).
      apply IH1 in H1 as (cs1 & c & H1 & Hc & T1). apply IH2 in H2 as (cs2 & H2 & T2). exists (cs1 ++ cs2). split.
      + change [NT 5; NT 13] with ([NT 5] ++ [NT 13]) in *. apply parses_app; [done|].
        rewrite <- (node_unnamed 13 cs2) by lia. by apply (parses_one (Production 13 [NT 5; NT 13])); [eapply (in_shipped 12)|].
      + rewrite R_app, Hc. by constructor.
  Qed.

  Lemma rule_parses r ts : rule_tokens r ts -> forall w, map tt_of w = ts ->
    exists cs c, parses P v [NT 9] w cs /\ R cs = [Rule c] /\ rule_tree r c.
  Proof.
    intros [name alts x ts' y H|name regex x y] w Hw.
    - apply map_tt_cons in Hw as (n & w0 & -> & Hn & Hnt & Hw). apply map_tt_cons in Hw as (c & w1 & -> & Hc & _ & Hw).
      apply map_tt_app in Hw as (w2 & w3 & -> & H2 & H3). apply map_tt_cons in H3 as (s & w4 & -> & Hs & _ & ->%map_tt_nil).
      apply (proj1 (proj2 (proj2 tokens_parses)) _ _ H) in H2 as (cs & H2 & HT). eexists _, _. split.
      + apply (parses_one (Production 9 [NT 1])); [by eapply (in_shipped 3)|]. cbn [right].
        apply (parses_one (Production 1 [T 2; T 4; NT 2; T 5])); [by eapply (in_shipped 5)|]. cbn [right]. constructor; [done|]. constructor; [done|].
        change [NT 2; T 5] with ([NT 2] ++ [T 5]). apply parses_app; [|by apply parses_tok].
        apply (parses_one (Production 2 [NT 3; NT 12])); [by eapply (in_shipped 6)|exact H2].
      + cbn [left]. rewrite node_unnamed by lia. rewrite (node_named 1 _ (lit "parser_rule")), (node_named 2 _ (lit "block")) by reflexivity.
        split; [reflexivity|]. cbn [map app retype_ast retype_rule].
        constructor; [by apply (tok_retype hand_type); [rewrite Hn|]|apply (any_tok_retype hand_type); by rewrite Hc|by constructor|apply (any_tok_retype hand_type); by rewrite Hs].
    - apply map_tt_cons in Hw as (n & w0 & -> & Hn & Hnt & Hw). apply map_tt_cons in Hw as (c & w1 & -> & Hc & _ & Hw).
      apply map_tt_cons in Hw as (rl & w2 & -> & Hr & Hrt & Hw). apply map_tt_cons in Hw as (s & w4 & -> & Hs & _ & ->%map_tt_nil). eexists _, _. split.
      + apply (parses_one (Production 9 [NT 7])); [by eapply (in_shipped 4)|]. cbn [right].
        apply (parses_one (Production 7 [T 3; T 4; NT 8; T 5])); [by eapply (in_shipped 28)|]. cbn [right]. constructor; [done|]. constructor; [done|].
        change [NT 8; T 5] with ([NT 8] ++ [T 5]). change [rl; s] with ([rl] ++ [s]). apply parses_app; [|by apply parses_tok].
        apply (parses_one (Production 8 [T 14])); [by eapply (in_shipped 29)|]. by apply parses_tok.
      + cbn [left]. rewrite node_unnamed by lia. rewrite (node_named 7 _ (lit "lexer_rule")), (node_named 8 _ (lit "regular")) by reflexivity.
        split; [reflexivity|]. cbn [map app retype_ast retype_rule].
        constructor; [by apply (tok_retype hand_type); [rewrite Hn|]|apply (any_tok_retype hand_type); by rewrite Hc|by apply (tok_retype hand_type); [rewrite Hr|]|apply (any_tok_retype hand_type); by rewrite Hs].
  Qed.

  Lemma grammar_parses G ts : grammar_tokens G ts -> forall w, map tt_of w = ts ->
    exists cs, parses P v [NT 10] w cs /\ exists rs, R cs = map Rule rs /\ Forall2 rule_tree G rs.
  Proof.
    intros (tss & H & ->). induction H as [|r ts G tss Hr _ IH]; intros w Hw.
    - apply map_tt_nil in Hw as ->. exists []. split.
      + rewrite <- (node_unnamed 10 []) by lia. apply (parses_one (Production 10 [])); [by eapply (in_shipped 2)|constructor].
      + by exists [].
    - cbn [concat] in Hw. apply map_tt_app in Hw as (w1 & w2 & -> & H1 & H2). apply (rule_parses _ _ Hr) in H1 as (cs1 & c & H1 & Hc & T1).
      apply IH in H2 as (cs2 & H2 & rs & Hrs & T2). exists (cs1 ++ cs2). split.
      + rewrite <- (node_unnamed 10 (cs1 ++ cs2)) by lia. apply (parses_one (Production 10 [NT 9; NT 10])); [by eapply (in_shipped 1)|].
        cbn [right]. change [NT 9; NT 10] with ([NT 9] ++ [NT 10]). by apply parses_app.
      + exists (c :: rs). split; [by rewrite R_app, Hc, Hrs|by constructor].
  Qed.
End shipped.
