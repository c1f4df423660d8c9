(** MoreProofs.v -- C99: more parser rules and more alternatives. *)
From Verif Require Export SpecMore ShuffleMain.

Section more.
  Context (ρ : nat -> nat -> Prop) (Hf : forall a b c, ρ a b -> ρ a c -> b = c) (Hi : forall a b c, ρ a c -> ρ b c -> a = b) (H0 : ρ 0 0).
  Context (P P' : gset production) (HP : forall p, p ∈ P -> exists p', p' ∈ P' /\ prel ρ p p').
  Lemma prel_inj p q p' : prel ρ p p' -> prel ρ q p' -> p = q.
  Proof using Hi.
    intros H1%prel_flip H2%prel_flip. apply (prel_fun (flip ρ) p' p q); [|done|done]. intros a b c. unfold flip. eauto.
  Qed.
  Lemma ll1_less : ll1 P' -> ll1 P.
  Proof using Hf Hi H0 HP.
    intros H p q t Hp Hq El Hpp Hpq. destruct (HP p Hp) as (p' & Hp' & Rp), (HP q Hq) as (q' & Hq' & Rq).
    assert (p' = q') as <-.
    { apply (H p' q' t); [done|done| |by eapply (predicts_rel ρ Hf H0 P P' HP)..]. destruct Rp as [Rp _], Rq as [Rq _]. rewrite El in Rp. by eapply Hf. }
    by eapply prel_inj.
  Qed.
  Context (tab tab' : table).
  Context (HT : forall A t p, tab !! (A, t) = Some p <-> p ∈ P /\ left p = A /\ predicts P p t).
  Context (HT' : forall A t p, tab' !! (A, t) = Some p <-> p ∈ P' /\ left p = A /\ predicts P' p t).
  Lemma table_more A A' t p : ρ A A' -> tab !! (A, t) = Some p -> exists p', tab' !! (A', t) = Some p' /\ prel ρ p p'.
  Proof using Hf Hi H0 HP HT HT'.
    intros HA E. apply HT in E as (Hp & <- & Hpp). destruct (HP p Hp) as (p' & Hp' & Hr). exists p'. split; [|done]. apply HT'.
    split; [done|]. split; [by eapply Hf; [apply Hr|]|]. by eapply (predicts_rel ρ Hf H0 P P' HP).
  Qed.
  Context (v v' : vocabulary) (Hn : forall A A', ρ A A' -> get_nonterminal_name_by_id v A = get_nonterminal_name_by_id v' A').
  Context (toks : list token).
  Definition kept {B} (R : B -> B -> Prop) (x x' : logged B) : Prop :=
    match x with
    | (l, inl a) => exists a', x' = (l, inl a') /\ R a a'
    | (l, inr (NoToken c)) => x' = (l, inr (NoToken c))
    | (l, inr _) => l `prefix_of` fst x'
    end.
  Lemma kept_bind {B C} (R : B -> B -> Prop) (S : C -> C -> Prop) x x' (k k' : B -> logged C) :
    kept R x x' -> (forall a a', R a a' -> kept S (k a) (k' a')) -> kept S (lbind x k) (lbind x' k').
  Proof using Type.
    intros H K. destruct x as [l [a|e]]; cbn [kept] in H.
    - destruct H as (a' & -> & Ha). specialize (K a a' Ha). cbn [lbind]. destruct (k a) as [m o], (k' a') as [m' o']. cbn [kept] in *. destruct o as [b|[]].
      + destruct K as (b' & [= -> ->] & Hb). by exists b'.
      + cbn in *. by apply prefix_app.
      + by injection K as -> ->.
      + cbn in *. by apply prefix_app.
    - cbn [lbind]. destruct e; cbn [kept].
      + destruct x' as [m [a|]]; cbn [lbind fst] in *; [|done]. destruct (k' a) as [m' ?]. cbn. by apply prefix_app_r.
      + subst x'. done.
      + destruct x' as [m [a|]]; cbn [lbind fst] in *; [|done]. destruct (k' a) as [m' ?]. cbn. by apply prefix_app_r.
  Qed.
  Definition same_node (A : nat) (x x' : rule_ctx * nat) : Prop :=
    x.2 = x'.2 /\ map unnumbered_ast (children x.1) = map unnumbered_ast (children x'.1) /\
    (is_Some (get_nonterminal_name_by_id v A) -> unnumbered x.1 = unnumbered x'.1).
  Definition same_kids (x x' : nat * list ast) : Prop := x.1 = x'.1 /\ map unnumbered_ast x.2 = map unnumbered_ast x'.2.
  Lemma items_more (rec rec' : nat -> nat -> logged (rule_ctx * nat)) : (forall c A A', ρ A A' -> kept (same_node A) (rec c A) (rec' c A')) ->
    forall rhs rhs', Forall2 (irel ρ) rhs rhs' -> forall c kids kids', map unnumbered_ast kids = map unnumbered_ast kids' ->
    kept same_kids (log_items v toks rec rhs c kids) (log_items v' toks rec' rhs' c kids').
  Proof using Hn.
    intros Hrec rhs rhs' H. induction H as [|x y rhs rhs' Hx _ IH]; intros c kids kids' Hk; [by eexists|].
    destruct x as [A|t], y as [A'|t']; cbn in Hx; try done; cbn [log_items].
    - eapply kept_bind; [exact (Hrec c A A' Hx)|]. intros [r c1] [r' c2] (E & Hc & Hr). cbn in E, Hc, Hr. subst c2. cbv beta iota. apply IH. rewrite (Hn _ _ Hx). rewrite (Hn _ _ Hx) in Hr.
      destruct (get_nonterminal_name_by_id v' A') as [nm|]; rewrite !map_app, Hk; f_equal; [|done]. cbn [map unnumbered_ast]. by rewrite Hr by eauto.
    - subst t'. eapply (kept_bind eq); [destruct (toks !! c); cbn; eauto|]. intros tok ? <-. eapply (kept_bind eq); [by eexists|]. intros _ _ _.
      apply IH. by rewrite !map_app, Hk.
  Qed.
  Lemma log_more fuel : forall c A A', ρ A A' -> kept (same_node A) (log_ast v tab toks fuel c A) (log_ast v' tab' toks fuel c A').
  Proof using Hf Hi H0 HP HT HT' Hn.
    induction fuel as [|fuel IH]; intros c A A' HA; [apply prefix_nil|]. cbn [log_ast].
    eapply (kept_bind eq); [destruct (toks !! c); cbn; eauto|]. intros tok ? <-.
    eapply (kept_bind (prel ρ)).
    { destruct (tab !! _) as [p|] eqn:E; [|apply prefix_nil]. destruct (table_more _ _ _ _ HA E) as (p' & -> & Hr). by exists p'. }
    intros p p' [_ Hr]. eapply kept_bind; [exact (items_more _ _ IH _ _ Hr c [] [] eq_refl)|]. intros [c1 k1] [c2 k2] [E Hk]. cbn in E, Hk. subst c2.
    eexists. split; [reflexivity|]. split; [done|]. split; [done|]. intros [nm Hs]. cbn [fst unnumbered]. f_equal; [|done].
    unfold get_nonterminal_name_with_default. unfold get_nonterminal_name_by_id in Hn, Hs. by rewrite <- (Hn _ _ HA), Hs.
  Qed.
End more.

Section grown.
  Context (G G' : list rule) (Hm : more_alternatives G G').
  Lemma more_occurs e : occurs e G -> occurs e G'.
  Proof using Hm.
    destruct Hm as (Ho & _). intros (n & alts & alt & H1 & H2 & H3). destruct (Ho n alt) as (alts' & ? & ?); [by exists alts|]. by exists n, alts', alt.
  Qed.
  Lemma more_generated e : generated G e -> generated G' e.
  Proof using Hm. intros [(a & k & b & E & H)|(alts & s & E & H)]; [left; exists a, k, b|right; exists alts, s]; (split; [done|by apply more_occurs]). Qed.
  Lemma more_tokens : lexer_rule_names G = lexer_rule_names G'.
  Proof using Hm. rewrite (lexer_names_parts G), (lexer_names_parts G'). by destruct Hm as (_ & _ & -> & _). Qed.
  Lemma less_proper : proper G' -> proper G.
  Proof using Hm.
    intros (H1 & H2 & H3). unfold proper, terminal_names in *. rewrite more_tokens. split_and!.
    - intros n Hn. apply H1. by apply Hm.
    - intros l s Ho. by apply (H2 l s), more_occurs.
    - intros n r Hr. apply (H3 n). rewrite token_in_parts. destruct Hm as (_ & _ & <- & _). by rewrite <- token_in_parts.
  Qed.
  Context (v v' : vocabulary) (f f' : element -> item).
  Context (Hsf : stands_for G v f) (Hsf' : stands_for G' v' f') (Hlit : forall l s, ~ occurs (Element (StringLiteral l) s) G).
  Context (Ht : t_name_to_id v = t_name_to_id v') (Hnames : forall n, n ∈ parser_rule_names G -> is_Some (get_nonterminal_id_by_name v' n)).
  Notation ρ := (same_symbol G v v' f f').
  Lemma generated_more e : generated G e -> irel ρ (f e) (f' e).
  Proof using Hsf Hsf' Hm.
    intros Hg. destruct (sf_new _ _ _ Hsf e Hg) as (n & E & _). destruct (sf_new _ _ _ Hsf' e) as (n' & E' & _); [by apply more_generated|].
    rewrite E, E'. right. by exists e.
  Qed.
  Lemma operand_more a s : occurs (Element a s) G -> irel ρ (f (Element a None)) (f' (Element a None)).
  Proof using Hsf Hsf' Hm Hlit Ht.
    intros Ho. pose proof Ho as Ho'. apply more_occurs in Ho'. destruct a as [n|l|n|alts].
    - destruct (sf_token _ _ _ Hsf _ _ Ho) as (t & E1 & ->), (sf_token _ _ _ Hsf' _ _ Ho') as (t' & E2 & ->). cbn. unfold get_terminal_id_by_name in *. congruence.
    - by apply Hlit in Ho.
    - destruct (sf_rule _ _ _ Hsf _ _ Ho) as (t & E1 & ->), (sf_rule _ _ _ Hsf' _ _ Ho') as (t' & E2 & ->). left. by exists n.
    - apply generated_more. right. by exists alts, s.
  Qed.
  Lemma element_more e : occurs e G -> irel ρ (f e) (f' e).
  Proof using Hsf Hsf' Hm Hlit Ht.
    intros Ho. destruct e as [a [[k b]|]]; [|by eapply operand_more]. apply generated_more. left. by exists a, k, b.
  Qed.
  Lemma alt_more alt : (forall e, within_alternative e alt -> occurs e G) -> Forall2 (irel ρ) (SpecRewrite.items f alt) (SpecRewrite.items f' alt).
  Proof using Hsf Hsf' Hm Hlit Ht.
    intros H. destruct alt as [|es]; [constructor|]. cbn [SpecRewrite.items]. apply Forall2_fmap_2, Forall_Forall2_diag, Forall_forall. intros e He. apply element_more, H.
    eapply within_sequence; [exact He|]. constructor.
  Qed.
  Lemma rewritten_more p : rewritten G v f (fun _ a => a) p -> exists p', rewritten G' v' f' (fun _ a => a) p' /\ prel ρ p p'.
  Proof using Hsf Hsf' Hm Hlit Ht Hnames.
    intros [name alts alt n Hr Ha E|alts s alt n Ho Ha E|a b n r Ho E Hr|a b n r Ho E Hr|a b n r Ho E Hr].
    - destruct (Hnames name) as [n' E']; [apply rule_names_in; by exists alts|]. exists (Production n' (SpecRewrite.items f' alt)).
      destruct (proj1 Hm name alt) as (alts' & Hr' & Ha'); [by exists alts|].
      split; [by eapply rewritten_rule|]. split; [left; by exists name|]. apply alt_more.
      intros e He. by exists name, alts, alt.
    - pose proof (generated_more (Element (Group alts) None)) as Hg. rewrite E in Hg. destruct (f' (Element (Group alts) None)) as [n'|] eqn:E'.
      2: { exfalso. apply Hg. right. by exists alts, s. }
      exists (Production n' (SpecRewrite.items f' alt)). split; [eapply rewritten_group; [by apply more_occurs|done|done]|].
      split; [apply Hg; right; by exists alts, s|]. apply alt_more. intros e He. destruct Ho as (nm & as' & al & H1 & H2 & H3).
      exists nm, as', al. split; [done|]. split; [done|]. eapply (proj2 (within_trans _ (Element (Group alts) s) ltac:(by eapply within_group))). exact H3.
    - pose proof (element_more _ Ho) as Hg. pose proof (operand_more _ _ Ho) as Hop. rewrite E in Hg. destruct (f' (Element a (Some (Star, b)))) as [n'|] eqn:E'; [|done].
      apply elem_of_cons in Hr as [->|Hr%elem_of_list_singleton]; [|subst r].
      + exists (Production n' [f' (Element a None); NT n']). split; [eapply rewritten_star; [by apply more_occurs|done|by left]|]. split; [done|]. repeat first [apply List.Forall2_nil | apply List.Forall2_cons; [first [exact Hop|exact Hg]|]].
      + exists (Production n' []). split; [eapply rewritten_star; [by apply more_occurs|done|by right; left]|]. split; [done|]. repeat first [apply List.Forall2_nil | apply List.Forall2_cons; [first [exact Hop|exact Hg]|]].
    - pose proof (element_more _ Ho) as Hg. pose proof (operand_more _ _ Ho) as Hop. rewrite E in Hg. destruct (f' (Element a (Some (Plus, b)))) as [n'|] eqn:E'; [|done].
      apply elem_of_cons in Hr as [->|Hr%elem_of_list_singleton]; [|subst r].
      + exists (Production n' [f' (Element a None); NT n']). split; [eapply rewritten_plus; [by apply more_occurs|done|by left]|]. split; [done|]. repeat first [apply List.Forall2_nil | apply List.Forall2_cons; [first [exact Hop|exact Hg]|]].
      + exists (Production n' [f' (Element a None)]). split; [eapply rewritten_plus; [by apply more_occurs|done|by right; left]|]. split; [done|]. repeat first [apply List.Forall2_nil | apply List.Forall2_cons; [first [exact Hop|exact Hg]|]].
    - pose proof (element_more _ Ho) as Hg. pose proof (operand_more _ _ Ho) as Hop. rewrite E in Hg. destruct (f' (Element a (Some (Question, b)))) as [n'|] eqn:E'; [|done].
      apply elem_of_cons in Hr as [->|Hr%elem_of_list_singleton]; [|subst r].
      + exists (Production n' [f' (Element a None)]). split; [eapply rewritten_question; [by apply more_occurs|done|by left]|]. split; [done|]. repeat first [apply List.Forall2_nil | apply List.Forall2_cons; [first [exact Hop|exact Hg]|]].
      + exists (Production n' []). split; [eapply rewritten_question; [by apply more_occurs|done|by right; left]|]. split; [done|]. repeat first [apply List.Forall2_nil | apply List.Forall2_cons; [first [exact Hop|exact Hg]|]].
  Qed.
End grown.

Section chain.
  Context (G G' : list rule) (r r' : rule_ctx) (g g' : grammar) (data data' : list lexer_rule_data).
  Context (Hm : more_alternatives G G') (HT : grammar_tree G r) (HT' : grammar_tree G' r') (Hp' : proper G').
  Context (Hl : load_tree r = Ret (g, data)) (Hl' : load_tree r' = Ret (g', data')).
  Context (Hc : no_collision (g_vocabulary g) G) (Hc' : no_collision (g_vocabulary g') G').
  Notation v := (g_vocabulary g).
  Notation v' := (g_vocabulary g').
  Lemma c99_data : data = data' /\ t_name_to_id v = t_name_to_id v'.
  Proof using Hm HT HT' Hp' Hl Hl'.
    pose proof (less_proper _ _ Hm Hp') as Hp.
    destruct (load_tokens _ _ _ _ HT Hp Hl) as (sT & E & D & K), (load_tokens _ _ _ _ HT' Hp' Hl') as (sT' & E' & D' & K').
    destruct Hm as (_ & _ & Es & _). rewrite Es, E' in E. injection E as ->. split; congruence.
  Qed.
  Lemma more_relation : exists ρ : nat -> nat -> Prop,
    (forall a b c, ρ a b -> ρ a c -> b = c) /\ (forall a b c, ρ a c -> ρ b c -> a = b) /\
    (parser_rule_names G <> [] -> ρ 0 0) /\
    (forall p, p ∈ productions g -> exists p', p' ∈ productions g' /\ prel ρ p p') /\
    (forall A A', ρ A A' -> get_nonterminal_name_by_id v A = get_nonterminal_name_by_id v' A').
  Proof using All.
    pose proof (less_proper _ _ Hm Hp') as Hp. pose proof c99_data as [_ Ht].
    destruct (c83 _ _ _ _ HT Hp Hl Hc) as (f & Hsf & H1 & HP). destruct (c83 _ _ _ _ HT' Hp' Hl' Hc') as (f' & Hsf' & H1' & HP').
    destruct (load_names _ _ _ _ HT Hp Hl) as [N1 N2], (load_names _ _ _ _ HT' Hp' Hl') as [N1' N2'].
    assert (Hlit : forall l s, ~ occurs (Element (StringLiteral l) s) G) by (destruct (proj1 (c42 _ _ HT Hp)) as (_ & _ & K); [by eexists|exact K]).
    exists (same_symbol G v v' f f'). split_and!.
    - intros a b c [(n & K1 & K2)|(e & G1 & E1 & E2)] [(m & M1 & M2)|(e' & G2 & F1 & F2)].
      + apply N2 in K1, M1. congruence.
      + destruct (sf_new _ _ _ Hsf e' G2) as (k & L1 & _ & L2). apply N2 in K1. congruence.
      + destruct (sf_new _ _ _ Hsf e G1) as (k & L1 & _ & L2). apply N2 in M1. congruence.
      + assert (f' e = f' e') as E; [|congruence]. apply (H1' e e'); [by apply (more_generated _ _ Hm)..|]. apply (H1 e e' G1 G2). congruence.
    - intros a b c [(n & K1 & K2)|(e & G1 & E1 & E2)] [(m & M1 & M2)|(e' & G2 & F1 & F2)].
      + apply N2' in K2, M2. congruence.
      + destruct (sf_new _ _ _ Hsf' e') as (k & L1 & _ & L2); [by apply (more_generated _ _ Hm)|]. apply N2' in K2. congruence.
      + destruct (sf_new _ _ _ Hsf' e) as (k & L1 & _ & L2); [by apply (more_generated _ _ Hm)|]. apply N2' in M2. congruence.
      + assert (f e = f e') as E; [|congruence]. apply (H1 e e' G1 G2). apply (H1' e e'); [by apply (more_generated _ _ Hm)..|]. congruence.
    - intros Hne. destruct (parser_rule_names G) as [|n ns] eqn:En; [done|]. assert (head (parser_rule_names G) = Some n) as Hh by (by rewrite En).
      left. exists n. split; [exact (first_rule _ _ _ _ _ HT Hp Hl Hh)|]. apply (first_rule _ _ _ _ _ HT' Hp' Hl'). destruct Hm as (_ & _ & _ & <-). exact Hh.
    - intros p Hin%HP. destruct (rewritten_more G G' Hm v v' f f' Hsf Hsf' Hlit Ht) with p as (p' & K1 & K2); [|done|].
      + intros n Hn. by apply N1', Hm.
      + exists p'. split; [by apply HP'|done].
    - intros A A' [(n & K1 & K2)|(e & K0 & K1 & K2)].
      + apply N2 in K1. apply N2' in K2. congruence.
      + destruct (sf_new _ _ _ Hsf e K0) as (k & F1 & _ & F2). destruct (sf_new _ _ _ Hsf' e) as (k' & F1' & _ & F2'); [by apply (more_generated _ _ Hm)|]. congruence.
  Qed.
  Lemma c99_ll1 : parser_rule_names G <> [] -> ll1 (productions g') -> ll1 (productions g).
  Proof using All.
    intros Hne H. destruct more_relation as (ρ & R1 & R2 & R3 & R4 & R6). exact (ll1_less ρ R1 R2 (R3 Hne) _ _ R4 H).
  Qed.
  Lemma c99_chain compile order order' ws s : parser_rule_names G <> [] -> ll1 (productions g') -> iteration_order g order -> iteration_order g' order' ->
    exists n, forall fuel, n <= fuel ->
      kept_outcome (chain_log compile order fuel g data ws s) (chain_log compile order' fuel g' data' ws s).
  Proof using All.
    intros Hne Hll' Ho Ho'. pose proof (c99_ll1 Hne Hll') as Hll. pose proof c99_data as [Hd _]. pose proof (less_proper _ _ Hm Hp') as Hp.
    destruct more_relation as (ρ & R1 & R2 & R3 & R4 & R6). specialize (R3 Hne).
    destruct (c43_closed _ _ _ Hl) as (C1 & _ & _ & _ & _ & _). destruct (c43_closed _ _ _ Hl') as (C1' & _ & _ & _ & _ & _).
    assert (Hz : 0 ∈ nonterminals v /\ 0 ∈ nonterminals v' /\ is_Some (get_nonterminal_name_by_id v 0)).
    { destruct (parser_rule_names G) as [|n ns] eqn:En; [done|]. assert (head (parser_rule_names G) = Some n) as Hh by (by rewrite En).
      pose proof (first_rule _ _ _ _ _ HT Hp Hl Hh) as F. assert (head (parser_rule_names G') = Some n) as Hh' by (destruct Hm as (_ & _ & _ & <-); exact Hh).
      pose proof (first_rule _ _ _ _ _ HT' Hp' Hl' Hh') as F'. apply (load_names _ _ _ _ HT Hp Hl) in F. apply (load_names _ _ _ _ HT' Hp' Hl') in F'.
      pose proof (load_vinv _ _ _ Hl) as V. pose proof (load_vinv _ _ _ Hl') as V'. split; [apply (vi_nd _ V); by eexists|]. split; [apply (vi_nd _ V'); by eexists|by eexists]. }
    destruct Hz as (Z & Z' & Zn).
    destruct (c28_table_returns g C1 Z) as [n Hn]. destruct (c28_table_returns g' C1' Z') as [n' Hn']. exists (n `max` n'). intros fuel Hf.
    destruct (Hn order fuel Ho ltac:(lia)) as (tab & w & B). destruct (Hn' order' fuel Ho' ltac:(lia)) as (tab' & w' & B').
    pose proof (proj2 (proj1 (c29_warnings _ _ _ _ _ Ho C1 B)) Hll) as ->. pose proof (proj2 (proj1 (c29_warnings _ _ _ _ _ Ho' C1' B')) Hll') as ->.
    unfold kept_outcome, chain_log. rewrite B, B', <- Hd. cbn [rbind].
    destruct (scan_all (generated_lexer compile data s) ws 0 fuel lexer_init) as [[toks rest]| |]; cbn [rbind]; [|done..].
    split_and!; try done.
    pose proof (log_more ρ R1 R2 R3 _ _ R4 tab tab' (table_exact _ _ _ _ _ Ho C1 B Hll) (table_exact _ _ _ _ _ Ho' C1' B' Hll') v v' R6 toks fuel 0 0 0 R3) as L.
    pose proof (kept_bind (same_node v 0) (fun t t' => unnumbered t = unnumbered t') _ _ (fun '(r, _) => lret r) (fun '(r, _) => lret r) L) as K.
    apply K. intros [t c] [t' c'] (_ & _ & E). cbn. exists t'. split; [done|]. by apply E.
  Qed.
End chain.
