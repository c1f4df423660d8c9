(** ShuffleProofs.v -- C98: parser rules in another order. *)
From Verif Require Export SpecShuffle GrowProofs ChainProofs RewriteProofs VisitorMain.

(** *** Grammars that differ in the numbers of their nonterminals *)
Definition irel (ρ : nat -> nat -> Prop) (x y : item) : Prop := match x, y with T t, T u => t = u | NT a, NT b => ρ a b | _, _ => False end.
Definition prel (ρ : nat -> nat -> Prop) (p q : production) : Prop := ρ (left p) (left q) /\ Forall2 (irel ρ) (right p) (right q).
Lemma irel_flip ρ x y : irel ρ x y -> irel (flip ρ) y x.
Proof. destruct x, y; cbn; congruence. Qed.
Lemma irels_flip ρ xs ys : Forall2 (irel ρ) xs ys -> Forall2 (irel (flip ρ)) ys xs.
Proof. induction 1; constructor; [by apply irel_flip|done]. Qed.
Lemma prel_flip ρ p q : prel ρ p q -> prel (flip ρ) q p.
Proof. intros [H1 H2]. split; [done|by apply irels_flip]. Qed.

Section iso.
  Context (ρ : nat -> nat -> Prop) (Hf : forall a b c, ρ a b -> ρ a c -> b = c) (H0 : ρ 0 0).
  Context (P P' : gset production) (HP : forall p, p ∈ P -> exists p', p' ∈ P' /\ prel ρ p p').
  Lemma irels_fun xs ys zs : Forall2 (irel ρ) xs ys -> Forall2 (irel ρ) xs zs -> ys = zs.
  Proof using Hf.
    intros H. revert zs. induction H as [|x y xs ys Hx _ IH]; intros zs Hz; inversion Hz as [|? z ? zs' Hz1 Hz2]; subst; [done|]. f_equal; [|by apply IH].
    destruct x, y, z; cbn in *; try done; f_equal; [by eapply Hf|congruence].
  Qed.
  Lemma derives_rel α β : derives P α β -> forall α', Forall2 (irel ρ) α α' -> exists β', Forall2 (irel ρ) β β' /\ derives P' α' β'.
  Proof using Hf HP.
    induction 1 as [α|α β γ Hs _ IH]; intros α' Ha; [exists α'; split; [done|apply rtc_refl]|].
    inversion Hs as [a p b Hp E1 E2]; subst. apply Forall2_app_inv_l in Ha as (a' & x' & Ha & Hx & ->). inversion Hx as [|? y ? b' Hy Hb]; subst.
    destruct y as [B|]; [|done]. cbn in Hy. destruct (HP p Hp) as (p' & Hp' & Hl & Hr). pose proof (Hf _ _ _ Hl Hy) as <-.
    destruct (IH (a' ++ right p' ++ b')) as (g' & Hg & Hd); [by repeat apply Forall2_app|].
    exists g'. split; [done|]. eapply rtc_l; [|exact Hd]. by apply rewrites_intro.
  Qed.
  Lemma nullable_rel α α' : Forall2 (irel ρ) α α' -> nullable P α -> nullable P' α'.
  Proof using Hf HP. intros Ha Hd. destruct (derives_rel _ _ Hd _ Ha) as (b & Hb & Hd'). inversion Hb; subst. exact Hd'. Qed.
  Lemma starts_rel α α' t : Forall2 (irel ρ) α α' -> starts P α t -> starts P' α' t.
  Proof using Hf HP.
    intros Ha [β Hd]. destruct (derives_rel _ _ Hd _ Ha) as (b & Hb & Hd'). inversion Hb as [|? y ? b' Hy Hb' E]; subst. destruct y; cbn in Hy; [done|subst]. by exists b'.
  Qed.
  Lemma follows_in_rel X X' A A' t : ρ X X' -> ρ A A' -> follows_in P X A t -> follows_in P' X' A' t.
  Proof using Hf HP.
    intros HX HA (α & β & Hd). destruct (derives_rel _ _ Hd [NT X']) as (b & Hb & Hd'); [by constructor|].
    apply Forall2_app_inv_l in Hb as (a' & x' & Ha & Hx & ->). inversion Hx as [|? y ? b' Hy Hb' E]; subst. inversion Hb' as [|? z ? b'' Hz Hb'']; subst.
    destruct y as [B|], z as [|u]; cbn in Hy, Hz; try done. subst u. pose proof (Hf _ _ _ HA Hy) as <-. by exists a', b''.
  Qed.
  Lemma follows_rel A A' t : ρ A A' -> follows P A t -> follows P' A' t.
  Proof using Hf HP H0.
    intros HA [[X H]|[-> (α & Hd)]].
    - left. assert (exists X', ρ X X') as [X' HX].
      { destruct H as (α & β & Hd). apply rtc_inv in Hd as [E|(y & Hs & _)].
        - apply (f_equal length) in E. rewrite app_length in E. cbn in E. lia.
        - inversion Hs as [a p b Hp E1 E2]. destruct a as [|? [|]]; [|done|done]. injection E1 as E1 _. subst X. destruct (HP p Hp) as (p' & _ & Hl & _). by exists (left p'). }
      exists X'. by eapply follows_in_rel.
    - right. split; [done|]. destruct (derives_rel _ _ Hd [NT 0]) as (b & Hb & Hd'); [by constructor|].
      apply Forall2_app_inv_l in Hb as (a' & x' & Ha & Hx & ->). inversion Hx as [|? y ? b' Hy Hb' E]; subst. inversion Hb'; subst.
      destruct y as [B|]; cbn in Hy; [|done]. pose proof (Hf _ _ _ HA Hy) as <-. by exists a'.
  Qed.
  Lemma predicts_rel p p' t : prel ρ p p' -> predicts P p t -> predicts P' p' t.
  Proof using Hf HP H0.
    intros [Hl Hr] [H|[H1 H2]]; [left; by eapply starts_rel|right]. split; [by eapply nullable_rel|by eapply follows_rel].
  Qed.
End iso.

Section both.
  Context (ρ : nat -> nat -> Prop) (Hf : forall a b c, ρ a b -> ρ a c -> b = c) (Hi : forall a b c, ρ a c -> ρ b c -> a = b) (H0 : ρ 0 0).
  Context (P P' : gset production) (HP : forall p, p ∈ P -> exists p', p' ∈ P' /\ prel ρ p p') (HP' : forall p', p' ∈ P' -> exists p, p ∈ P /\ prel ρ p p').
  Lemma HPflip : forall p', p' ∈ P' -> exists p, p ∈ P /\ prel (flip ρ) p' p.
  Proof using HP'. intros p' H. destruct (HP' p' H) as (p & ? & ?). exists p. split; [done|by apply prel_flip]. Qed.
  Lemma ll1_rel : ll1 P -> ll1 P'.
  Proof using Hf Hi H0 HP HP'.
    intros H p' q' t Hp Hq El Hpp Hpq. destruct (HP' p' Hp) as (p & Hp1 & Rp), (HP' q' Hq) as (q & Hq1 & Rq).
    assert (Hflip : forall a b c, flip ρ a b -> flip ρ a c -> b = c) by (intros a b c; unfold flip; eauto).
    pose proof (predicts_rel (flip ρ) Hflip H0 P' P HPflip p' p t (prel_flip _ _ _ Rp) Hpp) as K1.
    pose proof (predicts_rel (flip ρ) Hflip H0 P' P HPflip q' q t (prel_flip _ _ _ Rq) Hpq) as K2.
    assert (p = q) as <-.
    { apply (H p q t); try done. destruct Rp as [Rp _], Rq as [Rq _]. rewrite El in Rp. by eapply Hi. }
    destruct Rp as [L1 R1], Rq as [L2 R2]. destruct p', q'. cbn in *. subst. f_equal. by eapply (irels_fun ρ Hf).
  Qed.
  Context (tab tab' : table).
  Context (HT : forall A t p, tab !! (A, t) = Some p <-> p ∈ P /\ left p = A /\ predicts P p t).
  Context (HT' : forall A t p, tab' !! (A, t) = Some p <-> p ∈ P' /\ left p = A /\ predicts P' p t).
  Lemma table_rel A A' t : ρ A A' -> match tab !! (A, t), tab' !! (A', t) with Some p, Some p' => prel ρ p p' | None, None => True | _, _ => False end.
  Proof using Hf Hi H0 HP HP' HT HT'.
    intros HA. destruct (tab !! (A, t)) as [p|] eqn:E.
    - apply HT in E as (Hp & <- & Hpp). destruct (HP p Hp) as (p' & Hp' & Hr).
      rewrite (proj2 (HT' A' t p')); [done|]. split; [done|]. split; [by eapply Hf; [apply Hr|]|]. by eapply (predicts_rel ρ Hf H0 P P' HP).
    - destruct (tab' !! (A', t)) as [p'|] eqn:E'; [|done]. apply HT' in E' as (Hp' & <- & Hpp). destruct (HP' p' Hp') as (p & Hp & Hr).
      assert (Hflip : forall a b c, flip ρ a b -> flip ρ a c -> b = c) by (intros a b c; unfold flip; eauto).
      assert (tab !! (A, t) = Some p) as E2; [|congruence]. apply HT. split; [done|]. split; [by eapply Hi; [apply Hr|]|].
      exact (predicts_rel (flip ρ) Hflip H0 P' P HPflip p' p t (prel_flip _ _ _ Hr) Hpp).
  Qed.
  Context (v v' : vocabulary) (Hn : forall A A', ρ A A' -> get_nonterminal_name_by_id v A = get_nonterminal_name_by_id v' A').
  Context (toks : list token).
  Definition results (A A' : nat) (x x' : logged (rule_ctx * nat)) : Prop :=
    x.1 = x'.1 /\ match x.2, x'.2 with
    | inl (r, c), inl (r', c') => c = c' /\ map unnumbered_ast (children r) = map unnumbered_ast (children r') /\
        (is_Some (get_nonterminal_name_by_id v A) -> unnumbered r = unnumbered r')
    | inr e, inr e' => same_halt v v' e e'
    | _, _ => False end.
  Lemma items_rel (rec rec' : nat -> nat -> logged (rule_ctx * nat)) : (forall c A A', ρ A A' -> results A A' (rec c A) (rec' c A')) ->
    forall rhs rhs', Forall2 (irel ρ) rhs rhs' -> forall c kids kids', map unnumbered_ast kids = map unnumbered_ast kids' ->
    (log_items v toks rec rhs c kids).1 = (log_items v' toks rec' rhs' c kids').1 /\
    match (log_items v toks rec rhs c kids).2, (log_items v' toks rec' rhs' c kids').2 with
    | inl (c1, k1), inl (c2, k2) => c1 = c2 /\ map unnumbered_ast k1 = map unnumbered_ast k2
    | inr e, inr e' => same_halt v v' e e'
    | _, _ => False end.
  Proof using Hn.
    intros Hrec rhs rhs' H. induction H as [|x y rhs rhs' Hx _ IH]; intros c kids kids' Hk; [done|].
    destruct x as [A|t], y as [A'|t']; cbn in Hx; try done; cbn [log_items].
    - specialize (Hrec c A A' Hx) as [Hl Ho]. destruct (rec c A) as [l o], (rec' c A') as [l' o']. cbn [fst snd] in Hl, Ho. subst l'.
      destruct o as [[r c1]|e], o' as [[r' c2]|e']; try done. destruct Ho as (<- & Hc & Hr). cbn [lbind]. rewrite (Hn _ _ Hx).
      assert (Hk' : map unnumbered_ast (match get_nonterminal_name_by_id v' A' with Some _ => kids ++ [Rule r] | None => kids ++ children r end) =
                    map unnumbered_ast (match get_nonterminal_name_by_id v' A' with Some _ => kids' ++ [Rule r'] | None => kids' ++ children r' end)).
      { rewrite (Hn _ _ Hx) in Hr. destruct (get_nonterminal_name_by_id v' A') as [nm|]; rewrite !map_app, Hk; f_equal; [|done].
        cbn [map unnumbered_ast]. by rewrite Hr by eauto. }
      specialize (IH c1 _ _ Hk') as [IH1 IH2].
      destruct (log_items v toks rec rhs c1 _) as [m o], (log_items v' toks rec' rhs' c1 _) as [m' o']. cbn [fst snd] in *. by subst.
    - subst t'. destruct (toks !! c) as [tok|]; cbn [Crash.lor lbind lret lfail fst snd]; [|by split].
      assert (Hk' : map unnumbered_ast (kids ++ [Terminal tok]) = map unnumbered_ast (kids' ++ [Terminal tok])) by (by rewrite !map_app, Hk).
      specialize (IH (c + 1) _ _ Hk') as [IH1 IH2].
      destruct (log_items v toks rec rhs (c + 1) _) as [m o], (log_items v' toks rec' rhs' (c + 1) _) as [m' o']. cbn [fst snd app] in *. by subst.
  Qed.
  Lemma log_rel fuel : forall c A A', ρ A A' -> results A A' (log_ast v tab toks fuel c A) (log_ast v' tab' toks fuel c A').
  Proof using Hf Hi H0 HP HP' HT HT' Hn.
    induction fuel as [|fuel IH]; intros c A A' HA; [done|]. cbn [log_ast].
    destruct (toks !! c) as [tok|]; cbn [Crash.lor lbind lret lfail]; [|done].
    pose proof (table_rel A A' (token_type tok) HA) as Ht. destruct (tab !! _) as [p|], (tab' !! _) as [p'|]; try done; cbn [Crash.lor lbind lret lfail].
    2: { split; [done|]. cbn. split; [done|by apply Hn]. }
    destruct Ht as [_ Hr]. pose proof (items_rel _ _ IH _ _ Hr c [] [] eq_refl) as [H1 H2].
    destruct (log_items v toks _ _ c []) as [l o], (log_items v' toks _ _ c []) as [l' o']. cbn [fst snd] in H1, H2. subst l'.
    destruct o as [[c1 k1]|e], o' as [[c2 k2]|e']; try done. destruct H2 as [<- Hk]. cbn [lbind lret]. split; [done|]. cbn [snd children].
    split; [done|]. split; [done|]. intros [nm Hs]. cbn [unnumbered]. f_equal; [|done].
    unfold get_nonterminal_name_with_default. unfold get_nonterminal_name_by_id in Hn, Hs. by rewrite <- (Hn _ _ HA), Hs.
  Qed.
End both.

(** *** Grammars with the same alternatives *)
Lemma rule_in_parts n alts G : ParserRule n alts ∈ G <-> ParserRule n alts ∈ parser_rules_of G.
Proof.
  unfold parser_rules_of. rewrite elem_of_list_omap. split.
  - intros H. by exists (ParserRule n alts).
  - intros ([m a|m x] & H & E); [by injection E as -> ->|done].
Qed.
Lemma token_in_parts n x G : LexerRule n x ∈ G <-> LexerRule n x ∈ lexer_rules_of G.
Proof.
  unfold lexer_rules_of. rewrite elem_of_list_omap. split.
  - intros H. by exists (LexerRule n x).
  - intros ([m a|m y] & H & E); [done|by injection E as -> ->].
Qed.
Lemma rule_names_in n G : n ∈ parser_rule_names G <-> exists alts, ParserRule n alts ∈ G.
Proof.
  unfold parser_rule_names. rewrite elem_of_list_omap. split.
  - intros ([m a|m x] & H & E); [injection E as ->; by exists a|done].
  - intros [alts H]. by exists (ParserRule n alts).
Qed.
Lemma lexer_names_parts G : lexer_rule_names G = lexer_rule_names (lexer_rules_of G).
Proof. induction G as [|[m a|m x] G IH]; [done|..]; unfold lexer_rule_names, lexer_rules_of in *; cbn [omap list_omap]; [done|by rewrite IH]. Qed.
Section shuffled.
  Context (G G' : list rule) (Hs : same_alternatives G G').
  Lemma shuffled_occurs e : occurs e G <-> occurs e G'.
  Proof using Hs.
    destruct Hs as (Ho & _). split; intros (n & alts & alt & H1 & H2 & H3); destruct (Ho n alt) as [K1 K2].
    - destruct K1 as (alts' & ? & ?); [by exists alts|]. by exists n, alts', alt.
    - destruct K2 as (alts' & ? & ?); [by exists alts|]. by exists n, alts', alt.
  Qed.
  Lemma shuffled_generated e : generated G e <-> generated G' e.
  Proof using Hs.
    split; (intros [(a & k & b & E & H)|(alts & s & E & H)]; [left; exists a, k, b|right; exists alts, s]); (split; [done|by apply shuffled_occurs]).
  Qed.
  Lemma shuffled_names n : n ∈ parser_rule_names G <-> n ∈ parser_rule_names G'.
  Proof using Hs. by destruct Hs as (_ & K & _). Qed.
  Lemma shuffled_tokens : lexer_rule_names G = lexer_rule_names G'.
  Proof using Hs. rewrite (lexer_names_parts G), (lexer_names_parts G'). by destruct Hs as (_ & _ & -> & _). Qed.
  Lemma shuffled_proper : proper G -> proper G'.
  Proof using Hs.
    intros (H1 & H2 & H3). unfold proper, terminal_names in *. rewrite <- shuffled_tokens. split_and!.
    - intros n Hn. by apply H1, shuffled_names.
    - intros l s Ho. by apply (H2 l s), shuffled_occurs.
    - intros n r Hr. apply (H3 n). rewrite token_in_parts. destruct Hs as (_ & _ & -> & _). by rewrite <- token_in_parts.
  Qed.
  Lemma shuffled_sym : same_alternatives G' G.
  Proof using Hs. destruct Hs as (H1 & H2 & ? & ?). split_and!; [intros n alt; by rewrite H1|intros n; by rewrite H2|by symmetry..]. Qed.
End shuffled.

Lemma foldN_tokens ns : forall s, sy_data (fold_left (fun s n => name_step n s) ns s) = sy_data s /\
  t_name_to_id (sy_vocabulary (fold_left (fun s n => name_step n s) ns s)) = t_name_to_id (sy_vocabulary s).
Proof.
  induction ns as [|n ns IH]; intros s; [done|]. cbn [fold_left]. destruct (IH (name_step n s)) as [-> ->]. split; [done|].
  cbn [name_step sy_vocabulary]. unfold add_named_nonterminal. repeat case_bool_decide; done.
Qed.
Lemma new_not_defined n : n ∉ [lit "_START"; lit "_STOP"] -> is_terminal_name_defined vocabulary_new n = false.
Proof.
  intros Hnn. apply bool_decide_eq_false. apply not_elem_of_cons in Hnn as [Ha Hb]. apply not_elem_of_cons in Hb as [Hb _].
  change (t_name_to_id vocabulary_new) with (<[lit "_STOP" := 1]> (<[lit "_START" := 0]> (∅ : gmap str nat))).
  rewrite !lookup_insert_ne by done. rewrite lookup_empty. by intros [? ?].
Qed.
Lemma load_tokens G r g data : grammar_tree G r -> proper G -> load_tree r = Ret (g, data) ->
  exists sT, rfold rule_step (lexer_rules_of G) (SymbolState vocabulary_new [] 2 0) = Ret sT /\ data = sy_data sT /\ t_name_to_id (g_vocabulary g) = t_name_to_id (sy_vocabulary sT).
Proof.
  intros HT (Hn & _) Hl. apply (load_inv _ _ _ _ HT) in Hl as (s2 & s3 & _ & E2 & _ & -> & -> & S1 & _).
  rewrite fold_split in E2.
  2: { intros n Hin. specialize (Hn n Hin). unfold terminal_names in Hn. rewrite !not_elem_of_cons in Hn. destruct Hn as (Ha & Hb & Hc).
       split; [|done]. apply new_not_defined. rewrite !not_elem_of_cons. split_and!; try done. apply not_elem_of_nil. }
  unfold foldT in E2. destruct (rfold rule_step (lexer_rules_of G) _) as [sT| |]; cbn [rbind] in E2; [|done..]. injection E2 as <-. exists sT. split; [done|].
  unfold foldN in *. destruct (foldN_tokens (parser_rule_names G) sT) as [K1 K2]. split; [done|]. cbn [g_vocabulary]. by rewrite S1.
Qed.
Lemma load_names G r g data : grammar_tree G r -> proper G -> load_tree r = Ret (g, data) ->
  (forall n, is_Some (get_nonterminal_id_by_name (g_vocabulary g) n) <-> n ∈ parser_rule_names G) /\
  (forall n i, get_nonterminal_id_by_name (g_vocabulary g) n = Some i <-> get_nonterminal_name_by_id (g_vocabulary g) i = Some n).
Proof.
  intros Ht Hp Hload. destruct (load_tree_grammar G r Ht Hp) as [(s2 & Hs & _ & H) _]. destruct (H _ _ Hload) as (s3 & E3 & ->).
  destruct Hs as (Hinv & _ & Hs & _).
  assert (Hv0 : vinv (sy_vocabulary s2)) by (destruct (si_ops _ Hinv) as [ops ->]; apply vinv_reach).
  destruct (productions_ext (t_name_to_id (sy_vocabulary s2)) ∅ ∅ _ _ _ _ (reflexivity _ : sub _ (production_visitor_new (sy_vocabulary s2) ∅ (sy_next_rule_id s2))) E3) as [_ (_ & _ & _ & S1 & S2)].
  cbn [production_visitor_new ps_vocabulary] in S1, S2. cbn [g_vocabulary]. unfold get_nonterminal_id_by_name, get_nonterminal_name_by_id. rewrite S1, S2.
  split; [exact Hs|]. apply (vi_n _ Hv0).
Qed.

Lemma within_trans x y : within_element x y -> (forall e, within_element y e -> within_element x e) /\ (forall a, within_alternative y a -> within_alternative x a).
Proof.
  intros H. apply within_mut.
  - exact H.
  - intros alts alt e s Ha _ IH ->. by eapply within_group.
  - intros es e He _ IH. by eapply within_sequence.
Qed.

Definition same_symbol (G : list rule) (v v' : vocabulary) (f f' : element -> item) (n n' : nat) : Prop :=
  (exists name, get_nonterminal_id_by_name v name = Some n /\ get_nonterminal_id_by_name v' name = Some n') \/
  (exists e, generated G e /\ f e = NT n /\ f' e = NT n').
Lemma same_symbol_fun G G' v v' f f' : same_alternatives G G' -> (forall n i, get_nonterminal_id_by_name v n = Some i <-> get_nonterminal_name_by_id v i = Some n) ->
  stands_for G v f -> one_each G f -> one_each G' f' -> forall a b c, same_symbol G v v' f f' a b -> same_symbol G v v' f f' a c -> b = c.
Proof.
  intros Hsh Hv Hsf H1 H1' a b c [(n & N1 & N2)|(e & G1 & E1 & E2)] [(m & M1 & M2)|(e' & G2 & F1 & F2)].
  - apply Hv in N1, M1. congruence.
  - destruct (sf_new _ _ _ Hsf e' G2) as (k & K1 & _ & K2). apply Hv in N1. congruence.
  - destruct (sf_new _ _ _ Hsf e G1) as (k & K1 & _ & K2). apply Hv in M1. congruence.
  - assert (f' e = f' e') as E; [|congruence]. apply (H1' e e'); [by apply (shuffled_generated _ _ Hsh)..|]. apply (H1 e e' G1 G2). congruence.
Qed.
Section parts.
  Context (G G' : list rule) (v v' : vocabulary) (f f' : element -> item) (Hsh : same_alternatives G G').
  Context (Hsf : stands_for G v f) (Hsf' : stands_for G' v' f') (Hlit : forall l s, ~ occurs (Element (StringLiteral l) s) G).
  Context (Ht : t_name_to_id v = t_name_to_id v') (Hnames : forall n, n ∈ parser_rule_names G -> is_Some (get_nonterminal_id_by_name v' n)).
  Notation ρ := (same_symbol G v v' f f').
  Lemma generated_rel e : generated G e -> irel ρ (f e) (f' e).
  Proof using Hsf Hsf' Hsh.
    intros Hg. destruct (sf_new _ _ _ Hsf e Hg) as (n & E & _). destruct (sf_new _ _ _ Hsf' e) as (n' & E' & _); [by apply (shuffled_generated _ _ Hsh)|].
    rewrite E, E'. right. by exists e.
  Qed.
  Lemma operand_rel a s : occurs (Element a s) G -> irel ρ (f (Element a None)) (f' (Element a None)).
  Proof using Hsf Hsf' Hsh Hlit Ht.
    intros Ho. pose proof Ho as Ho'. apply (shuffled_occurs _ _ Hsh) in Ho'. destruct a as [n|l|n|alts].
    - destruct (sf_token _ _ _ Hsf _ _ Ho) as (t & E1 & ->), (sf_token _ _ _ Hsf' _ _ Ho') as (t' & E2 & ->). cbn. unfold get_terminal_id_by_name in *. congruence.
    - by apply Hlit in Ho.
    - destruct (sf_rule _ _ _ Hsf _ _ Ho) as (t & E1 & ->), (sf_rule _ _ _ Hsf' _ _ Ho') as (t' & E2 & ->). left. by exists n.
    - apply generated_rel. right. by exists alts, s.
  Qed.
  Lemma element_rel e : occurs e G -> irel ρ (f e) (f' e).
  Proof using Hsf Hsf' Hsh Hlit Ht.
    intros Ho. destruct e as [a [[k b]|]]; [|by eapply operand_rel]. apply generated_rel. left. by exists a, k, b.
  Qed.
  Lemma items_alt alt : (forall e, within_alternative e alt -> occurs e G) -> Forall2 (irel ρ) (items f alt) (items f' alt).
  Proof using Hsf Hsf' Hsh Hlit Ht.
    intros H. destruct alt as [|es]; [constructor|]. cbn [items]. apply Forall2_fmap_2, Forall_Forall2_diag, Forall_forall. intros e He. apply element_rel, H.
    eapply within_sequence; [exact He|]. constructor.
  Qed.
  Lemma rewritten_rel p : rewritten G v f (fun _ a => a) p -> exists p', rewritten G' v' f' (fun _ a => a) p' /\ prel ρ p p'.
  Proof using Hsf Hsf' Hsh Hlit Ht Hnames.
    intros [name alts alt n Hr Ha E|alts s alt n Ho Ha E|a b n r Ho E Hr|a b n r Ho E Hr|a b n r Ho E Hr].
    - destruct (Hnames name) as [n' E']; [apply rule_names_in; by exists alts|]. exists (Production n' (items f' alt)).
      destruct (proj1 (proj1 Hsh name alt)) as (alts' & Hr' & Ha'); [by exists alts|].
      split; [by eapply rewritten_rule|]. split; [left; by exists name|]. apply items_alt.
      intros e He. by exists name, alts, alt.
    - pose proof (generated_rel (Element (Group alts) None)) as Hg. rewrite E in Hg. destruct (f' (Element (Group alts) None)) as [n'|] eqn:E'.
      2: { exfalso. apply Hg. right. by exists alts, s. }
      exists (Production n' (items f' alt)). split; [eapply rewritten_group; [by apply (shuffled_occurs _ _ Hsh)|done|done]|].
      split; [apply Hg; right; by exists alts, s|]. apply items_alt. intros e He. destruct Ho as (nm & as' & al & H1 & H2 & H3).
      exists nm, as', al. split; [done|]. split; [done|]. eapply (proj2 (within_trans _ (Element (Group alts) s) ltac:(by eapply within_group))). exact H3.
    - pose proof (element_rel _ Ho) as Hg. pose proof (operand_rel _ _ Ho) as Hop. rewrite E in Hg. destruct (f' (Element a (Some (Star, b)))) as [n'|] eqn:E'; [|done].
      apply elem_of_cons in Hr as [->|Hr%elem_of_list_singleton]; [|subst r].
      + exists (Production n' [f' (Element a None); NT n']). split; [eapply rewritten_star; [by apply (shuffled_occurs _ _ Hsh)|done|by left]|]. split; [done|]. repeat first [apply List.Forall2_nil | apply List.Forall2_cons; [first [exact Hop|exact Hg]|]].
      + exists (Production n' []). split; [eapply rewritten_star; [by apply (shuffled_occurs _ _ Hsh)|done|by right; left]|]. split; [done|]. repeat first [apply List.Forall2_nil | apply List.Forall2_cons; [first [exact Hop|exact Hg]|]].
    - pose proof (element_rel _ Ho) as Hg. pose proof (operand_rel _ _ Ho) as Hop. rewrite E in Hg. destruct (f' (Element a (Some (Plus, b)))) as [n'|] eqn:E'; [|done].
      apply elem_of_cons in Hr as [->|Hr%elem_of_list_singleton]; [|subst r].
      + exists (Production n' [f' (Element a None); NT n']). split; [eapply rewritten_plus; [by apply (shuffled_occurs _ _ Hsh)|done|by left]|]. split; [done|]. repeat first [apply List.Forall2_nil | apply List.Forall2_cons; [first [exact Hop|exact Hg]|]].
      + exists (Production n' [f' (Element a None)]). split; [eapply rewritten_plus; [by apply (shuffled_occurs _ _ Hsh)|done|by right; left]|]. split; [done|]. repeat first [apply List.Forall2_nil | apply List.Forall2_cons; [first [exact Hop|exact Hg]|]].
    - pose proof (element_rel _ Ho) as Hg. pose proof (operand_rel _ _ Ho) as Hop. rewrite E in Hg. destruct (f' (Element a (Some (Question, b)))) as [n'|] eqn:E'; [|done].
      apply elem_of_cons in Hr as [->|Hr%elem_of_list_singleton]; [|subst r].
      + exists (Production n' [f' (Element a None)]). split; [eapply rewritten_question; [by apply (shuffled_occurs _ _ Hsh)|done|by left]|]. split; [done|]. repeat first [apply List.Forall2_nil | apply List.Forall2_cons; [first [exact Hop|exact Hg]|]].
      + exists (Production n' []). split; [eapply rewritten_question; [by apply (shuffled_occurs _ _ Hsh)|done|by right; left]|]. split; [done|]. repeat first [apply List.Forall2_nil | apply List.Forall2_cons; [first [exact Hop|exact Hg]|]].
  Qed.
End parts.

Lemma table_exact g order fuel tab w : iteration_order g order -> closed (nonterminals (g_vocabulary g)) (productions g) -> build_table fuel order g = Ret (tab, w) ->
  ll1 (productions g) -> forall A t p, tab !! (A, t) = Some p <-> p ∈ productions g /\ left p = A /\ predicts (productions g) p t.
Proof.
  intros Ho Hcl Hb Hll A t p. destruct (c28_table_entries _ _ _ _ _ Ho Hcl Hb) as [D1 D2]. split.
  - intros H. apply D2 in H as (H1 & <- & H2). split; [done|]. split; [done|exact H2].
  - intros (Hp & El & Hpp). assert (is_Some (tab !! (A, t))) as [q Hq].
    { apply D1. exists p. split; [done|]. split; [done|]. by subst A. }
    rewrite Hq. f_equal. apply D2 in Hq as (Hq1 & Hq2 & Hq3). apply (Hll q p t); [done|done|congruence| |done]. by subst A; rewrite Hq2 || (unfold predicts; by rewrite Hq2).
Qed.

Lemma load_vinv r g data : load_tree r = Ret (g, data) -> vinv (g_vocabulary g).
Proof.
  intros Hload. destruct (load_tree_inv _ _ _ Hload) as (s2 & s3 & _ & _ & _ & Ev & _ & Hp & _). destruct (pi_ops _ _ _ Hp) as [ops Ho]. rewrite Ev, Ho. apply vinv_reach.
Qed.

Section chain.
  Context (G G' : list rule) (r r' : rule_ctx) (g g' : grammar) (data data' : list lexer_rule_data).
  Context (Hs : same_alternatives G G') (HT : grammar_tree G r) (HT' : grammar_tree G' r') (Hp : proper G).
  Context (Hl : load_tree r = Ret (g, data)) (Hl' : load_tree r' = Ret (g', data')).
  Context (Hc : no_collision (g_vocabulary g) G) (Hc' : no_collision (g_vocabulary g') G').
  Notation v := (g_vocabulary g).
  Notation v' := (g_vocabulary g').
  Lemma shuffled_relation : exists ρ : nat -> nat -> Prop,
    (forall a b c, ρ a b -> ρ a c -> b = c) /\ (forall a b c, ρ a c -> ρ b c -> a = b) /\
    (parser_rule_names G <> [] -> ρ 0 0) /\
    (forall p, p ∈ productions g -> exists p', p' ∈ productions g' /\ prel ρ p p') /\
    (forall p', p' ∈ productions g' -> exists p, p ∈ productions g /\ prel ρ p p') /\
    (forall A A', ρ A A' -> get_nonterminal_name_by_id v A = get_nonterminal_name_by_id v' A').
  Proof using All.
    pose proof (shuffled_proper _ _ Hs Hp) as Hp'. pose proof (shuffled_sym _ _ Hs) as Hs'.
    destruct (c83 _ _ _ _ HT Hp Hl Hc) as (f & Hsf & H1 & HP). destruct (c83 _ _ _ _ HT' Hp' Hl' Hc') as (f' & Hsf' & H1' & HP').
    destruct (load_names _ _ _ _ HT Hp Hl) as [N1 N2], (load_names _ _ _ _ HT' Hp' Hl') as [N1' N2'].
    assert (Ht : t_name_to_id v = t_name_to_id v').
    { destruct (load_tokens _ _ _ _ HT Hp Hl) as (sT & E & _ & K), (load_tokens _ _ _ _ HT' Hp' Hl') as (sT' & E' & _ & K').
      destruct Hs as (_ & _ & Es & _). rewrite Es, E' in E. injection E as ->. congruence. }
    assert (Hlit : forall l s, ~ occurs (Element (StringLiteral l) s) G) by (destruct (proj1 (c42 _ _ HT Hp)) as (_ & _ & K); [by eexists|exact K]).
    assert (Hlit' : forall l s, ~ occurs (Element (StringLiteral l) s) G') by (destruct (proj1 (c42 _ _ HT' Hp')) as (_ & _ & K); [by eexists|exact K]).
    assert (Hflip : forall a b, same_symbol G v v' f f' a b <-> same_symbol G' v' v f' f b a).
    { intros a b. split; (intros [(n & K1 & K2)|(e & K0 & K1 & K2)]; [left; by exists n|right; exists e]); (split; [by apply (shuffled_generated _ _ Hs)|done]). }
    exists (same_symbol G v v' f f'). split_and!.
    - exact (same_symbol_fun G G' v v' f f' Hs N2 Hsf H1 H1').
    - intros a b c K1%Hflip K2%Hflip. exact (same_symbol_fun G' G v' v f' f Hs' N2' Hsf' H1' H1 _ _ _ K1 K2).
    - intros Hne. destruct (parser_rule_names G) as [|n ns] eqn:En; [done|]. assert (head (parser_rule_names G) = Some n) as Hh by (by rewrite En).
      left. exists n. split; [exact (first_rule _ _ _ _ _ HT Hp Hl Hh)|]. apply (first_rule _ _ _ _ _ HT' Hp' Hl'). destruct Hs as (_ & _ & _ & <-). exact Hh.
    - intros p Hin%HP. destruct (rewritten_rel G G' v v' f f' Hs Hsf Hsf' Hlit Ht) with p as (p' & K1 & K2); [|done|].
      + intros n Hn. by apply N1', (shuffled_names _ _ Hs).
      + exists p'. split; [by apply HP'|done].
    - intros p Hin%HP'. destruct (rewritten_rel G' G v' v f' f Hs' Hsf' Hsf Hlit' (eq_sym Ht)) with p as (p' & K1 & K2); [|done|].
      + intros n Hn. by apply N1, (shuffled_names _ _ Hs).
      + exists p'. split; [by apply HP|]. apply prel_flip in K2. destruct K2 as [K2 K3]. split; [by apply Hflip|].
        eapply Forall2_impl; [exact K3|]. intros x y. destruct x, y; cbn; try done. intros K. by apply Hflip.
    - intros A A' [(n & K1 & K2)|(e & K0 & K1 & K2)].
      + apply N2 in K1. apply N2' in K2. congruence.
      + destruct (sf_new _ _ _ Hsf e K0) as (k & F1 & _ & F2). destruct (sf_new _ _ _ Hsf' e) as (k' & F1' & _ & F2'); [by apply (shuffled_generated _ _ Hs)|]. congruence.
  Qed.
  Lemma c98_ll1 : parser_rule_names G <> [] -> ll1 (productions g) -> ll1 (productions g').
  Proof using All.
    intros Hne H. destruct shuffled_relation as (ρ & R1 & R2 & R3 & R4 & R5 & R6). exact (ll1_rel ρ R1 R2 (R3 Hne) _ _ R4 R5 H).
  Qed.
  Lemma c98_data : data = data' /\ t_name_to_id v = t_name_to_id v'.
  Proof using Hs HT HT' Hp Hl Hl'.
    pose proof (shuffled_proper _ _ Hs Hp) as Hp'.
    destruct (load_tokens _ _ _ _ HT Hp Hl) as (sT & E & D & K), (load_tokens _ _ _ _ HT' Hp' Hl') as (sT' & E' & D' & K').
    destruct Hs as (_ & _ & Es & _). rewrite Es, E' in E. injection E as ->. split; congruence.
  Qed.
  Lemma c98_chain compile order order' ws s : parser_rule_names G <> [] -> ll1 (productions g) -> iteration_order g order -> iteration_order g' order' ->
    exists n, forall fuel, n <= fuel ->
    same_outcome v v' (chain_log compile order fuel g data ws s) (chain_log compile order' fuel g' data' ws s).
  Proof using All.
    intros Hne Hll Ho Ho'. pose proof (c98_ll1 Hne Hll) as Hll'. pose proof c98_data as [Hd _]. pose proof (shuffled_proper _ _ Hs Hp) as Hp'.
    destruct shuffled_relation as (ρ & R1 & R2 & R3 & R4 & R5 & R6). specialize (R3 Hne).
    destruct (c43_closed _ _ _ Hl) as (C1 & _ & _ & _ & _ & _). destruct (c43_closed _ _ _ Hl') as (C1' & _ & _ & _ & _ & _).
    assert (Hz : 0 ∈ nonterminals v /\ 0 ∈ nonterminals v' /\ is_Some (get_nonterminal_name_by_id v 0)).
    { destruct (parser_rule_names G) as [|n ns] eqn:En; [done|]. assert (head (parser_rule_names G) = Some n) as Hh by (by rewrite En).
      pose proof (first_rule _ _ _ _ _ HT Hp Hl Hh) as F. assert (head (parser_rule_names G') = Some n) as Hh' by (destruct Hs as (_ & _ & _ & <-); exact Hh).
      pose proof (first_rule _ _ _ _ _ HT' Hp' Hl' Hh') as F'. apply (load_names _ _ _ _ HT Hp Hl) in F. apply (load_names _ _ _ _ HT' Hp' Hl') in F'.
      pose proof (load_vinv _ _ _ Hl) as V. pose proof (load_vinv _ _ _ Hl') as V'. split; [apply (vi_nd _ V); by eexists|]. split; [apply (vi_nd _ V'); by eexists|by eexists]. }
    destruct Hz as (Z & Z' & Zn).
    destruct (c28_table_returns g C1 Z) as [n Hn]. destruct (c28_table_returns g' C1' Z') as [n' Hn']. exists (n `max` n'). intros fuel Hf.
    destruct (Hn order fuel Ho ltac:(lia)) as (tab & w & B). destruct (Hn' order' fuel Ho' ltac:(lia)) as (tab' & w' & B').
    pose proof (proj2 (proj1 (c29_warnings _ _ _ _ _ Ho C1 B)) Hll) as ->. pose proof (proj2 (proj1 (c29_warnings _ _ _ _ _ Ho' C1' B')) Hll') as ->.
    unfold same_outcome, chain_log. rewrite B, B', <- Hd. cbn [rbind].
    destruct (scan_all (generated_lexer compile data s) ws 0 fuel lexer_init) as [[toks rest]| |]; cbn [rbind]; [|done..].
    pose proof (log_rel ρ R1 R2 R3 _ _ R4 R5 tab tab' (table_exact _ _ _ _ _ Ho C1 B Hll) (table_exact _ _ _ _ _ Ho' C1' B' Hll') v v' R6 toks fuel 0 0 0 R3) as [L1 L2].
    unfold log_parse. destruct (log_ast v tab toks fuel 0 0) as [l o], (log_ast v' tab' toks fuel 0 0) as [l' o']. cbn [fst snd] in L1, L2. subst l'.
    destruct o as [[t c]|e], o' as [[t' c']|e']; try done; cbn [lbind lret].
    - rewrite app_nil_r. split_and!; try done. by apply L2.
  Qed.
End chain.
