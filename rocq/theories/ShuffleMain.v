(** ShuffleMain.v -- C98: the theorems' last steps and concrete cases. *)
From Verif Require Export ShuffleProofs ChainAny MixedMain SpecOutput.

Lemma c98_shuffled G G' : shuffled G G' -> same_alternatives G G'.
Proof.
  intros (H & Ht & Hh). assert (K : forall n alts, ParserRule n alts ∈ G <-> ParserRule n alts ∈ G') by (intros n alts; by rewrite (rule_in_parts _ _ G), (rule_in_parts _ _ G'), H).
  split_and!; [| |done|done].
  - intros n alt. split; intros (alts & ? & ?); exists alts; (split; [by apply K|done]).
  - intros n. rewrite !rule_names_in. split; intros [alts ?]; exists alts; by apply K.
Qed.

Lemma c98_load G G' r r' : same_alternatives G G' -> grammar_tree G r -> grammar_tree G' r' -> proper G ->
  (exists out, load_tree r = Ret out) -> exists out, load_tree r' = Ret out.
Proof.
  intros Hs HT HT' Hp H. apply (c42 _ _ HT Hp) in H as (D1 & D2 & D3). apply (c42 _ _ HT' (shuffled_proper _ _ Hs Hp)). split_and!.
  - intros n s Ho. apply (shuffled_occurs _ _ Hs), D1 in Ho. unfold terminal_names in *. by rewrite <- (shuffled_tokens _ _ Hs).
  - intros n s Ho. apply (shuffled_occurs _ _ Hs), D2 in Ho. by apply (shuffled_names _ _ Hs).
  - intros l s Ho. apply (shuffled_occurs _ _ Hs) in Ho. by eapply D3.
Qed.

Lemma c98_same G G' r r' g g' data data' : same_alternatives G G' -> grammar_tree G r -> grammar_tree G' r' -> proper G ->
  load_tree r = Ret (g, data) -> load_tree r' = Ret (g', data') -> data = data' /\
  (forall n, get_terminal_id_by_name (g_vocabulary g) n = get_terminal_id_by_name (g_vocabulary g') n) /\
  (forall n, is_Some (get_nonterminal_id_by_name (g_vocabulary g) n) <-> is_Some (get_nonterminal_id_by_name (g_vocabulary g') n)).
Proof.
  intros Hs HT HT' Hp Hl Hl'. destruct (c98_data G G' r r' g g' data data' Hs HT HT' Hp Hl Hl') as [-> Ht]. split; [done|]. split.
  - intros n. unfold get_terminal_id_by_name. by rewrite Ht.
  - intros n. destruct (load_names _ _ _ _ HT Hp Hl) as [-> _]. destruct (load_names _ _ _ _ HT' (shuffled_proper _ _ Hs Hp) Hl') as [-> _]. apply (shuffled_names _ _ Hs).
Qed.

(** Related sets are of the same size. *)
Lemma prel_fun (ρ : nat -> nat -> Prop) (p q q' : production) : (forall a b c, ρ a b -> ρ a c -> b = c) -> prel ρ p q -> prel ρ p q' -> q = q'.
Proof. intros Hf [L1 R1] [L2 R2]. destruct q, q'. cbn in *. f_equal; [by eapply Hf|by eapply (irels_fun ρ Hf)]. Qed.
Lemma at_most (ρ : nat -> nat -> Prop) (Hf : forall a b c, ρ a b -> ρ a c -> b = c) (P P' : gset production) :
  (forall p', p' ∈ P' -> exists p, p ∈ P /\ prel ρ p p') -> size P' <= size P.
Proof.
  intros H. assert (forall l : list production, NoDup l -> (forall p', p' ∈ l -> p' ∈ P') -> exists k : list production, NoDup k /\ length k = length l /\ (forall p, p ∈ k -> p ∈ P) /\ (forall p, p ∈ k -> exists p', p' ∈ l /\ prel ρ p p')) as K.
  { induction l as [|x l IH]; intros Hnd Hl; [exists []; split_and!; [constructor|done|set_solver|set_solver]|]. apply NoDup_cons in Hnd as [Hx Hnd].
    destruct IH as (k & K1 & K2 & K3 & K4); [done|set_solver|]. destruct (H x) as (p & Hp & Hr); [apply Hl; set_solver|]. exists (p :: k). split_and!.
    - apply NoDup_cons. split; [|done]. intros Hin. destruct (K4 p Hin) as (y & Hy & Hr'). by rewrite (prel_fun ρ p x y Hf Hr Hr') in Hx.
    - cbn. by rewrite K2.
    - intros q [->|Hq]%elem_of_cons; [done|by apply K3].
    - intros q [->|Hq]%elem_of_cons; [exists x; split; [set_solver|done]|]. destruct (K4 q Hq) as (y & ? & ?). exists y. split; [set_solver|done]. }
  destruct (K (elements P')) as (k & K1 & K2 & K3 & _); [apply NoDup_elements|intros ?; by rewrite elem_of_elements|].
  change (size P') with (length (elements P')). rewrite <- K2. change (size P) with (length (elements P)).
  apply submseteq_length, NoDup_submseteq; [done|]. intros p Hp. apply elem_of_elements. by apply K3.
Qed.
Lemma same_size (ρ : nat -> nat -> Prop) (Hf : forall a b c, ρ a b -> ρ a c -> b = c) (Hi : forall a b c, ρ a c -> ρ b c -> a = b) (P P' : gset production) :
  (forall p, p ∈ P -> exists p', p' ∈ P' /\ prel ρ p p') -> (forall p', p' ∈ P' -> exists p, p ∈ P /\ prel ρ p p') -> size P = size P'.
Proof.
  intros H H'. apply Nat.le_antisymm.
  - apply (at_most (flip ρ)); [intros a b c; unfold flip; eauto|]. intros p Hp. destruct (H p Hp) as (p' & ? & ?). exists p'. split; [done|by apply prel_flip].
  - by apply (at_most ρ).
Qed.

Lemma c98_ll1_iff G G' r r' g g' data data' : same_alternatives G G' -> grammar_tree G r -> grammar_tree G' r' -> proper G ->
  load_tree r = Ret (g, data) -> load_tree r' = Ret (g', data') -> no_collision (g_vocabulary g) G -> no_collision (g_vocabulary g') G' ->
  parser_rule_names G <> [] -> (ll1 (productions g) <-> ll1 (productions g')) /\ size (productions g) = size (productions g').
Proof.
  intros Hs HT HT' Hp Hl Hl' Hc Hc' Hne. pose proof (shuffled_sym _ _ Hs) as Hs'. pose proof (shuffled_proper _ _ Hs Hp) as Hp'.
  assert (Hne' : parser_rule_names G' <> []) by (destruct Hs as (_ & _ & _ & E); destruct (parser_rule_names G), (parser_rule_names G'); done).
  split; [split|].
  - exact (c98_ll1 G G' r r' g g' data data' Hs HT HT' Hp Hl Hl' Hc Hc' Hne).
  - exact (c98_ll1 G' G r' r g' g data' data Hs' HT' HT Hp' Hl' Hl Hc' Hc Hne').
  - destruct (shuffled_relation G G' r r' g g' data data' Hs HT HT' Hp Hl Hl' Hc Hc') as (ρ & R1 & R2 & _ & R4 & R5 & _).
    exact (same_size ρ R1 R2 _ _ R4 R5).
Qed.

(** expr: term (Plus term)*;  term: factor (Mul factor)*;  factor: Num | L expr R;  and with factor before term. *)
Definition ex_expr : rule := ParserRule (lit "expr") [Sequence [Element (RuleRef (lit "term")) None; Element (Group [Sequence [ref "Plus"; Element (RuleRef (lit "term")) None]]) (Some (Star, false))]].
Definition ex_term : rule := ParserRule (lit "term") [Sequence [Element (RuleRef (lit "factor")) None; Element (Group [Sequence [ref "Mul"; Element (RuleRef (lit "factor")) None]]) (Some (Star, false))]].
Definition ex_factor : rule := ParserRule (lit "factor") [Sequence [ref "Num"]; Sequence [ref "L"; Element (RuleRef (lit "expr")) None; ref "R"]].
Definition ex_calc_tokens : list rule := [LexerRule (lit "Num") (lit "/[0-9]+/"); LexerRule (lit "Plus") (lit "/\+/"); LexerRule (lit "Mul") (lit "/\*/");
  LexerRule (lit "L") (lit "/\(/"); LexerRule (lit "R") (lit "/\)/"); LexerRule (lit "WHITE_SPACE") (lit "/[ ]+/")].
Definition ex_calc : list rule := [ex_expr; ex_term; ex_factor] ++ ex_calc_tokens.
Definition ex_calc2 : list rule := [ex_expr; ex_factor; ex_term] ++ ex_calc_tokens.
Lemma ex_c98 : shuffled ex_calc ex_calc2 /\ grammar_tree ex_calc (build_grammar ex_calc) /\ grammar_tree ex_calc2 (build_grammar ex_calc2) /\ proper ex_calc /\ load_tree (build_grammar ex_calc) = Ret (grammar_of (build_grammar ex_calc), rules_of (build_grammar ex_calc)) /\ load_tree (build_grammar ex_calc2) = Ret (grammar_of (build_grammar ex_calc2), rules_of (build_grammar ex_calc2)) /\ no_collision (g_vocabulary (grammar_of (build_grammar ex_calc))) ex_calc /\ no_collision (g_vocabulary (grammar_of (build_grammar ex_calc2))) ex_calc2 /\ ll1 (productions (grammar_of (build_grammar ex_calc))) /\ productions (grammar_of (build_grammar ex_calc)) <> productions (grammar_of (build_grammar ex_calc2)).
Proof.
  split; [split; [|split; by vm_compute]|].
  { change (parser_rules_of ex_calc) with [ex_expr; ex_term; ex_factor]. change (parser_rules_of ex_calc2) with [ex_expr; ex_factor; ex_term]. apply perm_skip, perm_swap. }
  split; [apply build_grammar_tree; by vm_compute|]. split; [apply build_grammar_tree; by vm_compute|]. split; [apply proper_computed; by vm_compute|].
  split; [apply loaded_ret; by vm_compute|]. split; [apply loaded_ret; by vm_compute|]. split; [apply no_collision_computed; by vm_compute|].
  split; [apply no_collision_computed; by vm_compute|]. split; [apply ll1_computed; by vm_compute|]. apply (bool_decide_unpack _). vm_compute. exact I.
Qed.

(** factor in two parts, one of them before term, and an alternative twice. *)
Definition ex_calc3 : list rule := [ex_expr; ParserRule (lit "factor") [Sequence [ref "L"; Element (RuleRef (lit "expr")) None; ref "R"]]; ex_term;
  ParserRule (lit "factor") [Sequence [ref "L"; Element (RuleRef (lit "expr")) None; ref "R"]; Sequence [ref "Num"]]] ++ ex_calc_tokens.
Lemma same_alternatives_listed G G' :
  let sub G G' := Forall (fun r => match r with ParserRule n alts => n ∈ parser_rule_names G' /\ Forall (offers G' n) alts | _ => True end) G in
  sub G G' -> sub G' G -> lexer_rules_of G = lexer_rules_of G' -> head (parser_rule_names G) = head (parser_rule_names G') -> same_alternatives G G'.
Proof.
  intros sub. assert (K : forall G G', sub G G' -> (forall n alt, offers G n alt -> offers G' n alt) /\ (forall n, n ∈ parser_rule_names G -> n ∈ parser_rule_names G')).
  { clear. intros G G' H. unfold sub in H. rewrite Forall_forall in H. split.
    - intros n alt (alts & Hr & Ha). apply H in Hr as [_ Hr]. rewrite Forall_forall in Hr. by apply Hr.
    - intros n [alts Hr]%rule_names_in. by apply H in Hr as [Hr _]. }
  intros [A1 A2]%K [B1 B2]%K ? ?. split_and!; [|split; auto|done|done]. split; auto.
Qed.
Ltac mem := (apply elem_of_list_here) + (apply elem_of_list_further; mem).
Ltac listed := apply same_alternatives_listed; [..|reflexivity|reflexivity];
  (repeat (apply Forall_cons; split); [..|by apply Forall_nil]); try exact I;
  (split; [apply (bool_decide_unpack _); vm_compute; exact I|]); (repeat (apply Forall_cons; split); [..|by apply Forall_nil]); (eexists; split; [mem|mem]).
Lemma ex_c98_parts : same_alternatives ex_calc ex_calc3 /\ grammar_tree ex_calc3 (build_grammar ex_calc3) /\
  load_tree (build_grammar ex_calc3) = Ret (grammar_of (build_grammar ex_calc3), rules_of (build_grammar ex_calc3)) /\
  no_collision (g_vocabulary (grammar_of (build_grammar ex_calc3))) ex_calc3 /\ productions (grammar_of (build_grammar ex_calc)) <> productions (grammar_of (build_grammar ex_calc3)).
Proof.
  split; [unfold ex_calc, ex_calc3, ex_calc_tokens, ex_expr, ex_term, ex_factor; cbn [app]; listed|]. split; [apply build_grammar_tree; by vm_compute|]. split; [apply loaded_ret; by vm_compute|].
  split; [apply no_collision_computed; by vm_compute|]. apply (bool_decide_unpack _). vm_compute. exact I.
Qed.

Lemma c98_text nd g d order G ts s G' ts' s' :
  digits_ok nd -> load_ast syntaxis2_json = Ret (g, d) -> iteration_order g order ->
  grammar_tokens G ts -> written ts s -> grammar_tokens G' ts' -> written ts' s' -> same_alternatives G G' ->
  proper G -> references_defined G -> tokens_apart G -> parser_rule_names G <> [] ->
  exists r r' n g1 g2 data, (forall fuel, n <= fuel -> main_run nd order fuel syntaxis2_json s = Ret (r, [], None, []) /\
                                              main_run nd order fuel syntaxis2_json s' = Ret (r', [], None, [])) /\
    load_tree (retype_rule hand_type r) = Ret (g1, data) /\ load_tree (retype_rule hand_type r') = Ret (g2, data) /\
    (ll1 (productions g1) <-> ll1 (productions g2)) /\
    (ll1 (productions g1) -> forall compile order1 order2 ws text, iteration_order g1 order1 -> iteration_order g2 order2 ->
       exists m, forall fuel, m <= fuel ->
         same_outcome (g_vocabulary g1) (g_vocabulary g2) (chain_log compile order1 fuel g1 data ws text) (chain_log compile order2 fuel g2 data ws text)).
Proof.
  intros Hnd Hl Ho HG Hw HG' Hw' E Hp Hd Ha Hne.
  destruct (c44_complete nd g d order G ts s Hnd Hl Ho HG Hw) as (r & HT & n & Hn).
  destruct (c44_complete nd g d order G' ts' s' Hnd Hl Ho HG' Hw') as (r' & HT' & n' & Hn').
  assert (Ha' : tokens_apart G') by (intros k b b' m a O1 O2; by eapply (Ha k b b' m a); apply (shuffled_occurs _ _ E)).
  pose proof (proj2 (c42 _ _ HT Hp) Hd) as L. pose proof (c98_load _ _ _ _ E HT HT' Hp L) as [[g2 data'] L2]. destruct L as [[g1 data] L1].
  destruct (c98_same _ _ _ _ _ _ _ _ E HT HT' Hp L1 L2) as (<- & _).
  exists r, r', (n `max` n'), g1, g2, data. split; [intros fuel Hf; split; [apply Hn; lia|apply Hn'; lia]|]. split; [done|]. split; [done|].
  pose proof (tokens_apart_no_collision (g_vocabulary g1) _ Ha) as N1. pose proof (tokens_apart_no_collision (g_vocabulary g2) _ Ha') as N2. split.
  - exact (proj1 (c98_ll1_iff _ _ _ _ _ _ _ _ E HT HT' Hp L1 L2 N1 N2 Hne)).
  - intros Hll compile o1 o2 ws text O1 O2. exact (c98_chain _ _ _ _ _ _ _ _ E HT HT' Hp L1 L2 N1 N2 compile o1 o2 ws text Hne Hll O1 O2).
Qed.

(** A rule written twice. *)
Definition ex_repeated : list rule := ParserRule (lit "ab") [Sequence [Element (TokenRef (lit "Xy")) (Some (Star, false))]] :: ex_once.
Definition ex_repeated_tokens : list (nat * str) := take 5 ex_once_tokens ++ ex_once_tokens.
Lemma ex_c98_text : grammar_tokens ex_once ex_once_tokens /\ written ex_once_tokens ex_once_text /\
  grammar_tokens ex_repeated ex_repeated_tokens /\ written ex_repeated_tokens (lit "ab:Xy*;ab:Xy*;Xy:/x/;") /\ same_alternatives ex_once ex_repeated /\
  proper ex_once /\ references_defined ex_once /\ tokens_apart ex_once /\ parser_rule_names ex_once <> [].
Proof.
  split; [exact ex_once_grammar_tokens|]. split; [exact ex_once_written|]. split.
  { destruct ex_once_grammar_tokens as (tss & H & E). exists (take 5 ex_once_tokens :: tss). split; [|unfold ex_repeated_tokens; rewrite E; done]. constructor; [|exact H].
    refine (rule_tokens_parser (lit "ab") _ (lit ":") [(3, lit "Xy"); (8, lit "*")] (lit ";") _). do 3 constructor.
    refine (element_tokens_intro _ _ [(3, lit "Xy")] [(8, lit "*")] _ _); [constructor|]. exact (suffix_tokens_greedy Star (lit "*")). }
  split; [apply written_computed; [apply Nat.leb_le; reflexivity|vm_compute; reflexivity]|].
  split; [unfold ex_repeated, ex_once; listed|]. assert (proper ex_once) as Hp by (apply proper_computed; by vm_compute). split; [exact Hp|].
  split; [apply (c42 ex_once (build_grammar ex_once)); [by apply build_grammar_tree|exact Hp|eexists; apply loaded_ret; by vm_compute]|].
  split; [|done]. intros k b b' n a _ Ho. apply occurs_computed in Ho. change (occurring ex_once) with [Element (TokenRef (lit "Xy")) (Some (Star, false))] in Ho.
  apply elem_of_list_singleton in Ho as [= -> -> ->]. eauto.
Qed.

(** With a collision the order does matter: a: X* c*;  b: X;  c: Y;  is in conflict with itself, a: X* c*;  c: Y;  b: X;  is not. *)
Definition g41_swapped : list rule :=
  [ParserRule (lit "a") [Sequence [Element (TokenRef (lit "X")) (Some (Star, false)); Element (RuleRef (lit "c")) (Some (Star, false))]];
   ParserRule (lit "c") [Sequence [Element (TokenRef (lit "Y")) None]];
   ParserRule (lit "b") [Sequence [Element (TokenRef (lit "X")) None]];
   LexerRule (lit "X") (lit "/x/"); LexerRule (lit "Y") (lit "/y/")].
Lemma not_ll1_computed r : loaded r = true ->
  match build_table 1000 (elements (productions (grammar_of r))) (grammar_of r) with Ret (_, _ :: _) => true | _ => false end = true ->
  ~ ll1 (productions (grammar_of r)).
Proof.
  intros Hl Ht Hll. destruct (build_table _ _ _) as [[tab [|x w]]| |] eqn:E; try done.
  assert (x :: w = []) as Hw; [|done]. refine (proj2 (proj1 (c29_warnings (grammar_of r) _ _ _ _ _ _ E)) Hll); [unfold iteration_order; reflexivity|].
  exact (proj1 (c43_closed _ _ _ (loaded_ret _ Hl))).
Qed.
Lemma c98_collision : exists G G' r r' g g' data data', shuffled G G' /\ grammar_tree G r /\ grammar_tree G' r' /\ proper G /\ load_tree r = Ret (g, data) /\ load_tree r' = Ret (g', data') /\ ~ ll1 (productions g) /\ ll1 (productions g').
Proof.
  exists g41, g41_swapped, (build_grammar g41), (build_grammar g41_swapped), (grammar_of (build_grammar g41)), (grammar_of (build_grammar g41_swapped)).
  exists (rules_of (build_grammar g41)), (rules_of (build_grammar g41_swapped)). split; [split; [|split; by vm_compute]|].
  { unfold g41, g41_swapped, parser_rules_of. cbn [omap list_omap]. apply perm_skip, perm_swap. }
  split; [apply build_grammar_tree; by vm_compute|]. split; [apply build_grammar_tree; by vm_compute|]. split; [apply proper_computed; by vm_compute|].
  split; [apply loaded_ret; by vm_compute|]. split; [apply loaded_ret; by vm_compute|].
  split; [apply not_ll1_computed; by vm_compute|apply ll1_computed; by vm_compute].
Qed.

(** The first rule must stay first: s: X;  t: Y;  and  t: Y;  s: X;  do not accept the same texts. *)
Definition ex_xy (b : bool) : list rule :=
  let s := ParserRule (lit "s") [Sequence [ref "X"]] in let t := ParserRule (lit "t") [Sequence [ref "Y"]] in
  (if b then [s; t] else [t; s]) ++ [LexerRule (lit "X") (lit "/x/"); LexerRule (lit "Y") (lit "/y/")].
Lemma c98_first : exists compile G G' r r' g g' data data' order order' fuel ws s t,
  parser_rules_of G ≡ₚ parser_rules_of G' /\ lexer_rules_of G = lexer_rules_of G' /\ grammar_tree G r /\ grammar_tree G' r' /\ load_tree r = Ret (g, data) /\ load_tree r' = Ret (g', data') /\ iteration_order g order /\ iteration_order g' order' /\ chain_log compile order fuel g data ws s = Ret ([], None, ([], inl t)) /\ exists h, chain_log compile order' fuel g' data' ws s = Ret ([], None, ([], inr h)) /\ h <> NoFuel.
Proof.
  exists (engine ascii_digit), (ex_xy true), (ex_xy false), (build_grammar (ex_xy true)), (build_grammar (ex_xy false)), (grammar_of (build_grammar (ex_xy true))), (grammar_of (build_grammar (ex_xy false))).
  exists (rules_of (build_grammar (ex_xy true))), (rules_of (build_grammar (ex_xy false))), (elements (productions (grammar_of (build_grammar (ex_xy true))))), (elements (productions (grammar_of (build_grammar (ex_xy false))))).
  exists 1000, 9, (lit "x"). eexists. split; [unfold ex_xy, parser_rules_of; cbn [omap list_omap app]; apply perm_swap|]. split; [by vm_compute|].
  split; [apply build_grammar_tree; by vm_compute|]. split; [apply build_grammar_tree; by vm_compute|].
  split; [apply loaded_ret; by vm_compute|]. split; [apply loaded_ret; by vm_compute|]. split; [unfold iteration_order; reflexivity|]. split; [unfold iteration_order; reflexivity|].
  split; [by vm_compute|]. eexists. split; [by vm_compute|done].
Qed.
