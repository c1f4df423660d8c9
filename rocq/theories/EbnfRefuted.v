(** EbnfRefuted.v -- C31 and C41 are false. *)
From Verif Require Export EbnfMain ExampleTree.

Definition loaded (r : rule_ctx) : bool := match load_tree r with Ret _ => true | _ => false end.
Definition grammar_of (r : rule_ctx) : grammar := match load_tree r with Ret (g, _) => g | _ => grammar_new [] end.
Definition rules_of (r : rule_ctx) : list lexer_rule_data := match load_tree r with Ret (_, d) => d | _ => [] end.
Lemma loaded_ret r : loaded r = true -> load_tree r = Ret (grammar_of r, rules_of r).
Proof. unfold loaded, grammar_of, rules_of. by destruct (load_tree r) as [[]| |]. Qed.

(** [occurs] and [proper] can be checked. *)
Fixpoint elements_within (e : element) : list element :=
  e :: match e with Element (Group alts) _ => concat (map alternative_within alts) | _ => [] end
with alternative_within (a : alternative) : list element :=
  match a with Epsilon => [] | Sequence es => concat (map elements_within es) end.
Definition occurring (G : list rule) : list element :=
  concat (map (fun r => match r with ParserRule _ alts => concat (map alternative_within alts) | LexerRule _ _ => [] end) G).
Lemma elem_of_concat_map {A B} (f : A -> list B) l x y : x ∈ l -> y ∈ f x -> y ∈ concat (map f l).
Proof. intros Hx Hy. apply elem_of_list_In, in_concat. exists (f x). split; [by apply in_map, elem_of_list_In|by apply elem_of_list_In]. Qed.
Lemma within_computed x : (forall e, within_element x e -> x ∈ elements_within e) /\ (forall a, within_alternative x a -> x ∈ alternative_within a).
Proof.
  apply within_mut.
  - destruct x. apply elem_of_list_here.
  - intros alts alt e s Ha _ IH ->. simpl. apply elem_of_list_further. by eapply elem_of_concat_map.
  - intros es e He _ IH. simpl. by eapply elem_of_concat_map.
Qed.
Lemma occurs_computed x G : occurs x G -> x ∈ occurring G.
Proof.
  intros (name & alts & a & HG & Ha & Hx). eapply elem_of_concat_map; [exact HG|]. simpl.
  eapply elem_of_concat_map; [exact Ha|]. by apply within_computed.
Qed.

(** s: A+; A: /a/;   and   s: A A*; A: /a/; *)
Definition g31_plus : list rule := [ParserRule (lit "s") [Sequence [Element (TokenRef (lit "A")) (Some (Plus, false))]]; LexerRule (lit "A") (lit "/a/")].
Definition g31_star : list rule :=
  [ParserRule (lit "s") [Sequence [Element (TokenRef (lit "A")) None; Element (TokenRef (lit "A")) (Some (Star, false))]]; LexerRule (lit "A") (lit "/a/")].

Lemma matches_token_plus G n b w : matches_element G (Element (TokenRef n) (Some (Plus, b))) w <-> exists k, w = replicate (S k) n.
Proof.
  split.
  - intros H. remember (Element (TokenRef n) (Some (Plus, b))) as e eqn:E. induction H; try done; injection E as -> ->.
    + exists 0. match goal with H : matches_atom _ _ _ |- _ => by inversion H end.
    + match goal with H : matches_atom _ _ ?w |- _ => inversion H; subst end. destruct IHmatches_element as [k ->]; [done|]. by exists (S k).
  - intros [k ->]. induction k as [|k IH]; [apply matches_plus_one; constructor|].
    change (replicate (S (S k)) n) with ([n] ++ replicate (S k) n). apply matches_plus_more; [constructor|done].
Qed.
Lemma matches_token_star G n b w : matches_element G (Element (TokenRef n) (Some (Star, b))) w <-> exists k, w = replicate k n.
Proof.
  split.
  - intros H. remember (Element (TokenRef n) (Some (Star, b))) as e eqn:E. induction H; try done.
    + by exists 0.
    + injection E as -> ->. match goal with H : matches_atom _ _ ?w |- _ => inversion H; subst end. destruct IHmatches_element as [k ->]; [done|]. by exists (S k).
  - intros [k ->]. induction k as [|k IH]; [constructor|].
    change (replicate (S k) n) with ([n] ++ replicate k n). apply matches_star_cons; [constructor|done].
Qed.
Lemma g31_same w : matches_atom g31_plus (RuleRef (lit "s")) w <-> matches_atom g31_star (RuleRef (lit "s")) w.
Proof.
  transitivity (exists k, w = replicate (S k) (lit "A")).
  - split.
    + intros H. inversion H as [| |name alts alt w' HG Ha Hm|]; subst. unfold g31_plus in HG. rewrite !elem_of_cons in HG.
      destruct HG as [[= ->]|[?|?%elem_of_nil]]; try done. apply elem_of_list_singleton in Ha as ->. inversion Hm as [|es ? Hes]; subst.
      apply matches_one, matches_token_plus in Hes. done.
    + intros H. eapply matches_rule; [apply elem_of_list_here|apply elem_of_list_here|]. constructor.
      rewrite <- (app_nil_r w). constructor; [|constructor]. by apply matches_token_plus.
  - split.
    + intros [k ->]. eapply matches_rule; [apply elem_of_list_here|apply elem_of_list_here|]. constructor.
      apply (matches_cons _ _ _ [lit "A"] (replicate k (lit "A"))); [repeat constructor|].
      rewrite <- (app_nil_r (replicate k _)). constructor; [|constructor]. apply matches_token_star. eauto.
    + intros H. inversion H as [| |name alts alt w' HG Ha Hm|]; subst. unfold g31_star in HG. rewrite !elem_of_cons in HG.
      destruct HG as [[= ->]|[?|?%elem_of_nil]]; try done. apply elem_of_list_singleton in Ha as ->. inversion Hm as [|es ? Hes]; subst.
      apply matches_two in Hes as (w1 & w2 & -> & H1 & H2). apply matches_plain_inv in H1. inversion H1; subst.
      apply matches_token_star in H2 as [k ->]. by exists k.
Qed.
Lemma proper_computed G :
  forallb (fun n => bool_decide (n ∉ terminal_names G)) (parser_rule_names G) = true ->
  forallb (fun x => match x with Element (StringLiteral l) _ => bool_decide (l ∉ terminal_names G) | _ => true end) (occurring G) = true ->
  forallb (fun r => match r with
    | LexerRule _ (a :: r) => bool_decide (a = 47%N) && match last r with Some b => bool_decide (b = 47%N) | None => false end
    | LexerRule _ [] => false | _ => true end) G = true ->
  proper G.
Proof.
  rewrite !forallb_forall. intros H1 H2 H3. split_and!.
  - intros n Hn. apply elem_of_list_In, H1 in Hn. by apply bool_decide_eq_true in Hn.
  - intros l s Ho. apply occurs_computed, elem_of_list_In, H2 in Ho. by apply bool_decide_eq_true in Ho.
  - intros n r Hr. apply elem_of_list_In, H3 in Hr. destruct r as [|a r]; [done|]. apply andb_prop in Hr as [Ha Hb].
    apply bool_decide_eq_true in Ha as ->. destruct (last r) as [b|] eqn:E; [|done]. apply bool_decide_eq_true in Hb as ->.
    apply last_Some in E as [body ->]. by exists body.
Qed.

Lemma ll1_computed r : loaded r = true ->
  match build_table 1000 (elements (productions (grammar_of r))) (grammar_of r) with Ret (_, []) => true | _ => false end = true ->
  ll1 (productions (grammar_of r)).
Proof.
  intros Hl Ht. destruct (build_table _ _ _) as [[tab [|]]| |] eqn:E; try done.
  refine (proj1 (proj1 (c29_warnings (grammar_of r) _ _ _ _ _ _ E)) eq_refl); [unfold iteration_order; reflexivity|].
  exact (proj1 (c43_closed _ _ _ (loaded_ret _ Hl))).
Qed.

Lemma c31_refuted : exists G1 r1 g1 d1 G2 r2 g2 d2,
  grammar_tree G1 r1 /\ grammar_tree G2 r2 /\ load_tree r1 = Ret (g1, d1) /\ load_tree r2 = Ret (g2, d2) /\
  G1 = g31_plus /\ G2 = g31_star /\
  (forall w, matches_atom G1 (RuleRef (lit "s")) w <-> matches_atom G2 (RuleRef (lit "s")) w) /\
  ll1 (productions g2) /\ ~ ll1 (productions g1).
Proof.
  exists g31_plus, (build_grammar g31_plus), (grammar_of (build_grammar g31_plus)), (rules_of (build_grammar g31_plus)).
  exists g31_star, (build_grammar g31_star), (grammar_of (build_grammar g31_star)), (rules_of (build_grammar g31_star)).
  assert (load_tree (build_grammar g31_plus) = Ret (grammar_of (build_grammar g31_plus), rules_of (build_grammar g31_plus))) as L1 by (apply loaded_ret; by vm_compute).
  assert (grammar_tree g31_plus (build_grammar g31_plus)) as T1 by (apply build_grammar_tree; done).
  assert (loaded (build_grammar g31_star) = true) as L2 by (by vm_compute).
  split_and!; [done|by apply build_grammar_tree|done|by apply loaded_ret|done|done|apply g31_same|apply ll1_computed; [done|by vm_compute]|].
  refine (c31_conflict _ _ _ _ (TokenRef (lit "A")) false (lit "A") [] T1 _ L1 _ _ _).
  - apply proper_computed; by vm_compute.
  - intros k b n t Ho. apply occurs_computed in Ho. change (occurring g31_plus) with [Element (TokenRef (lit "A")) (Some (Plus, false))] in Ho.
    apply elem_of_list_singleton in Ho as [= -> -> ->]. intros _. split.
    + intros m b' Ho. apply occurs_computed in Ho. change (occurring g31_plus) with [Element (TokenRef (lit "A")) (Some (Plus, false))] in Ho.
      by apply elem_of_list_singleton in Ho.
    + intros alts b' Ho. apply occurs_computed in Ho. change (occurring g31_plus) with [Element (TokenRef (lit "A")) (Some (Plus, false))] in Ho.
      by apply elem_of_list_singleton in Ho.
  - eexists _, _, _. split; [apply elem_of_list_here|]. split; [apply elem_of_list_here|]. econstructor; [apply elem_of_list_here|constructor].
  - constructor.
Qed.

(** a: X* c*;  b: X;  c: Y;  X: /x/;  Y: /y/; *)
Definition g41 : list rule :=
  [ParserRule (lit "a") [Sequence [Element (TokenRef (lit "X")) (Some (Star, false)); Element (RuleRef (lit "c")) (Some (Star, false))]];
   ParserRule (lit "b") [Sequence [Element (TokenRef (lit "X")) None]];
   ParserRule (lit "c") [Sequence [Element (TokenRef (lit "Y")) None]];
   LexerRule (lit "X") (lit "/x/"); LexerRule (lit "Y") (lit "/y/")].
Lemma c41_refuted : exists G r g data name id w,
  grammar_tree G r /\ proper G /\ references_defined G /\ load_tree r = Ret (g, data) /\
  get_nonterminal_id_by_name (g_vocabulary g) name = Some id /\
  (exists names, Forall2 (fun n i => get_terminal_id_by_name (g_vocabulary g) n = Some i) names w /\ matches_atom G (RuleRef name) names) /\
  ~ derives (productions g) [NT id] (map T w).
Proof.
  assert (loaded (build_grammar g41) = true) as L by (by vm_compute).
  assert (grammar_tree g41 (build_grammar g41)) as Ht by (by apply build_grammar_tree).
  assert (proper g41) as Hp by (apply proper_computed; by vm_compute).
  exists g41, (build_grammar g41), (grammar_of (build_grammar g41)), (rules_of (build_grammar g41)), (lit "a"), 0, [3].
  pose proof (loaded_ret _ L) as Hl.
  split; [exact Ht|]. split; [exact Hp|]. split; [apply (c42 _ _ Ht Hp); eexists; exact Hl|]. split; [exact Hl|].
  split; [vm_compute; reflexivity|]. clear Hl L Ht Hp. split.
  - exists [lit "Y"]. split; [constructor; [vm_compute; reflexivity|constructor]|]. eapply matches_rule; [apply elem_of_list_here|apply elem_of_list_here|].
    constructor. apply (matches_cons _ _ _ [] [lit "Y"]); [constructor|]. apply (matches_cons _ _ _ [lit "Y"] []); [|constructor].
    apply (matches_star_cons _ _ _ [lit "Y"] []); [|constructor].
    eapply matches_rule; [do 2 apply elem_of_list_further; apply elem_of_list_here|apply elem_of_list_here|]. constructor.
    apply (matches_cons _ _ _ [lit "Y"] []); [|constructor]. repeat constructor.
  - assert (forallb (fun p => negb ((left p =? 0) || (left p =? 3)) || forallb (fun it => bool_decide (it = NT 3) || bool_decide (it = T 2)) (right p))
      (elements (productions (grammar_of (build_grammar g41)))) = true) as HP by (by vm_compute).
    generalize dependent (productions (grammar_of (build_grammar g41))). intros P HP Hd. rewrite forallb_forall in HP.
    assert (forall α β, derives P α β -> (forall it, it ∈ α -> it ∈ [NT 0; NT 3; T 2]) -> forall it, it ∈ β -> it ∈ [NT 0; NT 3; T 2]) as K.
    { clear Hd. induction 1 as [|α β γ Hs _ IH]; [done|]. intros Hα. apply IH. destruct Hs as [a p b Hin].
      assert (NT (left p) ∈ [NT 0; NT 3; T 2]) as Hl by (apply Hα; set_solver).
      specialize (HP p). rewrite <- elem_of_list_In, elem_of_elements in HP. specialize (HP Hin).
      intros it. rewrite !elem_of_app. intros [?|[Hr|?]]; [apply Hα; set_solver| |apply Hα; set_solver].
      assert ((left p =? 0) || (left p =? 3) = true) as E.
      { rewrite !elem_of_cons in Hl. destruct Hl as [[= ->]|[[= ->]|[?|?%elem_of_nil]]]; done. }
      rewrite E in HP. simpl in HP. rewrite forallb_forall in HP. apply elem_of_list_In, HP in Hr.
      apply orb_prop in Hr as [Hr|Hr]; apply bool_decide_eq_true in Hr as ->; set_solver. }
    specialize (K _ _ Hd). assert (T 3 ∈ [NT 0; NT 3; T 2]) as Hbad.
    { apply K; [intros it ->%elem_of_list_singleton; apply elem_of_list_here|apply elem_of_list_here]. }
    rewrite !elem_of_cons in Hbad. destruct Hbad as [?|[?|[?|?%elem_of_nil]]]; done.
Qed.

(** For the examples. *)
Lemma ex_grammar_tree : grammar_tree ex_grammar ex_tree.
Proof. by apply build_grammar_tree. Qed.
Lemma ex_proper : proper ex_grammar.
Proof. apply proper_computed; by vm_compute. Qed.
Lemma ex_loaded : load_tree ex_tree = Ret (grammar_of ex_tree, rules_of ex_tree).
Proof. apply loaded_ret. by vm_compute. Qed.
Lemma no_collision_computed v G :
  forallb (fun x => match x with
    | Element (TokenRef n) (Some (k, _)) =>
        match get_terminal_id_by_name v n with
        | Some t => forallb (fun y => match y with
            | Element (RuleRef m) (Some (k', _)) => negb (suffix_type k =? suffix_type k') || bool_decide (get_nonterminal_id_by_name v m <> Some t)
            | Element (Group _) (Some (k', _)) => negb (suffix_type k =? suffix_type k') || negb (is_nonterminal_id v t) || bool_decide (is_Some (get_nonterminal_name_by_id v t))
            | _ => true end) (occurring G)
        | None => true
        end
    | _ => true end) (occurring G) = true -> no_collision v G.
Proof.
  rewrite forallb_forall. intros H k b n t Ho Ht. apply occurs_computed, elem_of_list_In, H in Ho. rewrite Ht, forallb_forall in Ho. split.
  - intros m b' Hm. apply occurs_computed, elem_of_list_In, Ho in Hm. rewrite Nat.eqb_refl in Hm. simpl in Hm. by apply bool_decide_eq_true in Hm.
  - intros alts b' Hm Hn. apply occurs_computed, elem_of_list_In, Ho in Hm. rewrite Nat.eqb_refl, Hn in Hm. simpl in Hm. by apply bool_decide_eq_true in Hm.
Qed.
Lemma ex_no_collision : no_collision (g_vocabulary (grammar_of ex_tree)) ex_grammar.
Proof. apply no_collision_computed. by vm_compute. Qed.
