(** BootstrapProofs.v -- C45: trees of the generated parser and the visitors. *)
From Verif Require Export ShippedMain V1Context Generate.

Lemma hand_type_inj a b : hand_type a = hand_type b -> a = b.
Proof.
  assert (forall n, n < 15 \/ hand_type n = 100 + n) as K.
  { intros n. do 15 (destruct n as [|n]; [left; lia|]). by right. }
  assert (forall n, n < 15 -> hand_type n = 100 + n \/ hand_type n < 30) as K'.
  { intros n Hn. do 15 (destruct n as [|n]; [first [left; reflexivity|right; apply Nat.ltb_lt; reflexivity]|]). lia. }
  intros H. destruct (K a) as [Ha|Ha], (K b) as [Hb|Hb].
  - do 15 (destruct a as [|a]; [do 15 (destruct b as [|b]; [first [reflexivity|discriminate H]|]); lia|]). lia.
  - destruct (K' a Ha); lia.
  - destruct (K' b Hb); lia.
  - lia.
Qed.

Section retype.
  Context (f : nat -> nat) (Hf : forall a b, f a = f b -> a = b).
  Lemma children_retype r : children (retype_rule f r) = map (retype_ast f) (children r).
  Proof. by destruct r. Qed.
  Lemma index_retype r : rule_index (retype_rule f r) = rule_index r.
  Proof. by destruct r. Qed.
  Lemma terminals_retype r ty : get_terminals (retype_rule f r) (f ty) = map (retype f) (get_terminals r ty).
  Proof.
    rewrite !get_terminals_omap, children_retype. induction (children r) as [|[t|c|t] cs IH]; [done|..]; cbn; [|done..].
    destruct (Nat.eqb_spec (token_type t) ty) as [->|Hne].
    - rewrite Nat.eqb_refl. cbn. f_equal. exact IH.
    - destruct (Nat.eqb_spec (f (token_type t)) (f ty)) as [E|_]; [by apply Hf in E|]. exact IH.
  Qed.
  Lemma terminal_retype r ty : get_terminal (retype_rule f r) (f ty) 0 = option_map (retype f) (get_terminal r ty 0).
  Proof. unfold get_terminal. rewrite terminals_retype. by destruct (get_terminals r ty). Qed.
  Lemma rule_contexts_retype r i : get_rule_contexts (retype_rule f r) i = map (retype_rule f) (get_rule_contexts r i).
  Proof.
    rewrite !get_rule_contexts_omap, children_retype. induction (children r) as [|[t|c|t] cs IH]; [done|..]; cbn; [done| |done].
    rewrite index_retype. destruct (_ =? _); cbn; [f_equal|]; exact IH.
  Qed.
  Lemma rule_context_retype r i : get_rule_context (retype_rule f r) i 0 = option_map (retype_rule f) (get_rule_context r i 0).
  Proof. unfold get_rule_context. rewrite rule_contexts_retype. by destruct (get_rule_contexts r i). Qed.
End retype.

(** The accessors of v1/syntaxis_context.rs see what the hand-written ones see on the renumbered tree. *)
Lemma c45_accessors r : let r' := retype_rule hand_type r in
  let tok := option_map (retype hand_type) in let toks := map (retype hand_type) in
  let ctx := option_map (retype_rule hand_type) in let ctxs := map (retype_rule hand_type) in
  parser_rule_list r' = ctxs (v1_parser_rule_list r) /\ lexer_rule_list r' = ctxs (v1_lexer_rule_list r) /\
  parser_rule_rule_ref r' = tok (v1_parser_rule_rule_ref r) /\ ctx_colon r' = tok (v1_parser_rule_colon r) /\
  parser_rule_block r' = ctx (v1_parser_rule_block r) /\ ctx_semi r' = tok (v1_parser_rule_semi r) /\
  lexer_rule_token_ref r' = tok (v1_lexer_rule_token_ref r) /\ ctx_colon r' = tok (v1_lexer_rule_colon r) /\
  ctx_semi r' = tok (v1_lexer_rule_semi r) /\ lexer_rule_regular r' = ctx (v1_lexer_rule_regular r) /\
  alternative_list r' = ctxs (v1_alternative_list r) /\ or_list r' = toks (v1_or_list r) /\
  element_list r' = ctxs (v1_element_list r) /\ alternative_epsilon r' = ctx (v1_alternative_epsilon r) /\
  epsilon_epsilon r' = tok (v1_epsilon_epsilon r) /\
  element_token_ref r' = tok (v1_element_token_ref r) /\ element_string_literal r' = tok (v1_element_string_literal r) /\
  element_rule_ref r' = tok (v1_element_rule_ref r) /\ element_lparen r' = tok (v1_element_lparen r) /\
  element_rparen r' = tok (v1_element_rparen r) /\ element_block r' = ctx (v1_element_block r) /\
  element_ebnf_suffix r' = ctx (v1_element_ebnf_suffix r) /\
  suffix_star r' = tok (v1_suffix_star r) /\ suffix_plus r' = tok (v1_suffix_plus r) /\
  question_list r' = toks (v1_question_list r) /\
  regular_regular_literal r' = tok (v1_regular_regular_literal r).
Proof.
  cbv zeta. pose proof (terminal_retype hand_type hand_type_inj r) as Ht. pose proof (terminals_retype hand_type hand_type_inj r) as Hts.
  pose proof (rule_context_retype hand_type r) as Hr. pose proof (rule_contexts_retype hand_type r) as Hrs.
  repeat split; first [exact (Ht _)|exact (Hts _)|exact (Hr _)|exact (Hrs _)
    |exact (Ht 2)|exact (Ht 3)|exact (Ht 4)|exact (Ht 5)|exact (Ht 7)|exact (Ht 8)|exact (Ht 9)|exact (Ht 11)|exact (Ht 12)|exact (Ht 13)|exact (Ht 14)
    |exact (Hts 6)|exact (Hts 10)].
Qed.

(** The visitors that load a grammar, on the tree as it is: panic on the first rule. *)
Lemma literal_not_fuel r s : visit_children literal_visitor r s <> OutOfFuel.
Proof.
  rewrite literal_fold.
  assert (forall l s, rfold (fun s r => let! (_, s') := literal_visit_element r s in Ret s') l s <> OutOfFuel) as K.
  { clear. induction l as [|n l IH]; intros s; [done|]. cbn [rfold]. unfold literal_visit_element. destruct (element_string_literal n); cbn [rbind]; [done|apply IH]. }
  specialize (K (outermost_below (fun i => i =? ELEMENT) r) s). by destruct (rfold _ _ _).
Qed.

Lemma v1_rule_panics g c : rule_tree g (retype_rule hand_type c) ->
  (rule_index c = PARSER_RULE /\ parser_rule_rule_ref c = None) \/ (rule_index c = LEXER_RULE /\ lexer_rule_token_ref c = None).
Proof.
  intros H. pose proof (index_retype hand_type c) as Hi.
  assert (forall ty, get_terminal (retype_rule hand_type c) (hand_type ty) 0 = None -> get_terminal c ty 0 = None) as K.
  { intros ty. rewrite (terminal_retype hand_type hand_type_inj). by destruct (get_terminal c ty 0). }
  inversion H as [name alts n a co b s Ha Hc Hb Hs Eg Er|name regex n m a co r s Ha Hc Hr Hs Eg Er].
  - left. rewrite <- Hi, <- Er. split; [done|]. unfold parser_rule_rule_ref. apply (K 7). rewrite <- Er.
    destruct Ha as (? & -> & Ha & _), Hc as (? & -> & Hc), Hs as (? & -> & Hs). rewrite get_terminal_head. cbn [children omap list_omap terminal_of].
    by rewrite Ha, Hc, Hs.
  - right. rewrite <- Hi, <- Er. split; [done|]. unfold lexer_rule_token_ref. apply (K 6). rewrite <- Er.
    destruct Ha as (? & -> & Ha & _), Hc as (? & -> & Hc), Hs as (? & -> & Hs). rewrite get_terminal_head. cbn [children omap list_omap terminal_of].
    by rewrite Ha, Hc, Hs.
Qed.

Lemma c45_panics G r : grammar_tree G (retype_rule hand_type r) -> G <> [] -> load_tree r = Panic.
Proof.
  intros (n & cs & Hr & HF) Hne. destruct r as [n' cs' i]. cbn [retype_rule] in Hr. injection Hr as -> Hcs ->.
  destruct HF as [|g c G cs Hg _]; [done|]. cbn [map] in Hcs. destruct cs' as [|[t|c'|t] cs']; cbn [map retype_ast] in Hcs; try discriminate Hcs.
  injection Hcs as Hc _. subst c. unfold load_tree.
  destruct (visit_children literal_visitor _ _) as [[x s1]| |] eqn:E; cbn [rbind]; [|done|by apply literal_not_fuel in E]. clear E.
  assert (forall s, visit_children symbol_visitor (RuleCtx n (Rule c' :: cs') RULE_LIST) s = Panic) as ->; [|done].
  intros s. unfold visit_children. cbn [v_default_result symbol_visitor rbind children visit_loop].
  destruct (v1_rule_panics _ _ Hg) as [[Hi Hn]|[Hi Hn]]; destruct c' as [m ccs k]; cbn [rule_index] in Hi; subst k.
  - cbn. unfold symbol_visit_parser_rule. by rewrite Hn.
  - cbn. unfold symbol_visit_lexer_rule. by rewrite Hn.
Qed.

Lemma c45_main_panics nd g d order fuel s r w rest :
  digits_ok nd -> load_ast syntaxis2_json = Ret (g, d) -> iteration_order g order ->
  main_run nd order fuel syntaxis2_json s = Ret (r, w, rest, []) -> children r <> [] -> load_tree r = Panic.
Proof.
  intros Hnd Hl Ho Hr Hne.
  destruct (c44_sound _ _ _ _ _ _ _ _ _ Hnd Hl Ho Hr) as (_ & _ & G & ts & _ & _ & HT).
  apply (c45_panics G); [exact HT|]. intros ->. destruct HT as (n & cs & E & HF). inversion HF; subst.
  apply (f_equal children) in E. rewrite children_retype in E. cbn [children map] in E. destruct (children r); [exact (False_ind _ (Hne eq_refl))|discriminate E].
Qed.

(** The committed lexer is the one generated from the shipped grammar. *)
Lemma c50 g d nd input : load_ast syntaxis2_json = Ret (g, d) ->
  generated_constants d = v1_constants /\ map ld_regex d = v1_regexes /\ lexer_new nd (map ld_regex d) (lit "_START" :: lit "_STOP" :: map ld_name d) input = v1_lexer nd input.
Proof.
  intros Hl. rewrite shipped_load in Hl.
  assert (rules_of shipped_tree = d) as <- by (exact (f_equal (fun x : res (grammar * list lexer_rule_data) => match x with Ret (_, d) => d | _ => rules_of shipped_tree end) Hl)).
  clear Hl. assert (map ld_regex (rules_of shipped_tree) = v1_regexes) as E by (vm_compute; reflexivity).
  split; [vm_compute; reflexivity|]. split; [exact E|]. unfold v1_lexer. rewrite E.
  assert (lit "_START" :: lit "_STOP" :: map ld_name (rules_of shipped_tree) = v1_names) as -> by (vm_compute; reflexivity). reflexivity.
Qed.

(** Grammars written in the grammar language are proper. *)
Lemma written_admissible ts s : written ts s -> Forall (fun t => admissible (fst t) (snd t)) ts.
Proof. induction 1; [constructor|]. by constructor. Qed.

Definition ok_tokens (ts : list (nat * str)) : Prop := Forall (fun t => admissible (fst t) (snd t)) ts.
Lemma rule_names G ts r : grammar_tokens G ts -> ok_tokens ts -> r ∈ G -> exists ts', rule_tokens r ts' /\ ok_tokens ts'.
Proof.
  intros (tss & HF & ->) Hok Hr. induction HF as [|g ts G tss Hg _ IH]; [by apply elem_of_nil in Hr|].
  cbn [concat] in Hok. apply Forall_app in Hok as [H1 H2]. apply elem_of_cons in Hr as [->|Hr]; [by exists ts|]. by apply IH.
Qed.

Lemma literal_written l s0 :
  (forall e ts, element_tokens e ts -> ok_tokens ts -> within_element (Element (StringLiteral l) s0) e -> admissible 13 l) /\
  (forall a ts, atom_tokens a ts -> ok_tokens ts -> forall s, within_element (Element (StringLiteral l) s0) (Element a s) -> admissible 13 l) /\
  (forall alts ts, alternatives_tokens alts ts -> ok_tokens ts -> forall a, a ∈ alts -> within_alternative (Element (StringLiteral l) s0) a -> admissible 13 l) /\
  (forall a ts, alternative_tokens a ts -> ok_tokens ts -> within_alternative (Element (StringLiteral l) s0) a -> admissible 13 l) /\
  (forall es ts, elements_tokens es ts -> ok_tokens ts -> forall e, e ∈ es -> within_element (Element (StringLiteral l) s0) e -> admissible 13 l).
Proof.
  apply tokens_mut.
  - intros a s ts ss _ IH _ [H1 _]%Forall_app Hw. by eapply IH.
  - intros n _ s H. by inversion H.
  - intros l' Hok s H. apply Forall_cons in Hok as [Hok _]. inversion H as [|alts alt e s' Ha Hw E]; subst; [exact Hok|done].
  - intros n _ s H. by inversion H.
  - intros alts x ts y _ IH Hok s H. apply Forall_cons in Hok as [_ Hok]. apply Forall_app in Hok as [Hok _].
    inversion H as [E|alts' alt e s' Ha Hw E]; subst. injection E as -> ->. by eapply IH.
  - intros a ts _ IH Hok a' ->%elem_of_list_singleton. by apply IH.
  - intros a ts x alts ts' _ IH1 _ IH2 Hok a' Ha. apply Forall_app in Hok as [H1 H2]. apply Forall_cons in H2 as [_ H2].
    apply elem_of_cons in Ha as [->|Ha]; [by apply IH1|]. by eapply IH2.
  - intros x _ H. inversion H.
  - intros es ts _ IH Hok H. inversion H as [es' e He Hw]; subst. by eapply IH.
  - intros e ts _ IH Hok e' ->%elem_of_list_singleton. by apply IH.
  - intros e ts es ts' _ IH1 _ IH2 Hok e' He. apply Forall_app in Hok as [H1 H2].
    apply elem_of_cons in He as [->|He]; [by apply IH1|]. by eapply IH2.
Qed.

Lemma written_proper G ts s : grammar_tokens G ts -> written ts s -> proper G.
Proof.
  intros HG Hw. apply written_admissible in Hw. fold (ok_tokens ts) in Hw.
  assert (forall n alts, ParserRule n alts ∈ G -> admissible 2 n) as Hpn.
  { intros n alts Hr. destruct (rule_names _ _ _ HG Hw Hr) as (ts' & Ht & Hok). inversion Ht; subst. by apply Forall_cons in Hok as [? _]. }
  assert (forall n r, LexerRule n r ∈ G -> admissible 3 n /\ admissible 14 r) as Hln.
  { intros n r Hr. destruct (rule_names _ _ _ HG Hw Hr) as (ts' & Ht & Hok). inversion Ht; subst.
    apply Forall_cons in Hok as [? Hok]. apply Forall_cons in Hok as [_ Hok]. by apply Forall_cons in Hok as [? _]. }
  assert (forall n, n ∈ terminal_names G -> exists c x, n = c :: x /\ (c = 95%N \/ upper c)) as Htn.
  { intros n Hn. unfold terminal_names in Hn. rewrite !elem_of_cons in Hn. destruct Hn as [->|[->|Hn]]; [eexists _, _; split; [reflexivity|by left]..|].
    unfold lexer_rule_names in Hn. apply elem_of_list_omap in Hn as ([m alts|m r] & Hr & E); [done|]. injection E as ->.
    apply Hln in Hr as [(c & w & -> & Hc & _) _]. eexists _, _. split; [reflexivity|by right]. }
  split_and!.
  - intros n Hn Hn'. unfold parser_rule_names in Hn. apply elem_of_list_omap in Hn as ([m alts|m r] & Hr & E); [|done]. injection E as ->.
    apply Hpn in Hr as (c & w & -> & Hc & _). apply Htn in Hn' as (c' & x & [= <- _] & Hc'). unfold lower, upper in *. lia.
  - intros l s0 (name & alts & alt & Hr & Ha & Hwi) Hl. destruct (rule_names _ _ _ HG Hw Hr) as (ts' & Ht & Hok). inversion Ht as [? ? x ts0 y Hat|]; subst.
    apply Forall_cons in Hok as [_ Hok]. apply Forall_cons in Hok as [_ Hok]. apply Forall_app in Hok as [Hok _].
    destruct (literal_written l s0) as (_ & _ & K & _). specialize (K _ _ Hat Hok _ Ha Hwi) as (us & -> & _).
    apply Htn in Hl as (c' & z & [= <- _] & Hc'). unfold upper in *. lia.
  - intros n r Hr. apply Hln in Hr as [_ (us & -> & _)]. by exists (concat us).
Qed.

Lemma c45_renumbered G ts s r : grammar_tokens G ts -> written ts s -> grammar_tree G (retype_rule hand_type r) ->
  (exists out, load_tree (retype_rule hand_type r) = Ret out) <-> references_defined G.
Proof. intros HG Hw Ht. apply c42; [done|]. by eapply written_proper. Qed.

(** *** Concrete cases *)
Definition shipped_order : list production := elements (productions shipped).
Lemma shipped_order_ok : iteration_order shipped shipped_order.
Proof. unfold iteration_order, shipped_order. reflexivity. Qed.
Definition runs_to (f : rule_ctx -> bool) (s : str) : bool :=
  match main_run ascii_digit shipped_order 3000 syntaxis2_json s with Ret (r, [], None, []) => f r | _ => false end.
Lemma runs_to_ret f s : runs_to f s = true ->
  exists r, main_run ascii_digit shipped_order 3000 syntaxis2_json s = Ret (r, [], None, []) /\ f r = true.
Proof.
  unfold runs_to. destruct (main_run _ _ _ _ _) as [[[[r [|]] [|]] [|]]| |]; intros H; try discriminate H. by exists r.
Qed.
Lemma main_runs : exists r, main_run ascii_digit shipped_order 3000 syntaxis2_json main_input = Ret (r, [], None, []) /\
  (length (children r) =? 23) = true.
Proof. apply (runs_to_ret (fun r => length (children r) =? 23)). vm_compute. reflexivity. Qed.

Lemma c45_refuted : exists nd g d order fuel s r,
  digits_ok nd /\ load_ast syntaxis2_json = Ret (g, d) /\ iteration_order g order /\
  main_run nd order fuel syntaxis2_json s = Ret (r, [], None, []) /\ load_tree r = Panic.
Proof.
  destruct main_runs as (r & Hr & Hn).
  exists ascii_digit, shipped, (rules_of shipped_tree), shipped_order, 3000, main_input, r.
  split; [exact ascii_digit_ok|]. split; [exact shipped_load|]. split; [exact shipped_order_ok|]. split; [exact Hr|].
  destruct (c44_sound _ _ _ _ _ _ _ _ _ ascii_digit_ok shipped_load shipped_order_ok Hr) as (_ & _ & G & ts & _ & _ & HT).
  apply (c45_panics G); [exact HT|]. intros ->. destruct HT as (n & cs & E & HF). inversion HF; subst.
  apply (f_equal children) in E. rewrite children_retype in E. cbn [children map] in E. destruct (children r); [discriminate Hn|discriminate E].
Qed.

(** The renumbered tree of main's own text loads, but (because of its [element+], C31) the grammar it gives is not LL(1). *)
Lemma main_not_ll1 : exists r, main_run ascii_digit shipped_order 3000 syntaxis2_json main_input = Ret (r, [], None, []) /\
  exists g d, load_tree (retype_rule hand_type r) = Ret (g, d) /\ ~ ll1 (productions g).
Proof.
  assert (runs_to (fun r => match load_tree (retype_rule hand_type r) with
    Ret (g, d) => match build_table 1000 (elements (productions g)) g with Ret (_, _ :: _) => true | _ => false end | _ => false end) main_input = true)
    as H by (vm_compute; reflexivity).
  apply runs_to_ret in H as (r & Hr & H). exists r. split; [exact Hr|]. destruct (load_tree _) as [[g d]| |] eqn:El; [|discriminate H..].
  exists g, d. split; [reflexivity|]. destruct (build_table _ _ g) as [[tab [|w ws]]| |] eqn:Et; try discriminate H.
  intros Hll. apply (c29_warnings g (elements (productions g)) 1000 tab (w :: ws)) in Hll; [discriminate Hll| |exact (proj1 (c43_closed _ _ _ El))|exact Et].
  unfold iteration_order. reflexivity.
Qed.

(** A grammar and a text writing it. *)
Definition ex_shipped_grammar : list rule :=
  [ParserRule (lit "ab") [Sequence [Element (TokenRef (lit "Cd")) (Some (Star, true))];
                          Sequence [Element (StringLiteral (lit "'x\n'")) None; Element (Group [Epsilon]) (Some (Question, false))]];
   LexerRule (lit "Cd") (lit "/a\/b/")].
Definition ex_shipped_tokens : list (nat * str) :=
  [(2, lit "ab"); (4, lit "::="); (3, lit "Cd"); (8, lit "*"); (10, lit "?"); (6, lit "|"); (13, lit "'x\n'"); (11, lit "(");
   (7, [949%N]); (12, lit ")"); (10, lit "?"); (5, lit ";"); (3, lit "Cd"); (4, lit ":"); (14, lit "/a\/b/"); (5, lit ";")].
Definition ex_shipped_text : str := lit "ab ::=Cd*?|'x\n'(" ++ [949%N] ++ lit ")?; Cd:/a\/b/ ; ".
Lemma ex_shipped_grammar_tokens : grammar_tokens ex_shipped_grammar ex_shipped_tokens.
Proof.
  exists [take 12 ex_shipped_tokens; drop 12 ex_shipped_tokens]. split; [|reflexivity].
  constructor; [|constructor; [|constructor]].
  - refine (rule_tokens_parser (lit "ab") _ (lit "::=") (take 9 (drop 2 ex_shipped_tokens)) (lit ";") _).
    refine (alternatives_tokens_more _ [(3, lit "Cd"); (8, lit "*"); (10, lit "?")] (lit "|") _ (take 5 (drop 6 ex_shipped_tokens)) _ _).
    + do 2 constructor. refine (element_tokens_intro _ _ [(3, lit "Cd")] [(8, lit "*"); (10, lit "?")] _ _); [constructor|].
      exact (suffix_tokens_lazy Star (lit "*") (lit "?")).
    + do 2 constructor. refine (elements_tokens_more _ [(13, lit "'x\n'")] _ [(11, lit "("); (7, [949%N]); (12, lit ")"); (10, lit "?")] _ _).
      * refine (element_tokens_intro _ _ [(13, lit "'x\n'")] [] _ _); constructor.
      * constructor. refine (element_tokens_intro _ _ [(11, lit "("); (7, [949%N]); (12, lit ")")] [(10, lit "?")] _ _).
        -- refine (atom_tokens_group _ (lit "(") [(7, [949%N])] (lit ")") _). do 2 constructor.
        -- exact (suffix_tokens_greedy Question (lit "?")).
  - exact (rule_tokens_lexer (lit "Cd") (lit "/a\/b/") (lit ":") (lit ";")).
Qed.
Lemma ex_shipped_written : written ex_shipped_tokens ex_shipped_text.
Proof.
  destruct (c13_all ascii_digit ex_shipped_text 100 ascii_digit_ok) as (c & Hc & Hiff & _); [apply Nat.leb_le; vm_compute; reflexivity|].
  rewrite v1_new in Hc. injection Hc as <-. apply Hiff. clear Hiff.
  assert (match scan_all (LexerCfg ex_shipped_text (map (find_at0 ascii_digit) v1_res) v1_names) 15 0 100 lexer_init with
    | Ret (toks, None) => match last toks with
        | Some s => bool_decide (token_type s = 1 /\ token_name s = lit "_STOP") &&
                    bool_decide (map (fun t => (token_type t, text t)) (removelast toks) = ex_shipped_tokens)
        | None => false end
    | _ => false end = true) as H by (vm_compute; reflexivity).
  destruct (scan_all _ 15 0 100 lexer_init) as [[toks [|]]| |]; try discriminate H.
  destruct (last toks) as [s|] eqn:E; [|discriminate H]. apply andb_prop in H as [H1 H2].
  apply bool_decide_eq_true in H1. apply bool_decide_eq_true in H2. apply last_Some in E as [l ->].
  rewrite removelast_last in H2. exists l, s. split; [reflexivity|]. split; [exact H1|exact H2].
Qed.
