(** ChainEvery.v -- C85 for every grammar that loads, whatever operands share a number. *)
From Verif Require Export ChainText EbnfClashMain.

Lemma tokens_apart_no_collision v G : tokens_apart G -> no_collision v G.
Proof.
  intros Hta k b n t Ho _. split.
  - intros m b' Ho'. destruct (Hta k b b' n _ Ho Ho') as [? ?]. done.
  - intros alts b' Ho'. destruct (Hta k b b' n _ Ho Ho') as [? ?]. done.
Qed.
Lemma chain_table order g data r : load_tree r = Ret (g, data) -> iteration_order g order -> ll1 (productions g) -> 0 ∈ nonterminals (g_vocabulary g) ->
  exists n tab, forall fuel, n <= fuel -> build_table fuel order g = Ret (tab, []).
Proof.
  intros Hload Ho Hll H0. destruct (c43_closed r g data Hload) as (Hcl & _).
  destruct (build_table_returns (table_fuel g) order g Ho Hcl H0 ltac:(lia)) as (tab & w & Et).
  exists (table_fuel g), tab. intros fuel Hf. destruct (build_table_returns fuel order g Ho Hcl H0 Hf) as (tab' & w' & Et').
  destruct (build_table_order_indep _ _ _ _ _ _ _ _ _ Ho Ho Hcl Hll Et Et') as (-> & _ & ->). done.
Qed.

Lemma c85_reports_every compile G r g data rules order ws s fuel t w rest mm :
  grammar_tree G r -> proper G -> load_tree r = Ret (g, data) ->
  iteration_order g order -> engine_ok compile -> compiled compile G rules -> (lit "WHITE_SPACE", ws) ∈ generated_constants data ->
  chain_run compile order fuel g data ws s = Ret (t, w, rest, mm) ->
  (w = [] <-> ll1 (productions g)) /\ (rest = None <-> exists ts, tokenized rules s ts).
Proof.
  intros Ht Hp Hload Ho He Hc Hws H.
  rewrite (compiled_data _ _ _ _ _ _ Ht Hp Hload Hc). clear rules Hc.
  destruct (c43_closed r g data Hload) as (Hcl & _).
  unfold chain_run in H. destruct (build_table fuel order g) as [[tab w']| |] eqn:Et; cbn [rbind] in H; [|done..].
  destruct (scan_all _ _ _ _ _) as [[toks printed]| |] eqn:Es; cbn [rbind] in H; [|done..].
  destruct (parse _ _ _ _) as [[r' mm']| |]; cbn [rbind] in H; [|done..]. injection H as -> <- <- <-.
  destruct (build_table_spec _ _ _ _ _ Ho Hcl Et) as (_ & _ & Hw & _). split; [exact Hw|].
  apply (scan_all_mono _ _ _ fuel (fuel `max` (length s + 2))) in Es; [|lia].
  destruct (scan_generated compile r g data s ws (fuel `max` (length s + 2)) He Hload Hws ltac:(lia)) as (toks' & printed' & E & K1 & _).
  rewrite Es in E. injection E as <- <-. exact K1.
Qed.

Lemma c85_every compile G r g data name rules order ws s :
  grammar_tree G r -> proper G -> load_tree r = Ret (g, data) -> head (parser_rule_names G) = Some name ->
  iteration_order g order -> engine_ok compile -> compiled compile G rules -> (lit "WHITE_SPACE", ws) ∈ generated_constants data ->
  ll1 (productions g) ->
  exists number : atom -> nat,
    (forall n t, get_terminal_id_by_name (g_vocabulary g) n = Some t -> number (TokenRef n) = t) /\
    (forall n i, get_nonterminal_id_by_name (g_vocabulary g) n = Some i -> number (RuleRef n) = i) /\
    (forall alts sx, occurs (Element (Group alts) sx) G ->
       is_nonterminal_id (g_vocabulary g) (number (Group alts)) = true /\
       get_nonterminal_name_by_id (g_vocabulary g) (number (Group alts)) = None) /\
    forall ts, tokenized rules s ts ->
      (exists t n, (forall fuel, n <= fuel -> chain_run compile order fuel g data ws s = Ret (t, [], None, [])) /\
         rule_name t = name /\ map (fun t => (token_name t, text t)) (rule_leaves t) = visible ts) <->
      reads_atom G (first_operand number G) (RuleRef name) (map fst (visible ts)).
Proof.
  intros Ht Hp Hload Hh Ho He Hc Hws Hll. pose proof (first_rule _ _ _ _ _ Ht Hp Hload Hh) as Hname.
  rewrite (compiled_data _ _ _ _ _ _ Ht Hp Hload Hc). clear rules Hc. set (rules := map (fun d => (ld_name d, compile (ld_regex d))) data).
  destruct (c43_closed r g data Hload) as (Hcl & _).
  assert (Hv : vinv (g_vocabulary g)).
  { destruct (load_tree_inv _ _ _ Hload) as (s2 & s3 & _ & _ & _ & Ev & _ & Hpi & _). destruct (pi_ops _ _ _ Hpi) as [ops Hops]. rewrite Ev, Hops. apply vinv_reach. }
  assert (0 ∈ nonterminals (g_vocabulary g)) as H0.
  { apply (vi_nd _ Hv). exists name. apply (vi_n _ Hv). exact Hname. }
  destruct (chain_table order g data r Hload Ho Hll H0) as (n1 & tab & Htab).
  pose proof (loaded_names _ _ _ _ _ _ Ht Hp Hload Hname) as Hn.
  destruct (c41_exact G r g data Ht Hp Hload) as (number & N1 & N2 & N3 & N4). exists number. split; [exact N1|]. split; [exact N2|]. split; [exact N3|].
  intros ts Hts.
  destruct (scan_generated compile r g data s ws (length s + 2) He Hload Hws ltac:(lia)) as (toks & printed & Es & K1 & K2). fold rules in K1, K2.
  destruct (K2 _ Hts) as (kept & stop & -> & Hst & _ & Hk & Hty). assert (printed = None) as -> by (apply K1; eauto).
  assert (map token_name kept = map fst (visible ts)) as Ekn by (rewrite <- Hk, map_map; done).
  specialize (N4 (RuleRef name) (map token_type kept) (or_intror (ex_intro _ name (conj eq_refl (ex_intro _ _ Hname))))).
  cbn beta iota in N4. rewrite (N2 _ _ Hname) in N4.
  assert (Hdr : sentence (productions g) 0 kept <-> reads_atom G (first_operand number G) (RuleRef name) (map fst (visible ts))).
  { unfold sentence, types. rewrite <- map_map with (f := token_type) (g := T). rewrite N4, <- Ekn. split.
    - intros (names & Hn' & Hr). assert (names = map token_name kept) as ->; [|done].
      apply Forall2_fmap_r in Hn'. clear -Hn' Hty Hv. induction Hn' as [|m t' names kept Hm Hn IH]; [done|].
      apply Forall_cons in Hty as [Ht' Hty]. cbn [map]. f_equal; [|by apply IH].
      unfold get_terminal_id_by_name in *. apply (vi_t _ Hv) in Hm, Ht'. congruence.
    - intros Hr. exists (map token_name kept). split; [|done]. apply Forall2_fmap_r, Forall2_fmap_l. clear -Hty. induction Hty; constructor; done. }
  split.
  - intros (t & n & Hrun & Hrn & Hl). apply Hdr.
    assert (map token_name (rule_leaves t) = map fst (visible ts)) as Eln by (rewrite <- Hl, map_map; done).
    specialize (Hrun (n `max` n1 `max` (length s + 2)) ltac:(lia)). unfold chain_run in Hrun. rewrite Htab in Hrun by lia. cbn [rbind] in Hrun.
    rewrite (scan_all_mono _ _ _ (length s + 2) (n `max` n1 `max` (length s + 2)) _ _ ltac:(lia) Es) in Hrun. cbn [rbind] in Hrun.
    destruct (parse _ _ _ _) as [[r' mm']| |] eqn:Ep; cbn [rbind] in Hrun; [|done..]. injection Hrun as -> ->.
    destruct (c36_prefix_sentence g order n1 tab [] _ _ _ _ Ho Hcl (Htab n1 ltac:(lia)) Ep) as (x & rest & Ex & Hsx & El).
    assert (x = kept) as <-; [|done]. subst x. apply (f_equal length) in Eln. rewrite <- Ekn, !map_length in Eln.
    exact (eq_sym (proj1 (app_inj_1 _ _ _ _ (eq_sym Eln) Ex))).
  - intros Hr. apply Hdr in Hr.
    destruct (c33_parse_start g order n1 tab (g_vocabulary g) kept stop [] Ho Hcl (Htab n1 ltac:(lia)) Hr Hst) as (p & cs & Hpp & Hl & Hpar & n2 & Hn2).
    exists (RuleCtx (get_nonterminal_name_with_default (g_vocabulary g) 0) cs 0), (n1 + n2 + (length s + 2)). split; [|split].
    + intros fuel Hf. unfold chain_run. rewrite Htab by lia. cbn [rbind]. rewrite (scan_all_mono _ _ _ (length s + 2) fuel _ _ ltac:(lia) Es). cbn [rbind].
      rewrite Hn2 by lia. done.
    + cbn [rule_name]. exact (default_name _ _ _ Hn).
    + rewrite rule_leaves_children. cbn [children]. by rewrite (parses_leaves _ _ _ _ _ Hpar).
Qed.

Lemma c85_text_every nd g d order G ts0 s0 name :
  digits_ok nd -> load_ast syntaxis2_json = Ret (g, d) -> iteration_order g order ->
  grammar_tokens G ts0 -> written ts0 s0 -> proper G -> references_defined G -> head (parser_rule_names G) = Some name ->
  exists r n g' data, (forall fuel, n <= fuel -> main_run nd order fuel syntaxis2_json s0 = Ret (r, [], None, [])) /\
    load_tree (retype_rule hand_type r) = Ret (g', data) /\
    (tokens_apart G -> ll1 (productions g') -> forall compile rules order' ws s ts,
       iteration_order g' order' -> engine_ok compile -> compiled compile G rules -> (lit "WHITE_SPACE", ws) ∈ generated_constants data ->
       tokenized rules s ts ->
       (exists t n, (forall fuel, n <= fuel -> chain_run compile order' fuel g' data ws s = Ret (t, [], None, [])) /\
          tree_of (g_vocabulary g') G name t /\ map (fun t => (token_name t, text t)) (rule_leaves t) = visible ts) <->
       matches_atom G (RuleRef name) (map fst (visible ts))).
Proof.
  intros Hnd Hl Ho HG Hw Hp Hr Hh. destruct (c85_text nd g d order G ts0 s0 name Hnd Hl Ho HG Hw Hp Hr Hh) as (r & n & g' & data & Hm & Hload & H).
  exists r, n, g', data. split; [exact Hm|]. split; [exact Hload|]. intros Hta. apply H. exact (tokens_apart_no_collision _ _ Hta).
Qed.

(** a: X* Y c*;  b: X;  c: Z;  with X and c both numbered 2: c* is read as X*. *)
Definition ex_clash : list rule :=
  [ParserRule (lit "a") [Sequence [Element (TokenRef (lit "X")) (Some (Star, false)); ref "Y"; Element (RuleRef (lit "c")) (Some (Star, false))]];
   ParserRule (lit "b") [Sequence [ref "X"]]; ParserRule (lit "c") [Sequence [ref "Z"]];
   LexerRule (lit "X") (lit "/x/"); LexerRule (lit "Y") (lit "/y/"); LexerRule (lit "Z") (lit "/z/"); LexerRule (lit "WHITE_SPACE") (lit "/[ ]+/")].
Definition ex_clash_tree : rule_ctx := build_grammar ex_clash.
Definition ex_clash_g : grammar := grammar_of ex_clash_tree.
Definition ex_clash_order : list production := elements (productions ex_clash_g).
Definition ex_clash_rules : list (str * matcher) := map (fun d => (ld_name d, engine ascii_digit (ld_regex d))) (rules_of ex_clash_tree).
Lemma ex_clash_loaded : load_tree ex_clash_tree = Ret (ex_clash_g, rules_of ex_clash_tree).
Proof. apply loaded_ret. by vm_compute. Qed.
Lemma ex_clash_hyps : grammar_tree ex_clash ex_clash_tree /\ proper ex_clash /\ load_tree ex_clash_tree = Ret (ex_clash_g, rules_of ex_clash_tree) /\
  head (parser_rule_names ex_clash) = Some (lit "a") /\ iteration_order ex_clash_g ex_clash_order /\
  engine_ok (engine ascii_digit) /\ compiled (engine ascii_digit) ex_clash ex_clash_rules /\
  (lit "WHITE_SPACE", 5) ∈ generated_constants (rules_of ex_clash_tree) /\ ll1 (productions ex_clash_g).
Proof.
  assert (grammar_tree ex_clash ex_clash_tree) as Ht by (by apply build_grammar_tree).
  assert (proper ex_clash) as Hp by (apply proper_computed; by vm_compute).
  split; [exact Ht|]. split; [exact Hp|]. split; [exact ex_clash_loaded|].
  split; [by vm_compute|]. split; [unfold iteration_order; reflexivity|]. split; [exact (engine_is_ok _)|].
  split; [exact (compiled_exists _ _ _ _ _ Ht Hp ex_clash_loaded)|]. split; [apply (bool_decide_unpack _); by vm_compute|].
  apply ll1_computed; by vm_compute.
Qed.
Lemma ex_clash_tokenized : tokenized ex_clash_rules (lit "xyx") [(lit "X", lit "x"); (lit "Y", lit "y"); (lit "X", lit "x")].
Proof.
  assert (forall i n w rest ts, fst <$> ex_clash_rules !! i = Some n -> wins_b (map snd ex_clash_rules) (w ++ rest) i (blen w) = true ->
    tokenized ex_clash_rules rest ts -> tokenized ex_clash_rules (w ++ rest) ((n, w) :: ts)) as K.
  { intros i n w rest ts Hi Hw H. apply fmap_Some in Hi as ([n' m] & Hi & ->). eapply tokenized_cons; [done|by apply wins_computed|done]. }
  apply (K 0 (lit "X") (lit "x") (lit "yx")); [by vm_compute..|].
  apply (K 1 (lit "Y") (lit "y") (lit "x")); [by vm_compute..|].
  apply (K 0 (lit "X") (lit "x") []); [by vm_compute..|]. constructor.
Qed.
Lemma ex_clash_run : map (fun t => (token_name t, text t)) <$>
  match chain_run (engine ascii_digit) ex_clash_order 1000 ex_clash_g (rules_of ex_clash_tree) 5 (lit "xyx") with
  | Ret (t, [], None, []) => Some (rule_leaves t)
  | _ => None
  end = Some [(lit "X", lit "x"); (lit "Y", lit "y"); (lit "X", lit "x")].
Proof. by vm_compute. Qed.

Lemma star_of G a m b w : (forall w', matches_atom G a w' -> w' = [m]) -> matches_element G (Element a (Some (Star, b))) w -> Forall (fun x => x = m) w.
Proof.
  intros Hc H. remember (Element a (Some (Star, b))) as e eqn:He.
  induction H as [| | ? ? w1 w2 Ha H IH| | | |]; simplify_eq; [constructor|].
  apply Hc in Ha as ->. constructor; [done|]. by apply IH.
Qed.
Lemma token_of G n w : matches_element G (ref n) w -> w = [lit n].
Proof. intros H. inversion H as [? ? Ha| | | | | |]; subst. by inversion Ha. Qed.
Lemma ex_clash_c w : matches_atom ex_clash (RuleRef (lit "c")) w -> w = [lit "Z"].
Proof.
  intros H. inversion H as [| |? alts alt ? HG Hal Ha|]; subst.
  assert (alts = [Sequence [ref "Z"]]) as ->.
  { unfold ex_clash in HG. repeat (apply elem_of_cons in HG as [HG|HG]; [by inversion HG|]). by apply elem_of_nil in HG. }
  apply elem_of_list_singleton in Hal as ->. inversion Ha as [|? ? He]; subst. inversion He as [|? ? w1 w2 H1 H2]; subst.
  apply token_of in H1 as ->. by inversion H2.
Qed.
Lemma ex_clash_not : ~ matches_atom ex_clash (RuleRef (lit "a")) [lit "X"; lit "Y"; lit "X"].
Proof.
  intros H. inversion H as [| |? alts alt ? HG Hal Ha|]; subst.
  assert (alts = [Sequence [Element (TokenRef (lit "X")) (Some (Star, false)); ref "Y"; Element (RuleRef (lit "c")) (Some (Star, false))]]) as ->.
  { unfold ex_clash in HG. repeat (apply elem_of_cons in HG as [HG|HG]; [by inversion HG|]). by apply elem_of_nil in HG. }
  apply elem_of_list_singleton in Hal as ->. inversion Ha as [|? ? He]; subst. clear H Ha HG. inversion He as [|? ? w1 w2 H1 H2 E1 E]; subst. clear He.
  inversion H2 as [|? ? w3 w4 H3 H4]; subst. clear H2. inversion H4 as [|? ? w5 w6 H5 H6]; subst. clear H4. inversion H6; subst. clear H6.
  apply token_of in H3 as ->. apply (star_of _ _ (lit "Z")) in H5; [|exact ex_clash_c].
  apply (star_of _ _ (lit "X")) in H1; [|by intros w' Hw; inversion Hw]. rewrite app_nil_r in E.
  assert (exists x, last ([lit "Y"] ++ w5) = Some x /\ (x = lit "Y" \/ x = lit "Z")) as (x & Hl & Hx).
  { destruct (last w5) as [x|] eqn:El.
    - exists x. rewrite last_app, El. split; [done|]. right. rewrite Forall_forall in H5. apply H5. by apply last_Some_elem_of.
    - exists (lit "Y"). rewrite last_app, El. split; [done|]. by left. }
  apply (f_equal last) in E. rewrite last_app, Hl in E. injection E as E. destruct Hx as [->| ->]; discriminate E.
Qed.
