(** ChainCrash.v -- C87 for the tool chain of a grammar. *)
From Verif Require Export ChainEarliest CrashProofs.

Lemma c87_chain compile G r g data name rules order ws s ts :
  grammar_tree G r -> proper G -> load_tree r = Ret (g, data) -> no_collision (g_vocabulary g) G -> head (parser_rule_names G) = Some name ->
  iteration_order g order -> engine_ok compile -> compiled compile G rules -> (lit "WHITE_SPACE", ws) ∈ generated_constants data ->
  ll1 (productions g) -> tokenized rules s ts ->
  let input := map fst (visible ts) ++ [lit "_STOP"] in
  exists n out, (forall fuel, n <= fuel -> chain_log compile order fuel g data ws s = Ret ([], None, out)) /\ snd out <> inr NoFuel /\
    (forall k, first_trouble out = Some k ->
       k <= length input /\ (k < length input -> ~ can_begin G name (take (S k) input)) /\ (rules_match G -> can_begin G name (take k input))) /\
    (first_trouble out = None -> exists t more, out = ([], inl t) /\ matches_atom G (RuleRef name) (map token_name (rule_leaves t)) /\
       input = map token_name (rule_leaves t) ++ more) /\
    (matches_atom G (RuleRef name) (map fst (visible ts)) -> first_trouble out = None).
Proof.
  intros Ht Hp Hload Hnc Hh Ho He Hc Hws Hll Hts input. pose proof (first_rule _ _ _ _ _ Ht Hp Hload Hh) as Hname.
  rewrite (compiled_data _ _ _ _ _ _ Ht Hp Hload Hc) in Hts. clear rules Hc. set (rules := map (fun d => (ld_name d, compile (ld_regex d))) data) in Hts.
  destruct (c43_closed r g data Hload) as (Hcl & _). destruct (c39_numbering _ _ _ Hload) as (_ & _ & _ & _ & Hstop).
  assert (Hv : vinv (g_vocabulary g)).
  { destruct (load_tree_inv _ _ _ Hload) as (s2 & s3 & _ & _ & _ & Ev & _ & Hpi & _). destruct (pi_ops _ _ _ Hpi) as [ops Hops]. rewrite Ev, Hops. apply vinv_reach. }
  assert (0 ∈ nonterminals (g_vocabulary g)) as H0.
  { apply (vi_nd _ Hv). exists name. apply (vi_n _ Hv). exact Hname. }
  destruct (chain_table order g data r Hload Ho Hll H0) as (n1 & tab & Htab). pose proof (Htab n1 (le_n _)) as Et.
  destruct (scan_generated compile r g data s ws (length s + 2) He Hload Hws ltac:(lia)) as (toks & printed & Es & K1 & K2). fold rules in K1, K2.
  assert (printed = None) as -> by (apply K1; eauto). destruct (K2 _ Hts) as (kept & stop & Etoks & Hst & Hsn & Hk & Hty). clear K1 K2.
  assert (map token_name toks = input) as Ekn.
  { rewrite Etoks, map_app. unfold input. cbn [map]. rewrite Hsn, <- Hk, map_map. done. }
  assert (Forall (fun t => get_terminal_id_by_name (g_vocabulary g) (token_name t) = Some (token_type t)) toks) as Htys.
  { rewrite Etoks. apply Forall_app. split; [done|]. constructor; [|constructor]. by rewrite Hsn, Hst. }
  assert (length toks = length input) as Ekl by (by rewrite <- Ekn, map_length).
  destruct (c87_terminates g order n1 tab (g_vocabulary g) toks Ho Hcl Et) as (n2 & out & Hout & Hrun).
  assert (Hsent : forall ws', matches_atom G (RuleRef name) ws' -> exists s', sentence (productions g) 0 s' /\
    Forall2 (fun n i => get_terminal_id_by_name (g_vocabulary g) n = Some i) ws' (map token_type s')).
  { intros ws' Hm. destruct (translation G r g data Ht Hp Hload Hnc) as (v0 & R & N & Hv0 & Etn & En & Ei & HR & Hsound & Hcomp).
    unfold get_nonterminal_id_by_name, get_terminal_id_by_name in *. rewrite En in Hname.
    destruct (proj1 (proj2 (matches_derives v0 R G (productions g) N HR Hv0 Hsound Hcomp)) _ _ Hm (NT 0)) as (ids & Hids & Hd); [by constructor|].
    exists (map (fun i => token_new i [] []) ids). unfold sentence. rewrite types_of.
    assert (map token_type (map (fun i => token_new i [] []) ids) = ids) as -> by (rewrite map_map; apply map_id).
    split; [done|]. rewrite Etn. exact Hids. }
  assert (Hpre : forall (ts' : list token) (l : list nat), Forall (fun t => get_terminal_id_by_name (g_vocabulary g) (token_name t) = Some (token_type t)) ts' ->
    Forall2 (fun x i => get_terminal_id_by_name (g_vocabulary g) x = Some i) (map token_name ts') l -> l = map token_type ts').
  { clear. intros ts' l Hty Hl. revert l Hl.
    induction Hty as [|t' kept' Ht' _ IH]; intros l Hl; inversion Hl as [|? i ? l' Hi Hl']; subst; [done|]. cbn [map].
    rewrite Ht' in Hi. injection Hi as <-. f_equal. by apply IH. }
  assert (Hback : forall ts', Forall (fun t => get_terminal_id_by_name (g_vocabulary g) (token_name t) = Some (token_type t)) ts' ->
    sentence (productions g) 0 ts' -> matches_atom G (RuleRef name) (map token_name ts')).
  { intros ts' Hty' Hs'. unfold sentence in Hs'. rewrite types_of in Hs'.
    apply (c40 G r g data name 0 _ Ht Hp Hload Hnc Hname) in Hs' as (ns & Hn & Hm). by apply (named_types _ Hv) in Hn as ->. }
  exists (n1 + n2 + (length s + 2)), out. split; [|split; [done|split; [|split]]].
  - intros fuel Hf. unfold chain_log. rewrite Htab by lia. cbn [rbind]. rewrite (scan_all_mono _ _ _ (length s + 2) fuel _ _ ltac:(lia) Es). cbn [rbind].
    by rewrite Hrun by lia.
  - intros k Hk'. rewrite <- (Hrun n2 (le_n _)) in Hk'.
    destruct (c87_before g order n1 tab [] _ _ _ _ Ho Hcl Et Hk') as (Hle & _). rewrite <- Ekl. split; [done|]. split.
    + intros Hlt (word & more & Hm & Ew). apply (c87_first g order n1 tab _ _ _ _ Ho Hcl Et Hk' Hlt).
      destruct (Hsent _ Hm) as (s' & Hs' & Hn').
      assert (Forall2 (fun n i => get_terminal_id_by_name (g_vocabulary g) n = Some i) (word ++ [lit "_STOP"]) (map token_type s' ++ [1])) as Hn2.
      { apply Forall2_app; [done|]. by constructor. }
      rewrite Ew in Hn2. apply Forall2_app_inv_l in Hn2 as (l1 & l2 & Hl1 & _ & El).
      rewrite <- Ekn, firstn_map in Hl1. apply Hpre in Hl1 as ->; [|by apply Forall_take].
      exists s', stop, (map T l2). split; [done|]. split; [done|]. rewrite !types_of, map_app. cbn [map]. rewrite Hst, El. by rewrite map_app.
    + intros Hrm. destruct (fun HN => c87_exact g order n1 tab _ _ _ k Ho Hcl H0 HN Et Hk') as (_ & (s' & stop' & more & Hs' & Hst' & Ew) & _).
      { intros b Hb. exact (loaded_derivable G r g data b Ht Hp Hload Hnc Hrm Hb). }
      unfold sentence in Hs'. rewrite types_of in Hs'. apply (c40 G r g data name 0 _ Ht Hp Hload Hnc Hname) in Hs' as (ns & Hn & Hm).
      assert (Forall2 (fun n i => get_terminal_id_by_name (g_vocabulary g) n = Some i) (ns ++ [lit "_STOP"]) (map token_type (s' ++ [stop']))) as Hn2.
      { rewrite map_app. apply Forall2_app; [done|]. cbn [map]. rewrite Hst'. by constructor. }
      rewrite !types_of in Ew.
      assert (exists l2, map token_type (s' ++ [stop']) = map token_type (take k toks) ++ l2) as [l2 El].
      { clear -Ew. revert Ew. generalize (map token_type (s' ++ [stop'])) (map token_type (take k toks)). intros a b. revert a.
        induction b as [|x b IH]; intros a E; [by exists a|]. destruct a as [|y a]; [done|]. cbn in E. injection E as -> E.
        destruct (IH _ E) as [l2 ->]. by exists l2. }
      rewrite El in Hn2. apply Forall2_app_inv_r in Hn2 as (w1 & w2 & Hw1 & _ & Ew2).
      apply (named_types _ Hv) in Hw1; [|by apply Forall_take]. subst w1. exists ns, w2. split; [done|]. by rewrite Ew2, <- Ekn, firstn_map.
  - intros Hq. rewrite <- (Hrun n2 (le_n _)) in Hq, Hout.
    destruct (c87_quiet g order n1 tab [] _ _ _ Ho Hcl Et Hq Hout) as (t & s' & rest & Eo & Es' & Hs' & Hl).
    rewrite Hrun in Eo by lia. exists t, (map token_name rest). split; [done|]. rewrite Hl. split.
    + apply Hback; [|done]. rewrite Es' in Htys. by apply Forall_app in Htys as [? _].
    + by rewrite <- Ekn, Es', map_app.
  - intros Hm. destruct (Hsent _ Hm) as (s' & Hs' & Hn').
    assert (map fst (visible ts) = map token_name kept) as Ek by (rewrite <- Hk, map_map; done).
    rewrite Ek in Hn'. apply (Hpre kept) in Hn'; [|done].
    assert (sentence (productions g) 0 kept) as Hs2. { unfold sentence in *. rewrite types_of in *. by rewrite <- Hn'. }
    destruct (c33_parse_start g order n1 tab (g_vocabulary g) kept stop [] Ho Hcl Et Hs2 Hst) as (p & cs & _ & _ & _ & n3 & Hn3).
    specialize (Hn3 (n2 `max` n3) ltac:(lia)). rewrite <- Etoks, c87_same, Hrun in Hn3 by lia. destruct out as [mm [t|e]]; [|by destruct e].
    cbn in Hn3. by injection Hn3 as -> ->.
Qed.

(** 12+ : reported at the end of the input, then the parser reads past it; 12 12 : nothing is reported, the parser panics at the second number. *)
Definition ex_half_tokens : list (str * str) := [(lit "Num", lit "12"); (lit "Plus", lit "+")].
Lemma ex_half_tokenized : tokenized ex_sum_rules (lit "12+") ex_half_tokens.
Proof.
  assert (forall i n w rest ts, fst <$> ex_sum_rules !! i = Some n -> wins_b (map snd ex_sum_rules) (w ++ rest) i (blen w) = true ->
    tokenized ex_sum_rules rest ts -> tokenized ex_sum_rules (w ++ rest) ((n, w) :: ts)) as K.
  { intros i n w rest ts Hi Hw H. apply fmap_Some in Hi as ([n' m] & Hi & ->). eapply tokenized_cons; [done|by apply wins_computed|done]. }
  apply (K 0 (lit "Num") (lit "12") (lit "+")); [by vm_compute..|].
  apply (K 1 (lit "Plus") (lit "+") []); [by vm_compute..|]. constructor.
Qed.
Lemma ex_half_run : chain_log (engine ascii_digit) ex_sum_order 1000 ex_sum_g (rules_of ex_sum_tree) 4 (lit "12+") = Ret ([], None, ([(2, 2)], inr (NoToken 3))).
Proof. by vm_compute. Qed.
Definition ex_pair_tokens : list (str * str) := [(lit "Num", lit "12"); (lit "WHITE_SPACE", lit " "); (lit "Num", lit "12")].
Lemma ex_pair_tokenized : tokenized ex_sum_rules (lit "12 12") ex_pair_tokens.
Proof.
  assert (forall i n w rest ts, fst <$> ex_sum_rules !! i = Some n -> wins_b (map snd ex_sum_rules) (w ++ rest) i (blen w) = true ->
    tokenized ex_sum_rules rest ts -> tokenized ex_sum_rules (w ++ rest) ((n, w) :: ts)) as K.
  { intros i n w rest ts Hi Hw H. apply fmap_Some in Hi as ([n' m] & Hi & ->). eapply tokenized_cons; [done|by apply wins_computed|done]. }
  apply (K 0 (lit "Num") (lit "12") (lit " 12")); [by vm_compute..|].
  apply (K 2 (lit "WHITE_SPACE") (lit " ") (lit "12")); [by vm_compute..|].
  apply (K 0 (lit "Num") (lit "12") []); [by vm_compute..|]. constructor.
Qed.
Lemma ex_pair_run : chain_log (engine ascii_digit) ex_sum_order 1000 ex_sum_g (rules_of ex_sum_tree) 4 (lit "12 12") = Ret ([], None, ([], inr (NoEntry 1 2))).
Proof. by vm_compute. Qed.

Lemma ex_crash : build_table 100 ex_order ex_g = Ret (ex_tab, []) /\
  log_parse ex_voc ex_tab (map GrammarMain.tk [3; 5; 1; 2; 1]) 20 = ([(2, 4)], inr (NoEntry 4 1)) /\
  log_parse ex_voc ex_tab (map GrammarMain.tk [3; 5; 5; 1]) 20 = ([], inr (NoEntry 2 2)).
Proof. split; [exact ex_table|]. split; by vm_compute. Qed.
Lemma ex_sum_derivable b : b ∈ nonterminals (g_vocabulary ex_sum_g) -> exists w, derives (productions ex_sum_g) [NT b] (map T w).
Proof.
  destruct ex_sum_hyps as (H1 & H2 & H3 & H4 & _). exact (loaded_derivable _ _ _ _ b H1 H2 H3 H4 ex_sum_rules_match).
Qed.
