(** ChainAny.v -- C87 for the tool chain of a grammar on every text, whether or not the lexer rules cut all of it. *)
From Verif Require Export SpecAny ChainCrash ReadsAll ChainEvery.

Lemma cut_tokenized rules s ts : cut_up rules s ts None <-> tokenized rules s ts.
Proof.
  split.
  - intros H. remember None as left eqn:E. induction H as [| |i name m w rest ts left Hr Hw _ IH]; [constructor|done|]. econstructor; eauto.
  - intros H. induction H as [|i name m w rest ts Hr Hw _ IH]; [constructor|]. econstructor; eauto.
Qed.
Lemma cut_unique rules s ts left ts' left' : cut_up rules s ts left -> cut_up rules s ts' left' -> ts = ts' /\ left = left'.
Proof.
  intros H. revert ts' left'. induction H as [|s Hne Hst|i name m w rest ts left Hr Hw _ IH]; intros ts' left' H'.
  - inversion H' as [| |i name m w rest ts left Hr Hw _ E]; subst; [done|done|]. exfalso. apply app_eq_nil in E as [-> _]. destruct Hw as [Hw _]. change (blen []) with 0 in Hw. lia.
  - inversion H' as [|s0 _ _|i name m w rest ts left Hr Hw _ E]; subst; [done|done|]. exfalso. destruct Hw as (Hpos & (f & Hf & Ef) & _).
    apply elem_of_list_lookup_2 in Hf. specialize (Hst _ _ Hf Ef). lia.
  - inversion H' as [E|s0 Hne Hst E|i' name' m' w' rest' ts1 left1 Hr' Hw' H1 E]; subst.
    + exfalso. symmetry in E. apply app_eq_nil in E as [-> _]. destruct Hw as [Hw _]. change (blen []) with 0 in Hw. lia.
    + exfalso. destruct Hw as (Hpos & (f & Hf & Ef) & _). apply elem_of_list_lookup_2 in Hf. specialize (Hst _ _ Hf Ef). lia.
    + rewrite E in Hw'. destruct (wins_unique _ _ _ _ _ _ Hw Hw') as [-> El]. symmetry in E. destruct (blen_prefix _ _ _ _ E ltac:(lia)) as [-> ->].
      rewrite Hr in Hr'. injection Hr' as <- <-. by destruct (IH _ _ H1) as [-> ->].
Qed.

Lemma cut_munched compile data s ts0 rest : engine_ok compile ->
  let c := generated_lexer compile data s in let rules := map (fun d => (ld_name d, compile (ld_regex d))) data in
  munched c ts0 rest -> (rest = [] \/ stuck (regex_list c) rest) ->
  cut_up rules (texts ts0 ++ rest) (map name_text ts0) (match rest with [] => None | _ => Some rest end).
Proof.
  intros He c rules. assert (map snd rules = regex_list c) as Ers by (subst c rules; cbn [generated_lexer regex_list]; rewrite map_map; reflexivity).
  intros Hm Hend. induction ts0 as [|t ts0 IH].
  - change (texts []) with (@nil N). cbn [app map]. destruct rest as [|x rest]; [constructor|]. destruct Hend as [?|Hst]; [done|]. rewrite <- Ers in Hst. by constructor.
  - destruct Hm as [(i & Ety & En & Hw) Hm]. specialize (IH Hm).
    assert (exists f, rules !! i = Some (token_name t, f)) as [f Hr].
    { revert En. subst c rules. cbn [generated_lexer token_names]. replace (i + 2) with (S (S i)) by lia. change ((lit "_START" :: lit "_STOP" :: map ld_name data) !! S (S i)) with (map ld_name data !! i).
      rewrite !list_lookup_fmap. destruct (data !! i) as [d|]; cbn [fmap option_fmap option_map]; [|done]. intros [= <-]. by eexists. }
    rewrite texts_cons, <- (assoc_L (++)). rewrite texts_cons, <- (assoc_L (++)) in Hw. cbn [map]. eapply (cut_token rules i (token_name t) f); [done| |exact IH]. by rewrite Ers.
Qed.
Lemma scan_cut compile r g data s ws fuel : engine_ok compile -> load_tree r = Ret (g, data) -> (lit "WHITE_SPACE", ws) ∈ generated_constants data ->
  length s + 2 <= fuel ->
  let rules := map (fun d => (ld_name d, compile (ld_regex d))) data in
  exists toks ts left, scan_all (generated_lexer compile data s) ws 0 fuel lexer_init = Ret (toks, left) /\ cut_up rules s ts left /\
    map token_name toks = parser_input ts left /\
    Forall (fun t => get_terminal_id_by_name (g_vocabulary g) (token_name t) = Some (token_type t)) toks /\
    (left = None -> exists kept stop, toks = kept ++ [stop] /\ token_type stop = 1 /\ map token_name kept = map fst (visible ts)).
Proof.
  intros He Hload Hws Hf rules. set (c := generated_lexer compile data s). pose proof (generated_ok compile data s He : lexer_ok c) as Hok.
  apply (c39_constants _ _ _ _ _ Hload) in Hws. destruct (c39_numbering _ _ _ Hload) as (_ & _ & _ & _ & Hstop).
  assert (Hv : vinv (g_vocabulary g)).
  { destruct (load_tree_inv _ _ _ Hload) as (s2 & s3 & _ & _ & _ & Ev & _ & Hp & _). destruct (pi_ops _ _ _ Hp) as [ops Ho]. rewrite Ev, Ho. apply vinv_reach. }
  assert (ws <> 1) as Hws1.
  { intros ->. unfold get_terminal_id_by_name in *. apply (vi_t _ Hv) in Hws, Hstop. rewrite Hws in Hstop. discriminate Hstop. }
  destruct (c07_terminates c ws 0 fuel Hok Hws1 Hf) as [[toks printed] Hscan].
  destruct (c08_stop c ws fuel toks printed Hok Hws1 Hf Hscan) as (ts0 & rest & st & Hsc & Ein & _ & Hcase). cbn [c generated_lexer input] in Ein.
  destruct (scanned_exact c ts0 st rest Hok Hsc Ein) as (_ & _ & Hm & _).
  assert (rest = [] \/ stuck (regex_list c) rest) as Hend by (destruct Hcase as [(? & _)|(_ & ? & _)]; auto).
  pose proof (cut_munched compile data s ts0 rest He Hm Hend) as Hcut. cbn zeta in Hcut. fold rules in Hcut. rewrite <- Ein in Hcut.
  assert (Hall : forall t, t ∈ ts0 -> get_terminal_id_by_name (g_vocabulary g) (token_name t) = Some (token_type t)).
  { intros t Hin. exact (proj1 (c39_generated r g data compile s ts0 st Hload Hsc t Hin)). }
  assert (Hvis : map token_name (filter (fun t => token_type t <> ws) ts0) = map fst (visible (map name_text ts0))).
  { clear -Hall Hws Hv. unfold visible. induction ts0 as [|t ts0 IH]; [done|]. cbn [map]. rewrite !filter_cons.
    assert (token_type t = ws <-> token_name t = lit "WHITE_SPACE") as Heq.
    { pose proof (Hall t ltac:(apply elem_of_list_here)) as Ht. unfold get_terminal_id_by_name in *. split; intros E.
      - rewrite E in Ht. apply (vi_t _ Hv) in Ht, Hws. congruence.
      - rewrite E in Ht. congruence. }
    destruct (decide (token_type t <> ws)) as [Hn|Hn]; destruct (decide ((name_text t).1 <> lit "WHITE_SPACE")) as [Hm|Hm]; cbn [map].
    - f_equal. apply IH. intros t' Hin. apply Hall. by apply elem_of_list_further.
    - exfalso. cbn [name_text fst] in Hm. tauto.
    - exfalso. cbn [name_text fst] in Hm. tauto.
    - apply IH. intros t' Hin. apply Hall. by apply elem_of_list_further. }
  assert (Hf0 : Forall (fun t => get_terminal_id_by_name (g_vocabulary g) (token_name t) = Some (token_type t)) (filter (fun t => token_type t <> ws) ts0)).
  { apply Forall_forall. intros t (_ & Hin)%elem_of_list_filter. by apply Hall. }
  exists toks, (map name_text ts0), printed. split; [exact Hscan|]. unfold parser_input. rewrite <- Hvis.
  destruct Hcase as [(-> & -> & stop & [Hs1 Hs2] & ->)|(Hne & _ & -> & ->)].
  - split; [exact Hcut|]. rewrite map_app. cbn [map]. rewrite Hs2. split; [done|]. split.
    + apply Forall_app. split; [done|]. constructor; [|constructor]. by rewrite Hs2, Hs1.
    + intros _. eexists _, stop. done.
  - destruct rest as [|x rest]; [done|]. split; [exact Hcut|]. rewrite app_nil_r. split; [done|]. split; [done|]. done.
Qed.
Lemma c87_cut rules compile G r g data s : grammar_tree G r -> proper G -> load_tree r = Ret (g, data) -> engine_ok compile -> compiled compile G rules ->
  (exists ws, (lit "WHITE_SPACE", ws) ∈ generated_constants data) -> exists ts left, cut_up rules s ts left.
Proof.
  intros Ht Hp Hload He Hc [ws Hws]. rewrite (compiled_data _ _ _ _ _ _ Ht Hp Hload Hc).
  destruct (scan_cut compile r g data s ws (length s + 2) He Hload Hws (le_n _)) as (toks & ts & left & _ & H & _). eauto.
Qed.

(** The tool chain, for a language W of which the sentences of the productions are the numbers. *)
Lemma chain_trouble compile r g data W order ws s ts left :
  load_tree r = Ret (g, data) -> 0 ∈ nonterminals (g_vocabulary g) ->
  (forall w, derives (productions g) [NT 0] (map T w) <-> exists names, Forall2 (fun n i => get_terminal_id_by_name (g_vocabulary g) n = Some i) names w /\ W names) ->
  (forall names, W names -> exists w, Forall2 (fun n i => get_terminal_id_by_name (g_vocabulary g) n = Some i) names w) ->
  iteration_order g order -> engine_ok compile -> (lit "WHITE_SPACE", ws) ∈ generated_constants data ->
  ll1 (productions g) -> cut_up (map (fun d => (ld_name d, compile (ld_regex d))) data) s ts left ->
  let input := parser_input ts left in
  exists n out, (forall fuel, n <= fuel -> chain_log compile order fuel g data ws s = Ret ([], left, out)) /\ snd out <> inr NoFuel /\
    (forall k, first_trouble out = Some k ->
       k <= length input /\ (k < length input -> ~ begins W (take (S k) input)) /\
       ((forall b, b ∈ nonterminals (g_vocabulary g) -> exists w, derives (productions g) [NT b] (map T w)) -> begins W (take k input))) /\
    (first_trouble out = None -> exists t more, out = ([], inl t) /\ W (map token_name (rule_leaves t)) /\
       input = map token_name (rule_leaves t) ++ more) /\
    (left = None -> W (map fst (visible ts)) -> first_trouble out = None).
Proof.
  intros Hload H0 HW HWn Ho He Hws Hll Hcut input.
  destruct (c43_closed r g data Hload) as (Hcl & _). destruct (c39_numbering _ _ _ Hload) as (_ & _ & _ & _ & Hstop).
  assert (Hv : vinv (g_vocabulary g)).
  { destruct (load_tree_inv _ _ _ Hload) as (s2 & s3 & _ & _ & _ & Ev & _ & Hpi & _). destruct (pi_ops _ _ _ Hpi) as [ops Hops]. rewrite Ev, Hops. apply vinv_reach. }
  destruct (chain_table order g data r Hload Ho Hll H0) as (n1 & tab & Htab). pose proof (Htab n1 (le_n _)) as Et.
  destruct (scan_cut compile r g data s ws (length s + 2) He Hload Hws ltac:(lia)) as (toks & ts' & left' & Es & Hcut' & Ekn & Htys & Hend).
  destruct (cut_unique _ _ _ _ _ _ Hcut Hcut') as [<- <-]. fold input in Ekn.
  assert (length toks = length input) as Ekl by (by rewrite <- Ekn, map_length).
  destruct (c87_terminates g order n1 tab (g_vocabulary g) toks Ho Hcl Et) as (n2 & out & Hout & Hrun).
  assert (Hsent : forall ws', W ws' -> exists s', sentence (productions g) 0 s' /\
    Forall2 (fun n i => get_terminal_id_by_name (g_vocabulary g) n = Some i) ws' (map token_type s')).
  { intros ws' Hm. destruct (HWn _ Hm) as [ids Hids].
    exists (map (fun i => token_new i [] []) ids). unfold sentence. rewrite types_of.
    assert (map token_type (map (fun i => token_new i [] []) ids) = ids) as -> by (rewrite map_map; apply map_id).
    split; [|done]. apply HW. by exists ws'. }
  assert (Hpre : forall (ts' : list token) (l : list nat), Forall (fun t => get_terminal_id_by_name (g_vocabulary g) (token_name t) = Some (token_type t)) ts' ->
    Forall2 (fun x i => get_terminal_id_by_name (g_vocabulary g) x = Some i) (map token_name ts') l -> l = map token_type ts').
  { clear. intros ts' l Hty Hl. revert l Hl.
    induction Hty as [|t' kept' Ht' _ IH]; intros l Hl; inversion Hl as [|? i ? l' Hi Hl']; subst; [done|]. cbn [map].
    rewrite Ht' in Hi. injection Hi as <-. f_equal. by apply IH. }
  assert (Hback : forall ts', Forall (fun t => get_terminal_id_by_name (g_vocabulary g) (token_name t) = Some (token_type t)) ts' ->
    sentence (productions g) 0 ts' -> W (map token_name ts')).
  { intros ts' Hty' Hs'. unfold sentence in Hs'. rewrite types_of in Hs'.
    apply HW in Hs' as (ns & Hn & Hm). by apply (named_types _ Hv) in Hn as ->. }
  exists (n1 + n2 + (length s + 2)), out. split; [|split; [done|split; [|split]]].
  - intros fuel Hf. unfold chain_log. rewrite Htab by lia. cbn [rbind]. rewrite (scan_all_mono _ _ _ (length s + 2) fuel _ _ ltac:(lia) Es). cbn [rbind].
    by rewrite Hrun by lia.
  - intros k Hk'. rewrite <- (Hrun n2 (le_n _)) in Hk'.
    destruct (c87_before g order n1 tab [] _ _ _ _ Ho Hcl Et Hk') as (Hle & _). rewrite <- Ekl. split; [done|]. split.
    + intros Hlt (word & more & Hm & Ew). apply (c87_first g order n1 tab _ _ _ _ Ho Hcl Et Hk' Hlt).
      destruct (Hsent _ Hm) as (s' & Hs' & Hn').
      assert (Forall2 (fun n i => get_terminal_id_by_name (g_vocabulary g) n = Some i) (word ++ [lit "_STOP"]) (map token_type s' ++ [1])) as Hn2.
      { apply Forall2_app; [done|]. by constructor. }
      rewrite Ew in Hn2. apply Forall2_app_inv_l in Hn2 as (l1 & l2 & Hl1 & _ & El).
      rewrite <- Ekn, firstn_map in Hl1. apply Hpre in Hl1 as ->; [|by apply Forall_take].
      exists s', (token_new 1 [] []), (map T l2). split; [done|]. split; [done|]. rewrite !types_of, map_app. change (map token_type [token_new 1 [] []]) with [1]. by rewrite El, map_app.
    + intros Hrm. destruct (c87_exact g order n1 tab _ _ _ k Ho Hcl H0 Hrm Et Hk') as (_ & (s' & stop' & more & Hs' & Hst' & Ew) & _).
      unfold sentence in Hs'. rewrite types_of in Hs'. apply HW in Hs' as (ns & Hn & Hm).
      assert (Forall2 (fun n i => get_terminal_id_by_name (g_vocabulary g) n = Some i) (ns ++ [lit "_STOP"]) (map token_type (s' ++ [stop']))) as Hn2.
      { rewrite map_app. apply Forall2_app; [done|]. cbn [map]. rewrite Hst'. by constructor. }
      rewrite !types_of in Ew.
      assert (exists l2, map token_type (s' ++ [stop']) = map token_type (take k toks) ++ l2) as [l2 El].
      { clear -Ew. revert Ew. generalize (map token_type (s' ++ [stop'])) (map token_type (take k toks)). intros a b. revert a.
        induction b as [|x b IH]; intros a E; [by exists a|]. destruct a as [|y a]; [done|]. cbn in E. injection E as -> E.
        destruct (IH _ E) as [l2 ->]. by exists l2. }
      rewrite El in Hn2. apply Forall2_app_inv_r in Hn2 as (w1 & w2 & Hw1 & _ & Ew2).
      apply (named_types _ Hv) in Hw1; [|by apply Forall_take]. subst w1. exists ns, w2. split; [done|]. by rewrite Ew2, <- Ekn, firstn_map.
  - intros Hq. rewrite <- (Hrun n2 (le_n _)) in Hq, Hout.
    destruct (c87_quiet g order n1 tab [] _ _ _ Ho Hcl Et Hq Hout) as (t & s' & rest & Eo & Es' & Hs' & Hl).
    rewrite Hrun in Eo by lia. exists t, (map token_name rest). split; [done|]. rewrite Hl. split.
    + apply Hback; [|done]. rewrite Es' in Htys. by apply Forall_app in Htys as [? _].
    + by rewrite <- Ekn, Es', map_app.
  - intros El Hm. destruct (Hend El) as (kept & stop & Etoks & Hst & Ek). destruct (Hsent _ Hm) as (s' & Hs' & Hn').
    rewrite Etoks in Htys. apply Forall_app in Htys as [Htys _].
    rewrite <- Ek in Hn'. apply (Hpre kept) in Hn'; [|done].
    assert (sentence (productions g) 0 kept) as Hs2. { unfold sentence in *. rewrite types_of in *. by rewrite <- Hn'. }
    destruct (c33_parse_start g order n1 tab (g_vocabulary g) kept stop [] Ho Hcl Et Hs2 Hst) as (p & cs & _ & _ & _ & n3 & Hn3).
    specialize (Hn3 (n2 `max` n3) ltac:(lia)). rewrite <- Etoks, c87_same, Hrun in Hn3 by lia. destruct out as [mm [t|e]]; [|by destruct e].
    cbn in Hn3. by injection Hn3 as -> ->.
Qed.

(** Without number collisions: the language as it is written. *)
Lemma c87_any compile G r g data name rules order ws s ts left :
  grammar_tree G r -> proper G -> load_tree r = Ret (g, data) -> no_collision (g_vocabulary g) G -> head (parser_rule_names G) = Some name ->
  iteration_order g order -> engine_ok compile -> compiled compile G rules -> (lit "WHITE_SPACE", ws) ∈ generated_constants data ->
  ll1 (productions g) -> cut_up rules s ts left ->
  let input := parser_input ts left in let W := matches_atom G (RuleRef name) in
  exists n out, (forall fuel, n <= fuel -> chain_log compile order fuel g data ws s = Ret ([], left, out)) /\ snd out <> inr NoFuel /\
    (forall k, first_trouble out = Some k ->
       k <= length input /\ (k < length input -> ~ begins W (take (S k) input)) /\ (rules_match G -> begins W (take k input))) /\
    (first_trouble out = None -> exists t more, out = ([], inl t) /\ W (map token_name (rule_leaves t)) /\
       input = map token_name (rule_leaves t) ++ more) /\
    (left = None -> W (map fst (visible ts)) -> first_trouble out = None).
Proof.
  intros Ht Hp Hload Hnc Hh Ho He Hc Hws Hll Hcut input W. pose proof (first_rule _ _ _ _ _ Ht Hp Hload Hh) as Hname.
  rewrite (compiled_data _ _ _ _ _ _ Ht Hp Hload Hc) in Hcut. clear rules Hc.
  assert (Hv : vinv (g_vocabulary g)).
  { destruct (load_tree_inv _ _ _ Hload) as (s2 & s3 & _ & _ & _ & Ev & _ & Hpi & _). destruct (pi_ops _ _ _ Hpi) as [ops Hops]. rewrite Ev, Hops. apply vinv_reach. }
  assert (0 ∈ nonterminals (g_vocabulary g)) as H0.
  { apply (vi_nd _ Hv). exists name. apply (vi_n _ Hv). exact Hname. }
  destruct (chain_trouble compile r g data W order ws s ts left Hload H0) as (n & out & H1 & H2 & H3 & H4); try done.
  - intros w. exact (c40 G r g data name 0 w Ht Hp Hload Hnc Hname).
  - intros ws' Hm. destruct (translation G r g data Ht Hp Hload Hnc) as (v0 & R & N & Hv0 & Etn & En & Ei & HR & Hsound & Hcomp).
    unfold get_nonterminal_id_by_name, get_terminal_id_by_name in *. rewrite En in Hname. rewrite Etn.
    destruct (proj1 (proj2 (matches_derives v0 R G (productions g) N HR Hv0 Hsound Hcomp)) _ _ Hm (NT 0)) as (ids & Hids & Hd); [by constructor|]. by exists ids.
  - exists n, out. split; [exact H1|]. split; [exact H2|]. split; [|exact H4]. intros k Hk. destruct (H3 k Hk) as (K1 & K2 & K3).
    split; [exact K1|]. split; [exact K2|]. intros Hrm. apply K3. intros b Hb. exact (loaded_derivable G r g data b Ht Hp Hload Hnc Hrm Hb).
Qed.

(** In general: the language with operands recognised by their number alone. *)
Lemma c41_named G r g data :
  grammar_tree G r -> proper G -> load_tree r = Ret (g, data) ->
  exists number : atom -> nat,
    (forall n t, get_terminal_id_by_name (g_vocabulary g) n = Some t -> number (TokenRef n) = t) /\
    (forall n i, get_nonterminal_id_by_name (g_vocabulary g) n = Some i -> number (RuleRef n) = i) /\
    (forall alts sx, occurs (Element (Group alts) sx) G ->
       is_nonterminal_id (g_vocabulary g) (number (Group alts)) = true /\
       get_nonterminal_name_by_id (g_vocabulary g) (number (Group alts)) = None) /\
    forall n i, get_nonterminal_id_by_name (g_vocabulary g) n = Some i ->
      (forall w, derives (productions g) [NT i] (map T w) <-> exists names, Forall2 (fun n i => get_terminal_id_by_name (g_vocabulary g) n = Some i) names w /\
        reads_atom G (first_operand number G) (RuleRef n) names) /\
      (forall names, reads_atom G (first_operand number G) (RuleRef n) names -> exists w, Forall2 (fun n i => get_terminal_id_by_name (g_vocabulary g) n = Some i) names w) /\
      (rules_read number G -> forall b, b ∈ nonterminals (g_vocabulary g) -> exists w, derives (productions g) [NT b] (map T w)).
Proof.
  intros Ht Hp Hload. destruct (met_all G r g data Ht Hp Hload) as (v0 & R & s3 & -> & -> & Hi3 & Hv0 & HRlt' & Hnames & Hw & Hm & Hsound' & Hcomp').
  assert (HRlt : forall i, i ∈ nonterminals v0 -> i < R) by (intros i Hi; by apply HRlt').
  assert (HR' : forall name id, nt_name_to_id v0 !! name = Some id -> id < R).
  { intros n i Hn. by apply (named_below v0 R HRlt Hv0 n). }
  unfold get_nonterminal_id_by_name, get_terminal_id_by_name, get_nonterminal_name_by_id. rewrite (pi_t1 _ _ _ Hi3), (pi_n1 _ _ _ Hi3), (pi_n2 _ _ _ Hi3).
  exists (number_of v0 s3). split; [|split; [|split]].
  - intros n t Hn. unfold number_of. cbn [atom_item]. by rewrite Hn.
  - intros n i Hn. unfold number_of. cbn [atom_item]. by rewrite Hn.
  - intros alts sx Ho. destruct (lk_occurs v0 G s3 Hcomp' _ _ Ho) as [it Hit]. rewrite (number_lk v0 s3 _ _ Hit).
    inversion Hit as [| |? n rs Has Hc]; subst. cbn [item_id]. pose proof (wf_range _ _ _ _ Hw _ _ Hc) as Hn. split.
    + unfold is_nonterminal_id. apply bool_decide_eq_true. apply (pi_n3 _ _ _ Hi3). by right.
    + apply eq_None_not_Some. intros [nm Hnm]. assert (n ∈ nonterminals v0) as K by (apply (vi_nd _ Hv0); eauto). apply HRlt in K. lia.
  - intros n i Hn. assert (lk_atom v0 s3 (RuleRef n) (NT i)) as Hit by (by constructor). split; [|split].
    + intros w. exact (language_read v0 R G s3 HR' Hv0 Hw Hm Hsound' Hcomp' (RuleRef n) (NT i) w Hit).
    + intros names Hr. destruct (proj1 (proj2 (reads_derives v0 R G s3 HR' Hv0 Hw Hm Hsound' Hcomp')) _ _ Hr _ Hit) as (ids & Hids & _). by exists ids.
    + intros Hrr b Hb. destruct (reads_derives v0 R G s3 HR' Hv0 Hw Hm Hsound' Hcomp') as (D1 & D2 & _).
      assert (Hdef : forall name, is_Some (nt_name_to_id v0 !! name) -> exists w, reads_atom G (first_operand (number_of v0 s3) G) (RuleRef name) w).
      { intros name Hname. apply Hnames in Hname. unfold parser_rule_names in Hname. apply elem_of_list_omap in Hname as ([n' alts|] & HG & E); [|done].
        injection E as ->. exact (Hrr _ _ HG). }
      assert (Hrules : forall m sx, occurs (Element (RuleRef m) sx) G -> exists w, reads_atom G (first_operand (number_of v0 s3) G) (RuleRef m) w).
      { intros m sx Ho. apply Hdef. destruct (lk_occurs v0 G s3 Hcomp' _ _ Ho) as [it Hl]. inversion Hl as [|? j Hj|]; subst. by exists j. }
      assert (Hwf : forall e, occurs e G -> wf_element e = true) by (intros e; by apply (occurs_wf G r)).
      apply (pi_n3 _ _ _ Hi3) in Hb as [Hb|Hb].
      * destruct (HRlt' _ Hb) as (_ & name & Hname). apply (vi_n _ Hv0) in Hname. destruct (Hdef name) as [w Hr]; [by exists b|].
        destruct (D2 _ _ Hr (NT b)) as (ids & _ & Hd); [by constructor|]. by exists ids.
      * destruct (wf_cover _ _ _ _ Hw b Hb) as [[k id|rs] Hk].
        -- destruct (wf_suffix _ _ _ _ Hw _ _ _ Hk) as (a & lz & it & Ho & Ha & <-).
           destruct (every_reads G _ Hwf Hrules _ Ho) as [w Hr]. destruct (D1 _ _ Hr (NT b)) as (ids & _ & Hd); [by econstructor|]. by exists ids.
        -- destruct (wf_block _ _ _ _ Hw _ _ Hk) as (alts & sx & Ho & Ha).
           destruct (every_atom_reads G _ Hwf Hrules _ _ Ho) as [w Hr]. destruct (D2 _ _ Hr (NT b)) as (ids & _ & Hd); [by econstructor|]. by exists ids.
Qed.
Lemma c87_every compile G r g data name rules order ws s ts left :
  grammar_tree G r -> proper G -> load_tree r = Ret (g, data) -> head (parser_rule_names G) = Some name ->
  iteration_order g order -> engine_ok compile -> compiled compile G rules -> (lit "WHITE_SPACE", ws) ∈ generated_constants data ->
  ll1 (productions g) -> cut_up rules s ts left ->
  exists number : atom -> nat,
    (forall n t, get_terminal_id_by_name (g_vocabulary g) n = Some t -> number (TokenRef n) = t) /\
    (forall n i, get_nonterminal_id_by_name (g_vocabulary g) n = Some i -> number (RuleRef n) = i) /\
    (forall alts sx, occurs (Element (Group alts) sx) G ->
       is_nonterminal_id (g_vocabulary g) (number (Group alts)) = true /\
       get_nonterminal_name_by_id (g_vocabulary g) (number (Group alts)) = None) /\
  let input := parser_input ts left in let W := reads_atom G (first_operand number G) (RuleRef name) in
  exists n out, (forall fuel, n <= fuel -> chain_log compile order fuel g data ws s = Ret ([], left, out)) /\ snd out <> inr NoFuel /\
    (forall k, first_trouble out = Some k ->
       k <= length input /\ (k < length input -> ~ begins W (take (S k) input)) /\ (rules_read number G -> begins W (take k input))) /\
    (first_trouble out = None -> exists t more, out = ([], inl t) /\ W (map token_name (rule_leaves t)) /\
       input = map token_name (rule_leaves t) ++ more) /\
    (left = None -> W (map fst (visible ts)) -> first_trouble out = None).
Proof.
  intros Ht Hp Hload Hh Ho He Hc Hws Hll Hcut. pose proof (first_rule _ _ _ _ _ Ht Hp Hload Hh) as Hname.
  rewrite (compiled_data _ _ _ _ _ _ Ht Hp Hload Hc) in Hcut. clear rules Hc.
  assert (Hv : vinv (g_vocabulary g)).
  { destruct (load_tree_inv _ _ _ Hload) as (s2 & s3 & _ & _ & _ & Ev & _ & Hpi & _). destruct (pi_ops _ _ _ Hpi) as [ops Hops]. rewrite Ev, Hops. apply vinv_reach. }
  assert (0 ∈ nonterminals (g_vocabulary g)) as H0.
  { apply (vi_nd _ Hv). exists name. apply (vi_n _ Hv). exact Hname. }
  destruct (c41_named G r g data Ht Hp Hload) as (number & N1 & N2 & N3 & N4). exists number. split; [exact N1|]. split; [exact N2|]. split; [exact N3|].
  intros input W. destruct (N4 _ _ Hname) as (HW & HWn & HWr).
  destruct (chain_trouble compile r g data W order ws s ts left Hload H0 HW HWn) as (n & out & H1 & H2 & H3 & H4); try done.
  exists n, out. split; [exact H1|]. split; [exact H2|]. split; [|exact H4]. intros k Hk. destruct (H3 k Hk) as (K1 & K2 & K3).
  split; [exact K1|]. split; [exact K2|]. intros Hrr. exact (K3 (HWr Hrr)).
Qed.

(** From the text of a grammar. *)
Lemma c87_text nd g d order G ts0 s0 name :
  digits_ok nd -> load_ast syntaxis2_json = Ret (g, d) -> iteration_order g order ->
  grammar_tokens G ts0 -> written ts0 s0 -> proper G -> references_defined G -> tokens_apart G -> head (parser_rule_names G) = Some name ->
  exists r n g' data, (forall fuel, n <= fuel -> main_run nd order fuel syntaxis2_json s0 = Ret (r, [], None, [])) /\
    load_tree (retype_rule hand_type r) = Ret (g', data) /\
    (ll1 (productions g') -> forall compile rules order' ws s ts left,
       iteration_order g' order' -> engine_ok compile -> compiled compile G rules -> (lit "WHITE_SPACE", ws) ∈ generated_constants data ->
       cut_up rules s ts left ->
       let input := parser_input ts left in let W := matches_atom G (RuleRef name) in
       exists n out, (forall fuel, n <= fuel -> chain_log compile order' fuel g' data ws s = Ret ([], left, out)) /\ snd out <> inr NoFuel /\
         (forall k, first_trouble out = Some k ->
            k <= length input /\ (k < length input -> ~ begins W (take (S k) input)) /\ (rules_match G -> begins W (take k input))) /\
         (first_trouble out = None -> exists t more, out = ([], inl t) /\ W (map token_name (rule_leaves t)) /\
            input = map token_name (rule_leaves t) ++ more) /\
         (left = None -> W (map fst (visible ts)) -> first_trouble out = None)).
Proof.
  intros Hnd Hl Ho HG Hw Hp Hr Hta Hh. destruct (c44_complete nd g d order G ts0 s0 Hnd Hl Ho HG Hw) as (r & HT & n & Hn).
  destruct (proj2 (c42 G (retype_rule hand_type r) HT Hp) Hr) as [[g' data] Hload].
  exists r, n, g', data. split; [exact Hn|]. split; [exact Hload|].
  intros Hll compile rules order' ws s ts left Ho' He Hc Hws Hcut.
  exact (c87_any compile G _ g' data name rules order' ws s ts left HT Hp Hload (tokens_apart_no_collision _ _ Hta) Hh Ho' He Hc Hws Hll Hcut).
Qed.

(** 12@3 : the lexer stops at the @, the parser at the end of its tokens. *)
Lemma ex_at_cut : cut_up ex_sum_rules (lit "12@3") [(lit "Num", lit "12")] (Some (lit "@3")).
Proof.
  assert (exists m, ex_sum_rules !! 0 = Some (lit "Num", m)) as [m Hm].
  { assert (fst <$> ex_sum_rules !! 0 = Some (lit "Num")) as H by (by vm_compute). apply fmap_Some in H as ([n m] & H & ->). by exists m. }
  refine (cut_token ex_sum_rules 0 (lit "Num") m (lit "12") (lit "@3") [] (Some (lit "@3")) Hm _ _); [apply wins_computed; by vm_compute|].
  constructor; [done|]. intros f e Hf He. 
  assert (forallb (fun f : matcher => match f (lit "@3") with Some (S _) => false | _ => true end) (map snd ex_sum_rules) = true) as K by (by vm_compute).
  rewrite forallb_forall in K. apply elem_of_list_In, K in Hf. rewrite He in Hf. by destruct e.
Qed.
Lemma ex_at_run : chain_log (engine ascii_digit) ex_sum_order 1000 ex_sum_g (rules_of ex_sum_tree) 4 (lit "12@3") = Ret ([], Some (lit "@3"), ([], inr (NoToken 1))).
Proof. by vm_compute. Qed.
Lemma ex_sum_apart : tokens_apart ex_sum.
Proof.
  assert (forallb (fun x => match x with Element (TokenRef _) (Some (k, _)) =>
    forallb (fun y => match y with Element (TokenRef _) _ => true | Element _ (Some (k', _)) => negb (suffix_type k =? suffix_type k') | _ => true end) (occurring ex_sum)
    | _ => true end) (occurring ex_sum) = true) as H by (by vm_compute).
  intros k b b' n a Ho Ho'. rewrite forallb_forall in H. apply occurs_computed, elem_of_list_In, H in Ho. rewrite forallb_forall in Ho.
  apply occurs_computed, elem_of_list_In, Ho in Ho'. rewrite Nat.eqb_refl in Ho'. destruct a; [eauto|done..].
Qed.

(** A clash: xyz is a word of the grammar as written, but c* is read as X*, and the Z is a surprise. *)
Lemma ex_clash_cut : cut_up ex_clash_rules (lit "xyz") [(lit "X", lit "x"); (lit "Y", lit "y"); (lit "Z", lit "z")] None.
Proof.
  apply cut_tokenized.
  assert (forall i n w rest ts, fst <$> ex_clash_rules !! i = Some n -> wins_b (map snd ex_clash_rules) (w ++ rest) i (blen w) = true ->
    tokenized ex_clash_rules rest ts -> tokenized ex_clash_rules (w ++ rest) ((n, w) :: ts)) as K.
  { intros i n w rest ts Hi Hw H. apply fmap_Some in Hi as ([n' m] & Hi & ->). eapply tokenized_cons; [done|by apply wins_computed|done]. }
  apply (K 0 (lit "X") (lit "x") (lit "yz")); [by vm_compute..|].
  apply (K 1 (lit "Y") (lit "y") (lit "z")); [by vm_compute..|].
  apply (K 2 (lit "Z") (lit "z") []); [by vm_compute..|]. constructor.
Qed.
Lemma ex_clash_log : chain_log (engine ascii_digit) ex_clash_order 1000 ex_clash_g (rules_of ex_clash_tree) 5 (lit "xyz") = Ret ([], None, ([], inr (NoEntry 2 3))).
Proof. by vm_compute. Qed.
Lemma ex_clash_read number : rules_read number ex_clash.
Proof.
  assert (forall name (a : alternative) w, (exists alts, ParserRule name alts ∈ ex_clash /\ a ∈ alts) -> reads_alternative ex_clash (first_operand number ex_clash) a w ->
    exists w, reads_atom ex_clash (first_operand number ex_clash) (RuleRef name) w) as K.
  { intros name a w (alts & HG & Ha) H. exists w. by eapply reads_rule. }
  intros name alts HG. pose proof HG as HG'. unfold ex_clash in HG'.
  repeat (apply elem_of_cons in HG' as [HG'|HG']; [try discriminate; injection HG' as -> ->|]); [..|by apply elem_of_nil in HG'].
  - refine (K _ _ ([] ++ [lit "Y"] ++ [] ++ []) (ex_intro _ _ (conj HG (elem_of_list_here _ _))) _). repeat constructor.
  - refine (K _ _ ([lit "X"] ++ []) (ex_intro _ _ (conj HG (elem_of_list_here _ _))) _). repeat constructor.
  - refine (K _ _ ([lit "Z"] ++ []) (ex_intro _ _ (conj HG (elem_of_list_here _ _))) _). repeat constructor.
Qed.
