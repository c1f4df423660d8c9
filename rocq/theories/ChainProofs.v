(** ChainProofs.v -- C85. *)
From Verif Require Export Chain SpecChain ForestProofs ShippedMain.

Definition name_text (t : token) : str * str := (token_name t, text t).

(** *** The rules of the generated lexer *)
Lemma definitions_tree G cs n i : Forall2 rule_tree G cs -> proper G ->
  omap definition_of (filter (fun n => rule_index n = LEXER_RULE) (outermost_below is_rule_index (RuleCtx n (map Rule cs) i))) =
  omap (fun r => match r with LexerRule n x => Some (n, x) | ParserRule _ _ => None end) G.
Proof.
  intros H Hp. assert (forall m x, LexerRule m x ∈ G -> 2 <= blen x) as HG.
  { intros m x Hin. destruct Hp as (_ & _ & Hp). destruct (Hp _ _ Hin) as (body & ->). rewrite !blen_app. change (blen (lit "/")) with 1. lia. }
  clear Hp. unfold outermost_below. cbn [children]. rewrite map_map. induction H as [|g c G cs Hg _ IH]; [done|]. cbn [map concat].
  assert (outermost is_rule_index c = [c]) as ->.
  { apply rule_view in Hg. destruct c as [? ? k]. cbn [rule_index] in Hg. cbn [outermost]. by destruct g; destruct Hg as [-> _]. }
  cbn [app]. rewrite filter_cons. apply rule_view in Hg as Hv. destruct g as [m alts|m x].
  - destruct Hv as (Ei & _). rewrite decide_False by (by rewrite Ei). cbn [omap list_omap]. apply IH.
    intros m' x' Hin. apply (HG m' x'). by apply elem_of_list_further.
  - destruct Hv as (Ei & t & reg & rl & H1 & H2 & H3 & <- & <-). rewrite decide_True by done. cbn [omap list_omap].
    assert (definition_of c = Some (text t, text rl)) as ->.
    { unfold definition_of. destruct (leaves_of TOKEN_REF c) as [|t' l1]; [done|]. injection H1 as ->.
      destruct (nodes_of REGULAR c) as [|reg' l2]; [done|]. injection H2 as ->.
      destruct (leaves_of REGULAR_LITERAL reg) as [|rl' l3]; [done|]. injection H3 as ->.
      rewrite (proj2 (Nat.ltb_ge _ _)); [done|]. eapply HG. apply elem_of_list_here. }
    f_equal. apply IH. intros m' x' Hin. apply (HG m' x'). by apply elem_of_list_further.
Qed.

Lemma unescaped_unique s a b : unescaped s a -> unescaped s b -> a = b.
Proof.
  intros H. revert b. induction H as [|s s' H IH|c s s' Hc H IH]; intros b Hb.
  - by inversion Hb.
  - inversion Hb as [|s1 s1' H1 E|c s1 s1' Hc H1]; subst.
    + f_equal. by apply IH.
    + exfalso. by eapply Hc.
  - inversion Hb as [|s1 s1' H1 E|c1 s1 s1' Hc1 H1]; subst.
    + exfalso. by eapply Hc.
    + f_equal. by apply IH.
Qed.
Lemma regex_of_unique s a b : regex_of s a -> regex_of s b -> a = b.
Proof.
  intros (b1 & b1' & (x & y & E & _) & H1 & ->) (b2 & b2' & (x' & y' & E' & _) & H2 & ->). rewrite E in E'. injection E' as _ E'.
  apply app_inj_tail in E' as [-> _]. by rewrite (unescaped_unique _ _ _ H1 H2).
Qed.

Lemma compiled_data compile G r g data rules : grammar_tree G r -> proper G -> load_tree r = Ret (g, data) -> compiled compile G rules ->
  rules = map (fun d => (ld_name d, compile (ld_regex d))) data.
Proof.
  intros (n & cs & -> & Ht) Hp Hload Hc. apply c48_load_tree in Hload. rewrite (definitions_tree _ _ _ _ Ht Hp) in Hload. clear Ht Hp.
  unfold compiled, lexer_rules in Hc. revert rules Hc. induction Hload as [|e d l data (E & Hx) _ IH]; intros rules Hc.
  - by inversion Hc.
  - inversion Hc as [|? [m f] ? rules' (E' & x & Hx' & E'') Hc']; subst. cbn [fst snd] in *. cbn [map]. f_equal; [|by apply IH].
    by rewrite E', E'', E, (regex_of_unique _ _ _ Hx Hx').
Qed.
Lemma compiled_exists compile G r g data : grammar_tree G r -> proper G -> load_tree r = Ret (g, data) ->
  compiled compile G (map (fun d => (ld_name d, compile (ld_regex d))) data).
Proof.
  intros (n & cs & -> & Ht) Hp Hload. apply c48_load_tree in Hload. rewrite (definitions_tree _ _ _ _ Ht Hp) in Hload.
  unfold compiled, lexer_rules. induction Hload as [|e d l data (E & Hx) _ IH]; [constructor|]. cbn [map]. constructor; [|exact IH].
  cbn [fst snd]. split; [done|]. eauto.
Qed.

(** *** Cutting a text *)
Lemma generated_ok compile data s : engine_ok compile -> lexer_ok (generated_lexer compile data s).
Proof.
  intros He. split.
  - intros r s' e Hr. cbn [generated_lexer regex_list] in Hr. apply elem_of_list_fmap in Hr as (d & -> & _). apply He.
  - cbn [generated_lexer token_names regex_list]. cbn [length]. rewrite !map_length. lia.
Qed.
Lemma wins_unique rs s i len i' len' : wins rs s i len -> wins rs s i' len' -> i = i' /\ len = len'.
Proof.
  intros (Hl & (r & Hr & Er) & H) (Hl' & (r' & Hr' & Er') & H'). destruct (H _ _ _ Hr' Er') as [A B], (H' _ _ _ Hr Er) as [A' B']. lia.
Qed.
Lemma blen_prefix a b a' b' : a ++ b = a' ++ b' -> blen a = blen a' -> a = a' /\ b = b'.
Proof.
  revert a'. induction a as [|c a IH]; intros a' E Hb.
  - destruct a' as [|c' a']; [done|]. exfalso. cbn [blen] in Hb. pose proof (utf8_len_pos c'). lia.
  - destruct a' as [|c' a']; [exfalso; cbn [blen] in Hb; pose proof (utf8_len_pos c); lia|].
    cbn [app] in E. injection E as -> E. cbn [blen] in Hb. destruct (IH a' E ltac:(lia)) as [-> ->]. done.
Qed.
Lemma tokenized_munched compile data s ts0 rest : engine_ok compile ->
  let c := generated_lexer compile data s in let rules := map (fun d => (ld_name d, compile (ld_regex d))) data in
  munched c ts0 rest -> (rest = [] \/ stuck (regex_list c) rest) ->
  (rest = [] -> tokenized rules (texts ts0) (map name_text ts0)) /\
  (forall ts, tokenized rules (texts ts0 ++ rest) ts -> rest = [] /\ ts = map name_text ts0).
Proof.
  intros He c rules. assert (map snd rules = regex_list c) as Ers by (subst c rules; cbn [generated_lexer regex_list]; rewrite map_map; reflexivity).
  assert (Hname : forall i n, token_names c !! (i + 2) = Some n -> is_Some (rules !! i) /\ forall m f, rules !! i = Some (m, f) -> m = n).
  { intros i n. subst c rules. cbn [generated_lexer token_names]. replace (i + 2) with (S (S i)) by lia. change ((lit "_START" :: lit "_STOP" :: map ld_name data) !! S (S i)) with (map ld_name data !! i).
    rewrite !list_lookup_fmap. destruct (data !! i) as [d|]; cbn [fmap option_fmap option_map]; [|done]. intros [= <-].
    split; [eauto|]. by intros m f [= <- _]. }
  intros Hm Hend. induction ts0 as [|t ts0 IH].
  - split; [intros _; constructor|]. change (texts []) with (@nil N). cbn [app]. intros ts H.
    inversion H as [E E'|i name m w rest' ts' Hr Hw H' E E']; subst; [done|]. exfalso. destruct Hw as (Hpos & (f & Hf & Ef) & _). rewrite Ers in Hf.
    destruct Hend as [E|Hst]; [apply app_eq_nil in E as [-> _]; change (blen []) with 0 in Hpos; lia|].
    apply elem_of_list_lookup_2 in Hf. specialize (Hst _ _ Hf Ef). lia.
  - destruct Hm as [(i & Ety & En & Hw) Hm]. destruct (IH Hm) as [IH1 IH2]. destruct (Hname _ _ En) as [[[m f] Hr] Hn]. specialize (Hn _ _ Hr) as ->.
    rewrite texts_cons. split.
    + intros ->. rewrite texts_cons, app_nil_r in Hw. cbn [map]. eapply (tokenized_cons rules i (token_name t) f); [done| |by apply IH1]. by rewrite Ers.
    + intros ts H. rewrite <- (assoc_L (++)) in H.
      inversion H as [E E'|i' name' m' w rest' ts' Hr' Hw' H' E E'].
      { exfalso. symmetry in E. apply app_eq_nil in E as [Et _]. destruct Hw as (Hpos & _). rewrite Et in Hpos. change (blen []) with 0 in Hpos. lia. }
      subst ts. rewrite E, Ers in Hw'. rewrite texts_cons, <- (assoc_L (++)) in Hw. destruct (wins_unique _ _ _ _ _ _ Hw Hw') as [-> El].
      destruct (blen_prefix _ _ _ _ E ltac:(lia)) as [-> ->]. rewrite Hr in Hr'. injection Hr' as <- <-.
      destruct (IH2 _ H') as [-> ->]. done.
Qed.

(** *** The whole run *)
Lemma first_rule G r g data name : grammar_tree G r -> proper G -> load_tree r = Ret (g, data) -> head (parser_rule_names G) = Some name ->
  get_nonterminal_id_by_name (g_vocabulary g) name = Some 0.
Proof.
  intros Ht Hp Hload Hh. destruct (load_tree_grammar G r Ht Hp) as [(s2 & Hs & _ & H) _]. destruct (H _ _ Hload) as (s3 & E3 & ->).
  destruct Hs as (Hinv & _ & _ & Hs). destruct (parser_rule_names G) as [|n l]; [done|]. injection Hh as ->.
  cbn [g_vocabulary]. unfold get_nonterminal_id_by_name.
  assert (Hv0 : vinv (sy_vocabulary s2)) by (destruct (si_ops _ Hinv) as [ops ->]; apply vinv_reach).
  assert (HRlt : forall i, i ∈ nonterminals (sy_vocabulary s2) -> i < sy_next_rule_id s2) by (intros i Hi; by apply (si_nts _ Hinv) in Hi as [? _]).
  pose proof (rule_list_inv _ _ HRlt Hv0 _ _ _ _ (production_start s2 Hinv) E3) as Hi. by rewrite (pi_n1 _ _ _ Hi).
Qed.

Lemma scan_generated compile r g data s ws fuel : engine_ok compile -> load_tree r = Ret (g, data) -> (lit "WHITE_SPACE", ws) ∈ generated_constants data ->
  length s + 2 <= fuel ->
  let rules := map (fun d => (ld_name d, compile (ld_regex d))) data in
  exists toks printed, scan_all (generated_lexer compile data s) ws 0 fuel lexer_init = Ret (toks, printed) /\
    (printed = None <-> exists ts, tokenized rules s ts) /\
    forall ts, tokenized rules s ts -> exists kept stop, toks = kept ++ [stop] /\ token_type stop = 1 /\ token_name stop = lit "_STOP" /\
      map name_text kept = visible ts /\
      Forall (fun t => get_terminal_id_by_name (g_vocabulary g) (token_name t) = Some (token_type t)) kept.
Proof.
  intros He Hload Hws Hf rules. set (c := generated_lexer compile data s). pose proof (generated_ok compile data s He : lexer_ok c) as Hok.
  apply (c39_constants _ _ _ _ _ Hload) in Hws. destruct (c39_numbering _ _ _ Hload) as (_ & _ & _ & _ & Hstop).
  assert (Hv : vinv (g_vocabulary g)).
  { destruct (load_tree_inv _ _ _ Hload) as (s2 & s3 & _ & _ & _ & Ev & _ & Hp & _). destruct (pi_ops _ _ _ Hp) as [ops Ho]. rewrite Ev, Ho. apply vinv_reach. }
  assert (ws <> 1) as Hws1.
  { intros ->. unfold get_terminal_id_by_name in *. apply (vi_t _ Hv) in Hws, Hstop. rewrite Hws in Hstop. discriminate Hstop. }
  destruct (c07_terminates c ws 0 fuel Hok Hws1 Hf) as [[toks printed] Hscan]. exists toks, printed. split; [exact Hscan|].
  destruct (c08_stop c ws fuel toks printed Hok Hws1 Hf Hscan) as (ts0 & rest & st & Hsc & Ein & _ & Hcase). cbn [c generated_lexer input] in Ein.
  destruct (scanned_exact c ts0 st rest Hok Hsc Ein) as (_ & _ & Hm & _).
  assert (rest = [] \/ stuck (regex_list c) rest) as Hend by (destruct Hcase as [(? & _)|(_ & ? & _)]; auto).
  destruct (tokenized_munched compile data s ts0 rest He Hm Hend) as [T1 T2]. fold rules in T1, T2. rewrite <- Ein in T2.
  split.
  - split.
    + intros ->. destruct Hcase as [(-> & _)|(_ & _ & ? & _)]; [|done]. rewrite app_nil_r in Ein. rewrite Ein. eauto.
    + intros [ts Hts]. destruct (T2 _ Hts) as [-> _]. by destruct Hcase as [(_ & -> & _)|(? & _)].
  - intros ts Hts. destruct (T2 _ Hts) as [-> ->]. destruct Hcase as [(_ & _ & stop & [Hs1 Hs2] & ->)|(? & _)]; [|done].
    assert (Hall : forall t, t ∈ ts0 -> get_terminal_id_by_name (g_vocabulary g) (token_name t) = Some (token_type t)).
    { intros t Hin. exact (proj1 (c39_generated r g data compile s ts0 st Hload Hsc t Hin)). }
    exists (filter (fun t => token_type t <> ws) ts0), stop. split; [done|]. split; [done|]. split; [done|]. split.
    + clear -Hall Hws Hv. unfold visible. induction ts0 as [|t ts0 IH]; [done|]. cbn [map]. rewrite !filter_cons.
      assert (token_type t = ws <-> token_name t = lit "WHITE_SPACE") as Heq.
      { pose proof (Hall t ltac:(apply elem_of_list_here)) as Ht. unfold get_terminal_id_by_name in *. split; intros E.
        - rewrite E in Ht. apply (vi_t _ Hv) in Ht, Hws. congruence.
        - rewrite E in Ht. congruence. }
      destruct (decide (token_type t <> ws)) as [Hn|Hn]; destruct (decide ((name_text t).1 <> lit "WHITE_SPACE")) as [Hm|Hm]; cbn [map].
      * f_equal. apply IH. intros t' Hin. apply Hall. by apply elem_of_list_further.
      * exfalso. cbn [name_text fst] in Hm. tauto.
      * exfalso. cbn [name_text fst] in Hm. tauto.
      * apply IH. intros t' Hin. apply Hall. by apply elem_of_list_further.
    + apply Forall_forall. intros t (_ & Hin)%elem_of_list_filter. by apply Hall.
Qed.

Lemma c85_all compile G r g data name rules order ws s :
  grammar_tree G r -> proper G -> load_tree r = Ret (g, data) -> no_collision (g_vocabulary g) G -> head (parser_rule_names G) = Some name ->
  iteration_order g order -> engine_ok compile -> compiled compile G rules -> (lit "WHITE_SPACE", ws) ∈ generated_constants data ->
  (forall fuel t w rest mm, chain_run compile order fuel g data ws s = Ret (t, w, rest, mm) ->
     (w = [] <-> ll1 (productions g)) /\ (rest = None <-> exists ts, tokenized rules s ts)) /\
  (forall fuel t w, chain_run compile order fuel g data ws s = Ret (t, w, None, []) ->
     exists ts more, tokenized rules s ts /\ tree_of (g_vocabulary g) G name t /\ 
       map fst (visible ts) ++ [lit "_STOP"] = map token_name (rule_leaves t) ++ more) /\
  (forall ts, ll1 (productions g) -> tokenized rules s ts ->
     (exists t n, (forall fuel, n <= fuel -> chain_run compile order fuel g data ws s = Ret (t, [], None, [])) /\
        tree_of (g_vocabulary g) G name t /\ map (fun t => (token_name t, text t)) (rule_leaves t) = visible ts) <->
     matches_atom G (RuleRef name) (map fst (visible ts))).
Proof.
  intros Ht Hp Hload Hnc Hh Ho He Hc Hws. pose proof (first_rule _ _ _ _ _ Ht Hp Hload Hh) as Hname.
  rewrite (compiled_data _ _ _ _ _ _ Ht Hp Hload Hc). clear rules Hc. set (rules := map (fun d => (ld_name d, compile (ld_regex d))) data).
  destruct (c43_closed r g data Hload) as (Hcl & _).
  assert (Hv : vinv (g_vocabulary g)).
  { destruct (load_tree_inv _ _ _ Hload) as (s2 & s3 & _ & _ & _ & Ev & _ & Hpi & _). destruct (pi_ops _ _ _ Hpi) as [ops Hops]. rewrite Ev, Hops. apply vinv_reach. }
  assert (Hscan : forall fuel toks printed, scan_all (generated_lexer compile data s) ws 0 fuel lexer_init = Ret (toks, printed) ->
    (printed = None <-> exists ts, tokenized rules s ts) /\
    forall ts, tokenized rules s ts -> exists kept stop, toks = kept ++ [stop] /\ token_type stop = 1 /\ token_name stop = lit "_STOP" /\
      map name_text kept = visible ts /\
      Forall (fun t => get_terminal_id_by_name (g_vocabulary g) (token_name t) = Some (token_type t)) kept).
  { intros fuel toks printed H. apply (scan_all_mono _ _ _ fuel (fuel `max` (length s + 2))) in H; [|lia].
    destruct (scan_generated compile r g data s ws (fuel `max` (length s + 2)) He Hload Hws ltac:(lia)) as (toks' & printed' & E & K1 & K2).
    rewrite H in E. injection E as <- <-. done. }
  split; [|split].
  - intros fuel t w rest mm H. unfold chain_run in H. destruct (build_table fuel order g) as [[tab w']| |] eqn:Et; cbn [rbind] in H; [|done..].
    destruct (scan_all _ _ _ _ _) as [[toks printed]| |] eqn:Es; cbn [rbind] in H; [|done..].
    destruct (parse _ _ _ _) as [[r' mm']| |]; cbn [rbind] in H; [|done..]. injection H as -> <- <- <-.
    destruct (build_table_spec _ _ _ _ _ Ho Hcl Et) as (_ & _ & Hw & _). split; [exact Hw|]. exact (proj1 (Hscan _ _ _ Es)).
  - intros fuel t w H. unfold chain_run in H. destruct (build_table fuel order g) as [[tab w']| |] eqn:Et; cbn [rbind] in H; [|done..].
    destruct (scan_all _ _ _ _ _) as [[toks printed]| |] eqn:Es; cbn [rbind] in H; [|done..].
    destruct (parse _ _ _ _) as [[r' mm']| |] eqn:Ep; cbn [rbind] in H; [|done..]. injection H as -> -> -> ->.
    destruct (Hscan _ _ _ Es) as [[S1 _] S2]. destruct (S1 eq_refl) as [ts Hts]. destruct (S2 _ Hts) as (kept & stop & -> & _ & Hsn & Hk & _).
    destruct (c52_sound G r g data name order fuel tab w _ fuel t Ht Hp Hload Hnc Ho Et Hname Ep) as [Htree [more Em]].
    exists ts, (map token_name more). split; [done|]. split; [done|]. rewrite <- map_app, <- Em, map_app, <- Hk, map_map. cbn [map]. by rewrite Hsn.
  - intros ts Hll Hts.
    assert (exists n tab, forall fuel, n <= fuel -> build_table fuel order g = Ret (tab, [])) as (n1 & tab & Htab).
    { assert (0 ∈ nonterminals (g_vocabulary g)) as H0.
      { apply (vi_nd _ Hv). exists name. apply (vi_n _ Hv). exact Hname. }
      destruct (build_table_returns (table_fuel g) order g Ho Hcl H0 ltac:(lia)) as (tab & w & Et).
      exists (table_fuel g), tab. intros fuel Hf. destruct (build_table_returns fuel order g Ho Hcl H0 Hf) as (tab' & w' & Et').
      destruct (build_table_order_indep _ _ _ _ _ _ _ _ _ Ho Ho Hcl Hll Et Et') as (-> & _ & ->). done. }
    destruct (scan_generated compile r g data s ws (length s + 2) He Hload Hws ltac:(lia)) as (toks & printed & Es & K1 & K2). fold rules in K1, K2.
    destruct (K2 _ Hts) as (kept & stop & -> & Hst & _ & Hk & Hty). assert (printed = None) as -> by (apply K1; eauto).
    assert (map token_name kept = map fst (visible ts)) as Ekn by (rewrite <- Hk, map_map; done).
    assert (Hiff := c51_matches G r g data name kept Ht Hp Hload Hnc (ex_intro _ _ Hname)). split.
    + intros (t & n & Hrun & Htree & Hl).
      assert (map token_name (rule_leaves t) = map fst (visible ts)) as Eln by (rewrite <- Hl, map_map; done).
      destruct (proj1 (c51_matches G r g data name (rule_leaves t) Ht Hp Hload Hnc (ex_intro _ _ Hname)) (ex_intro _ t (conj Htree eq_refl))) as (names & Hn & Hmt).
      assert (rule_leaves t = kept) as El.
      { specialize (Hrun (n `max` n1 `max` (length s + 2)) ltac:(lia)). unfold chain_run in Hrun. rewrite Htab in Hrun by lia. cbn [rbind] in Hrun.
        rewrite (scan_all_mono _ _ _ (length s + 2) (n `max` n1 `max` (length s + 2)) _ _ ltac:(lia) Es) in Hrun. cbn [rbind] in Hrun.
        destruct (parse _ _ _ _) as [[r' mm']| |] eqn:Ep; cbn [rbind] in Hrun; [|done..]. injection Hrun as -> ->.
        destruct (c52_sound G r g data name order n1 tab [] _ _ t Ht Hp Hload Hnc Ho (Htab n1 ltac:(lia)) Hname Ep) as [_ [more Em]].
        apply (f_equal length) in Eln. rewrite <- Ekn, !map_length in Eln. exact (eq_sym (proj1 (app_inj_1 _ _ _ _ (eq_sym Eln) Em))). }
      assert (names = map token_name (rule_leaves t)) as ->; [|by rewrite <- Eln]. rewrite El in *. clear -Hn Hty Hv.
      induction Hn as [|m t' names kept Hm Hn IH]; [done|]. apply Forall_cons in Hty as [Ht' Hty]. cbn [map]. f_equal; [|by apply IH].
      unfold get_terminal_id_by_name in *. apply (vi_t _ Hv) in Hm, Ht'. congruence.
    + intros Hmt. destruct (proj2 Hiff) as (t & Htree & El).
      { exists (map token_name kept). split; [|by rewrite Ekn]. clear -Hty. induction Hty; constructor; done. }
      destruct (c52_complete G r g data name order n1 tab t stop [] Ht Hp Hload Hnc Ho (Htab n1 ltac:(lia)) Hname Htree Hst) as [n2 Hn2]. rewrite El in Hn2.
      exists t, (n1 + n2 + (length s + 2)). split; [|split; [done|by rewrite El]].
      intros fuel Hf. unfold chain_run. rewrite Htab by lia. cbn [rbind]. rewrite (scan_all_mono _ _ _ (length s + 2) fuel _ _ ltac:(lia) Es). cbn [rbind].
      rewrite Hn2 by lia. done.
Qed.
