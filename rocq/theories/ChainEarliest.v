(** ChainEarliest.v -- C86 for the tool chain of a grammar. *)
From Verif Require Export ChainEvery EarliestProofs GroupsProofs.

Lemma named_types v (Hv : vinv v) names (kept : list token) : Forall (fun t => get_terminal_id_by_name v (token_name t) = Some (token_type t)) kept ->
  Forall2 (fun n i => get_terminal_id_by_name v n = Some i) names (map token_type kept) -> names = map token_name kept.
Proof.
  intros Hty Hn. apply Forall2_fmap_r in Hn. induction Hn as [|m t' names kept Hm Hn IH]; [done|].
  apply Forall_cons in Hty as [Ht' Hty]. cbn [map]. f_equal; [|by apply IH].
  unfold get_terminal_id_by_name in *. apply (vi_t _ Hv) in Hm, Ht'. congruence.
Qed.
Lemma types_of ts : types ts = map T (map token_type ts).
Proof. unfold types. by rewrite map_map. Qed.

Lemma c86_chain compile G r g data name rules order ws s ts fuel t w rest k u mm :
  grammar_tree G r -> proper G -> load_tree r = Ret (g, data) -> no_collision (g_vocabulary g) G -> head (parser_rule_names G) = Some name ->
  iteration_order g order -> engine_ok compile -> compiled compile G rules -> (lit "WHITE_SPACE", ws) ∈ generated_constants data ->
  ll1 (productions g) -> tokenized rules s ts ->
  chain_run compile order fuel g data ws s = Ret (t, w, rest, (k, u) :: mm) ->
  let names := map fst (visible ts) in
  k <= length names /\
  (k < length names -> ~ exists more, matches_atom G (RuleRef name) (take (S k) names ++ more)) /\
  (k = length names -> ~ matches_atom G (RuleRef name) names) /\
  (rules_match G -> exists expected more, get_terminal_id_by_name (g_vocabulary g) expected = Some u /\
     matches_atom G (RuleRef name) (take k names ++ expected :: more)).
Proof.
  intros Ht Hp Hload Hnc Hh Ho He Hc Hws Hll Hts H names. pose proof (first_rule _ _ _ _ _ Ht Hp Hload Hh) as Hname.
  rewrite (compiled_data _ _ _ _ _ _ Ht Hp Hload Hc) in Hts. clear rules Hc. set (rules := map (fun d => (ld_name d, compile (ld_regex d))) data) in Hts.
  destruct (c43_closed r g data Hload) as (Hcl & _).
  assert (Hv : vinv (g_vocabulary g)).
  { destruct (load_tree_inv _ _ _ Hload) as (s2 & s3 & _ & _ & _ & Ev & _ & Hpi & _). destruct (pi_ops _ _ _ Hpi) as [ops Hops]. rewrite Ev, Hops. apply vinv_reach. }
  assert (0 ∈ nonterminals (g_vocabulary g)) as H0.
  { apply (vi_nd _ Hv). exists name. apply (vi_n _ Hv). exact Hname. }
  unfold chain_run in H. destruct (build_table fuel order g) as [[tab w']| |] eqn:Et; cbn [rbind] in H; [|done..].
  destruct (scan_all _ _ _ _ _) as [[toks printed]| |] eqn:Es; cbn [rbind] in H; [|done..].
  destruct (parse _ _ _ _) as [[r' mm']| |] eqn:Ep; cbn [rbind] in H; [|done..]. injection H as -> -> _ ->.
  destruct (build_table_spec _ _ _ _ _ Ho Hcl Et) as (_ & _ & Hw & _). apply Hw in Hll as ->.
  apply (scan_all_mono _ _ _ fuel (fuel `max` (length s + 2))) in Es; [|lia].
  destruct (scan_generated compile r g data s ws (fuel `max` (length s + 2)) He Hload Hws ltac:(lia)) as (toks' & printed' & E & _ & K2).
  rewrite Es in E. injection E as <- <-. destruct (K2 _ Hts) as (kept & stop & -> & Hst & _ & Hk & Hty). clear Es K2 Hw.
  assert (map token_name kept = names) as Ekn by (unfold names; rewrite <- Hk, map_map; done).
  assert (length kept = length names) as Ekl by (by rewrite <- Ekn, map_length).
  pose proof (c86_first _ _ _ _ _ _ _ _ _ _ _ Ho Hcl Et Ep) as Hnot.
  destruct (c67_first _ _ _ _ _ _ _ _ _ _ _ _ Ho Hcl Et Ep) as (tok & _ & Hk' & _ & _).
  apply lookup_lt_Some in Hk'. rewrite app_length in Hk'. cbn [length] in Hk'.
  assert (Hsent : forall ws', matches_atom G (RuleRef name) ws' -> exists s', sentence (productions g) 0 s' /\
    Forall2 (fun n i => get_terminal_id_by_name (g_vocabulary g) n = Some i) ws' (map token_type s')).
  { intros ws' Hm. destruct (translation G r g data Ht Hp Hload Hnc) as (v0 & R & N & Hv0 & Etn & En & Ei & HR & Hsound & Hcomp).
    unfold get_nonterminal_id_by_name, get_terminal_id_by_name in *. rewrite En in Hname.
    destruct (proj1 (proj2 (matches_derives v0 R G (productions g) N HR Hv0 Hsound Hcomp)) _ _ Hm (NT 0)) as (ids & Hids & Hd); [by constructor|].
    exists (map (fun i => token_new i [] []) ids). unfold sentence. rewrite types_of.
    assert (map token_type (map (fun i => token_new i [] []) ids) = ids) as -> by (rewrite map_map; apply map_id).
    split; [done|]. rewrite Etn. exact Hids. }
  assert (Hpre : forall (n : nat) (l : list nat), Forall2 (fun x i => get_terminal_id_by_name (g_vocabulary g) x = Some i) (take n names) l -> l = map token_type (take n kept)).
  { intros n l Hl. rewrite <- Ekn, firstn_map in Hl. apply (Forall_take _ n) in Hty. revert l Hl. clear -Hty.
    induction Hty as [|t' kept' Ht' _ IH]; intros l Hl; inversion Hl as [|? i ? l' Hi Hl']; subst; [done|]. cbn [map].
    rewrite Ht' in Hi. injection Hi as <-. f_equal. by apply IH. }
  split; [lia|]. split; [|split].
  - intros Hlt [more Hm]. apply Hnot. destruct (Hsent _ Hm) as (s' & Hs' & Hn').
    apply Forall2_app_inv_l in Hn' as (l1 & l2 & Hl1 & _ & El). apply Hpre in Hl1 as ->.
    exists s', stop, (map T (l2 ++ [token_type stop])). split; [done|]. split; [done|].
    rewrite take_app_le by lia. rewrite !types_of, <- map_app. f_equal. rewrite map_app, El. by rewrite <- (assoc_L (++)).
  - intros Hke Hm. apply Hnot. destruct (Hsent _ Hm) as (s' & Hs' & Hn').
    assert (take k names = names) as Etk by (apply take_ge; lia). rewrite <- Etk in Hn'. apply Hpre in Hn'. rewrite take_ge in Hn' by lia.
    exists s', stop, []. split; [done|]. split; [done|].
    rewrite app_nil_r, take_ge by (rewrite app_length; cbn [length]; lia). rewrite !types_of, !map_app. by rewrite Hn'.
  - intros Hrm. destruct (fun HN => c86_before g order fuel tab [] _ _ _ _ k u mm Ho Hcl H0 HN Et Ep) as [w Hd].
    { intros b Hb. exact (loaded_derivable G r g data b Ht Hp Hload Hnc Hrm Hb). }
    rewrite take_app_le in Hd by lia. rewrite types_of in Hd. change (T u :: map T w) with (map T (u :: w)) in Hd. rewrite <- map_app in Hd.
    apply (c40 G r g data name 0 _ Ht Hp Hload Hnc Hname) in Hd as (ns & Hn & Hm).
    apply Forall2_app_inv_r in Hn as (n1 & n2 & Hn1 & Hn2 & ->). apply Forall2_cons_inv_r in Hn2 as (x & n3 & Hx & Hn3 & ->).
    apply (named_types _ Hv) in Hn1; [|by apply Forall_take]. subst n1. exists x, n3. split; [done|].
    rewrite <- Ekn, firstn_map. exact Hm.
Qed.

Lemma ex_sum_rules_match : rules_match ex_sum.
Proof.
  intros name alts HG. unfold ex_sum in HG. repeat (apply elem_of_cons in HG as [HG|HG]; [try discriminate HG|]); [|by apply elem_of_nil in HG].
  injection HG as -> _. eexists. exact ex_sum_matches.
Qed.
Definition ex_twice_tokens : list (str * str) := [(lit "Num", lit "12"); (lit "Plus", lit "+"); (lit "Plus", lit "+")].
Lemma ex_twice_tokenized : tokenized ex_sum_rules (lit "12++") ex_twice_tokens.
Proof.
  assert (forall i n w rest ts, fst <$> ex_sum_rules !! i = Some n -> wins_b (map snd ex_sum_rules) (w ++ rest) i (blen w) = true ->
    tokenized ex_sum_rules rest ts -> tokenized ex_sum_rules (w ++ rest) ((n, w) :: ts)) as K.
  { intros i n w rest ts Hi Hw H. apply fmap_Some in Hi as ([n' m] & Hi & ->). eapply tokenized_cons; [done|by apply wins_computed|done]. }
  apply (K 0 (lit "Num") (lit "12") (lit "++")); [by vm_compute..|].
  apply (K 1 (lit "Plus") (lit "+") (lit "+")); [by vm_compute..|].
  apply (K 1 (lit "Plus") (lit "+") []); [by vm_compute..|]. constructor.
Qed.
Lemma ex_twice_run : exists t, chain_run (engine ascii_digit) ex_sum_order 1000 ex_sum_g (rules_of ex_sum_tree) 4 (lit "12++") = Ret (t, [], None, [(2, 2)]).
Proof.
  assert (match chain_run (engine ascii_digit) ex_sum_order 1000 ex_sum_g (rules_of ex_sum_tree) 4 (lit "12++") with
    | Ret (t, [], None, [(2, 2)]) => true | _ => false end = true) as H by (by vm_compute).
  destruct (chain_run _ _ _ _ _ _ _) as [[[[t w] rest] mm]| |]; [|done..].
  destruct w; [|done]. destruct rest; [done|]. destruct mm as [|[[|[|[|k]]] [|[|[|u]]]] [|]]; try done. by exists t.
Qed.
