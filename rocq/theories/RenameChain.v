(** RenameChain.v -- C95 through the tool chain. *)
From Verif Require Export RenameProofs ShapeOnlyProofs Crash ChainMain.

Section chain.
  Context (ρ : str -> str) (Hρ : renaming ρ).
  Notation V := (rename_vocabulary ρ).
  Lemma build_table_map fuel order n v P : build_table fuel order (Grammar n (V v) P) = build_table fuel order (Grammar n v P).
  Proof using. done. Qed.
  Lemma names_map compile data s : token_names (generated_lexer compile (map (rename_data ρ) data) s) = map ρ (token_names (generated_lexer compile data s)).
  Proof using Hρ. destruct Hρ as (_ & H0 & H1). cbn [token_names generated_lexer map]. rewrite H0, H1. do 2 f_equal. by rewrite !map_map. Qed.
  Lemma regexes_map compile data s : regex_list (generated_lexer compile (map (rename_data ρ) data) s) = regex_list (generated_lexer compile data s).
  Proof using. cbn. by rewrite map_map. Qed.
  Notation R := (respelled ρ).
  Definition rename_scan (x : scan_result * lexer_st) : scan_result * lexer_st := (match x.1 with STok t => STok (R t) | SErr => SErr end, x.2).
  Lemma scan_map compile data s st : scan (generated_lexer compile (map (rename_data ρ) data) s) st = rmap rename_scan (scan (generated_lexer compile data s) st).
  Proof using Hρ.
    unfold scan. cbn [input generated_lexer]. destruct (blen s <? cursor st); [done|]. destruct (blen s <=? cursor st).
    { assert (R (stop_token st) = stop_token st) as Hs by (unfold stop_token, respelled; cbn [token_name]; by rewrite (proj2 (proj2 Hρ))).
      cbn [rmap]. unfold rename_scan. cbn [fst snd]. by rewrite Hs. }
    unfold scan_body. rewrite names_map, regexes_map. cbn [input generated_lexer].
    destruct (drop_bytes (cursor st) s) as [rest|]; cbn [unwrap rbind]; [|done]. destruct (select _ rest) as [len ty]. destruct (ty <=? 0); [done|].
    destruct (slice_bytes _ _ s) as [txt|]; cbn [unwrap rbind]; [|done]. rewrite list_lookup_fmap. by destruct (token_names _ !! ty).
  Qed.
  Lemma scan_loop_map compile data s skip chan fuel : forall st acc,
    scan_loop (scan (generated_lexer compile (map (rename_data ρ) data) s)) skip chan fuel st (map R acc) =
    rmap (fun x => (map R x.1, x.2)) (scan_loop (scan (generated_lexer compile data s)) skip chan fuel st acc).
  Proof using Hρ.
    induction fuel as [|fuel IH]; intros st acc; [done|]. cbn [scan_loop]. rewrite scan_map.
    destruct (scan (generated_lexer compile data s) st) as [[[t|] st']| |]; cbn [rmap rbind rename_scan fst snd]; [|done..].
    cbn [respelled token_type channel]. destruct (skip _); [apply IH|]. destruct (channel t =? chan); [|apply IH]. rewrite <- IH. by rewrite map_app.
  Qed.
  Lemma scan_all_map compile data s ws chan fuel st :
    scan_all (generated_lexer compile (map (rename_data ρ) data) s) ws chan fuel st =
    rmap (fun x => (map R x.1, x.2)) (scan_all (generated_lexer compile data s) ws chan fuel st).
  Proof using Hρ.
    unfold scan_all. rewrite (scan_loop_map compile data s _ chan fuel st []).
    destruct (scan_loop _ _ _ _ _ _) as [[toks st']| |]; cbn [rmap rbind fst snd]; [|done..]. cbn [input generated_lexer].
    destruct (cursor st' <? blen s); [|done]. by destruct (drop_bytes (cursor st') s).
  Qed.
  Lemma constants_map data n i : (n, i) ∈ generated_constants data -> (ρ n, i) ∈ generated_constants (map (rename_data ρ) data).
  Proof using Hρ.
    destruct Hρ as (_ & H0 & H1). unfold generated_constants. rewrite !elem_of_cons, map_map. intros [E|[E|E]].
    - injection E as -> ->. left. by rewrite H0.
    - injection E as -> ->. right; left. by rewrite H1.
    - right; right. apply elem_of_list_fmap in E as (d & E & Hd). injection E as -> ->. apply elem_of_list_fmap. by exists d.
  Qed.
  Lemma named_map v : named_alike v (V v).
  Proof using.
    intros i. unfold get_nonterminal_name_by_id. cbn. rewrite lookup_fmap. by destruct (nt_id_to_name v !! i).
  Qed.
End chain.

Lemma alike_names (N N' : nat -> str -> str -> Prop) R r r' : (forall i n n', N i n n' -> N' i n n') -> ctx_alike N R r r' -> ctx_alike N' R r r'.
Proof.
  intros H. revert r r'. apply (ctx_alike_ind2 N R (fun a a' _ => ast_alike N' R a a') (fun r r' _ => ctx_alike N' R r r') (fun l l' _ => asts_alike N' R l l'));
    intros; constructor; auto.
Qed.
Lemma own_renamed ρ v i n n' : own_names v (rename_vocabulary ρ v) i n n' -> renamed_node ρ v i n n'.
Proof.
  intros [-> ->]. unfold renamed_node, get_nonterminal_name_with_default, get_nonterminal_name_by_id. cbn. rewrite lookup_fmap.
  by destruct (nt_id_to_name v !! i).
Qed.

Lemma c95_chain compile ρ G r r' g data order fuel ws s :
  renaming ρ -> grammar_tree G r -> grammar_tree (map (rename_rule ρ) G) r' -> load_tree r = Ret (g, data) ->
  exists g' data', load_tree r' = Ret (g', data') /\ productions g' = productions g /\
  (forall n i, (n, i) ∈ generated_constants data -> (ρ n, i) ∈ generated_constants data') /\
  match chain_log compile order fuel g data ws s, chain_log compile order fuel g' data' ws s with
  | Ret (w, rest, (lines, o)), Ret (w', rest', (lines', o')) => w = w' /\ rest = rest' /\ lines = lines' /\
      match o, o' with
      | inl t, inl t' => ctx_alike (renamed_node ρ (g_vocabulary g)) (fun t t' => t' = respelled ρ t) t t'
      | inr e, inr e' => e = e'
      | _, _ => False
      end
  | Panic, Panic => True
  | OutOfFuel, OutOfFuel => True
  | _, _ => False
  end.
Proof.
  intros Hρ H H' E. pose proof (c95_load ρ G r r' Hρ H H') as E'. rewrite E in E'. eexists _, _. split; [exact E'|]. split; [done|].
  split; [intros n i; by apply constants_map|]. unfold chain_log. rewrite build_table_map. destruct g as [gn v P]. cbn [g_name g_vocabulary productions].
  destruct (build_table fuel order _) as [[tab w]| |]; cbn [rbind]; [|done..]. rewrite scan_all_map by done.
  destruct (scan_all _ ws 0 fuel lexer_init) as [[toks rest]| |]; cbn [rbind rmap fst snd]; [|done..].
  assert (Forall2 (fun t t' => t' = respelled ρ t) toks (map (respelled ρ) toks)) as Ht by (induction toks; constructor; done).
  pose proof (c94_log v (rename_vocabulary ρ v) tab (fun t t' => t' = respelled ρ t) toks (map (respelled ρ) toks) fuel 0 0 (named_map ρ v) ltac:(by intros t ? ->) Ht) as [H1 H2].
  unfold log_parse. destruct (log_ast v tab toks fuel 0 0) as [l [[t c]|e]], (log_ast (rename_vocabulary ρ v) tab (map (respelled ρ) toks) fuel 0 0) as [l' [[t' c']|e']];
    cbn in H1, H2 |- *; try done; subst; split_and!; try done.
  destruct H2 as [H2 _]. eapply alike_names; [|exact H2]. apply own_renamed.
Qed.

(** Exchange two names. *)
Definition exchange (a b n : str) : str := if decide (n = a) then b else if decide (n = b) then a else n.
Lemma exchange_renaming a b : a <> lit "_START" -> a <> lit "_STOP" -> b <> lit "_START" -> b <> lit "_STOP" -> renaming (exchange a b).
Proof.
  intros H1 H2 H3 H4. split_and!.
  - intros x y. unfold exchange. repeat case_decide; congruence.
  - unfold exchange. by rewrite !decide_False by done.
  - unfold exchange. by rewrite !decide_False by done.
Qed.

(** The sums of C85 with Num and Plus exchanged and sum called total. *)
Definition ex_ρ (n : str) : str := exchange (lit "Num") (lit "Plus") (exchange (lit "sum") (lit "total") n).
Lemma ex_ρ_renaming : renaming ex_ρ.
Proof.
  assert (renaming (exchange (lit "Num") (lit "Plus"))) as (H1 & H2 & H3) by (by apply exchange_renaming).
  assert (renaming (exchange (lit "sum") (lit "total"))) as (K1 & K2 & K3) by (by apply exchange_renaming).
  split_and!; unfold ex_ρ.
  - intros x y E. by apply H1, K1 in E.
  - by rewrite K2, H2.
  - by rewrite K3, H3.
Qed.
Lemma ex_c95 : renaming ex_ρ /\ grammar_tree ex_sum ex_sum_tree /\ grammar_tree (map (rename_rule ex_ρ) ex_sum) (build_grammar (map (rename_rule ex_ρ) ex_sum)) /\
  load_tree ex_sum_tree = Ret (ex_sum_g, rules_of ex_sum_tree) /\
  head (map (rename_rule ex_ρ) ex_sum) = Some (ParserRule (lit "total") [Sequence [ref "Plus"; Element (Group [Sequence [ref "Num"; ref "Plus"]]) (Some (Star, false))]]).
Proof.
  split; [apply ex_ρ_renaming|]. destruct ex_sum_hyps as (H1 & _ & H2 & _). split; [done|]. split; [|split; [done|by vm_compute]].
  apply build_grammar_tree. by vm_compute.
Qed.
Definition loaded_rules (x : res (grammar * list lexer_rule_data)) : nat := match x with Ret (_, data) => length data | _ => 0 end.
Lemma c95_builtin : exists ρ G r r', Inj (=) (=) ρ /\ grammar_tree G r /\ grammar_tree (map (rename_rule ρ) G) r' /\ load_tree r' <> rename_loaded ρ (load_tree r).
Proof.
  exists (exchange (lit "Num") (lit "_STOP")), ex_sum, ex_sum_tree, (build_grammar (map (rename_rule (exchange (lit "Num") (lit "_STOP"))) ex_sum)).
  split; [intros x y; unfold exchange; repeat case_decide; congruence|]. split; [by destruct ex_sum_hyps|]. split; [apply build_grammar_tree; by vm_compute|].
  intros E. apply (f_equal loaded_rules) in E. destruct ex_sum_hyps as (_ & _ & H & _). rewrite H in E. cbn [rename_loaded loaded_rules] in E. rewrite map_length in E.
  assert (length (rules_of ex_sum_tree) = 3) as L by (vm_compute; reflexivity). rewrite L in E.
  assert (loaded_rules (load_tree (build_grammar (map (rename_rule (exchange (lit "Num") (lit "_STOP"))) ex_sum))) = 2) as L2 by (vm_compute; reflexivity).
  rewrite L2 in E. discriminate E.
Qed.
