(** GrowMain.v -- C97: concrete cases. *)
From Verif Require Export GrowProofs ChainMain.

Lemma never_longer_computed olds news s :
  forallb (fun k => forallb (fun m => match m (drop k s) with
    | Some e => (e =? 0) || existsb (fun m' => match m' (drop k s) with Some e' => e <=? e' | None => false end) olds
    | None => true end) news) (seq 0 (S (length s))) = true -> never_longer olds news s.
Proof.
  intros H rest [p ->] m e Hm E. apply elem_of_list_In in Hm. rewrite forallb_forall in H. specialize (H (length p)). rewrite drop_app in H.
  rewrite forallb_forall in H. specialize (H ltac:(apply in_seq; rewrite app_length; lia) m Hm). rewrite E in H. apply orb_prop in H as [H|H].
  - left. by apply Nat.eqb_eq.
  - right. apply existsb_exists in H as (m' & Hm' & H). destruct (m' rest) as [e'|] eqn:E'; [|done]. exists m', e'. rewrite elem_of_list_In. apply Nat.leb_le in H. done.
Qed.

(** Two tokens more, one of them known already. *)
Definition ex_more : list rule := [LexerRule (lit "Digit") (lit "/[0-9]/"); LexerRule (lit "Num") (lit "/x/"); LexerRule (lit "Minus") (lit "/-/")].
Lemma ex_c97 : grammar_tree ex_sum ex_sum_tree /\ grammar_tree (ex_sum ++ ex_more) (build_grammar (ex_sum ++ ex_more)) /\ Forall token_rule ex_more /\
  load_tree ex_sum_tree = Ret (ex_sum_g, rules_of ex_sum_tree) /\
  new_names (dom (t_name_to_id (g_vocabulary ex_sum_g))) (lexer_rule_names ex_more) = [lit "Digit"; lit "Minus"] /\ length (rules_of ex_sum_tree) = 3.
Proof.
  split; [by destruct ex_sum_hyps|]. split; [apply build_grammar_tree; by vm_compute|]. split.
  { apply Forall_cons; split; [by exists (lit "Digit"), (lit "[0-9]")|]. apply Forall_cons; split; [by exists (lit "Num"), (lit "x")|].
    apply Forall_cons; split; [by exists (lit "Minus"), (lit "-")|]. by apply Forall_nil. }
  split; [exact ex_sum_loaded|]. split; [by vm_compute|by vm_compute].
Qed.
Lemma ex_c97_chain : load_tree (build_grammar (ex_sum ++ ex_more)) = Ret (grammar_of (build_grammar (ex_sum ++ ex_more)), rules_of (build_grammar (ex_sum ++ ex_more))) /\
  rules_of (build_grammar (ex_sum ++ ex_more)) = rules_of ex_sum_tree ++ [LexerRuleData 5 (lit "Digit") (lit "^([0-9])"); LexerRuleData 6 (lit "Minus") (lit "^(-)")] /\
  never_longer (map (fun t => engine ascii_digit (ld_regex t)) (rules_of ex_sum_tree))
    (map (fun t => engine ascii_digit (ld_regex t)) [LexerRuleData 5 (lit "Digit") (lit "^([0-9])"); LexerRuleData 6 (lit "Minus") (lit "^(-)")]) (lit "12 +3").
Proof. split; [apply loaded_ret; by vm_compute|]. split; [by vm_compute|]. apply never_longer_computed. by vm_compute. Qed.

(** A rule more, and the nameless rules have other numbers. *)
Definition ex_rule_more : list rule := [ParserRule (lit "more") [Sequence [Element (TokenRef (lit "Num")) None]]].
Lemma c97_nameless : exists G G2 r r' g data g' data', grammar_tree G r /\ grammar_tree (G ++ G2) r' /\ load_tree r = Ret (g, data) /\ load_tree r' = Ret (g', data') /\
  ~ productions g ⊆ productions g'.
Proof.
  exists ex_sum, ex_rule_more, ex_sum_tree, (build_grammar (ex_sum ++ ex_rule_more)), ex_sum_g, (rules_of ex_sum_tree).
  exists (grammar_of (build_grammar (ex_sum ++ ex_rule_more))), (rules_of (build_grammar (ex_sum ++ ex_rule_more))).
  split; [by destruct ex_sum_hyps|]. split; [apply build_grammar_tree; by vm_compute|]. split; [exact ex_sum_loaded|].
  split; [apply loaded_ret; by vm_compute|]. apply (bool_decide_unpack _). vm_compute. exact I.
Qed.
(** A new rule that matches more changes what a text means. *)
Definition ex_longer : list rule := [LexerRule (lit "Plus3") (lit "/\+3/")].
Lemma c97_longer : exists compile G Ts r r' g data g' data' order fuel ws s,
  grammar_tree G r /\ grammar_tree (G ++ Ts) r' /\ Forall token_rule Ts /\ load_tree r = Ret (g, data) /\ load_tree r' = Ret (g', data') /\
  chain_log compile order fuel g' data' ws s <> chain_log compile order fuel g data ws s.
Proof.
  exists (engine ascii_digit), ex_sum, ex_longer, ex_sum_tree, (build_grammar (ex_sum ++ ex_longer)), ex_sum_g, (rules_of ex_sum_tree).
  exists (grammar_of (build_grammar (ex_sum ++ ex_longer))), (rules_of (build_grammar (ex_sum ++ ex_longer))), ex_sum_order, 1000, 4, (lit "12 +3").
  split; [by destruct ex_sum_hyps|]. split; [apply build_grammar_tree; by vm_compute|].
  split; [apply Forall_cons; split; [by exists (lit "Plus3"), (lit "\+3")|by apply Forall_nil]|]. split; [exact ex_sum_loaded|].
  split; [apply loaded_ret; by vm_compute|].
  set (f := fun x : res (list (production * production) * option str * logged rule_ctx) => match x with Ret (_, _, (_, inl _)) => true | _ => false end).
  intros E. apply (f_equal f) in E. vm_compute in E. discriminate E.
Qed.
