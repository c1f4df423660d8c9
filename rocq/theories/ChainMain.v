(** ChainMain.v -- C85: the single statements, the engine, an example. *)
From Verif Require Export ChainProofs Regex RegexProofs EbnfRefuted.

Lemma c85_reports_all compile G r g data name rules order ws s fuel t w rest mm :
  grammar_tree G r -> proper G -> load_tree r = Ret (g, data) -> no_collision (g_vocabulary g) G -> head (parser_rule_names G) = Some name ->
  iteration_order g order -> engine_ok compile -> compiled compile G rules -> (lit "WHITE_SPACE", ws) ∈ generated_constants data ->
  chain_run compile order fuel g data ws s = Ret (t, w, rest, mm) ->
  (w = [] <-> ll1 (productions g)) /\ (rest = None <-> exists ts, tokenized rules s ts).
Proof. intros Ht Hp Hload Hnc Hh Ho He Hc Hws. exact (proj1 (c85_all _ _ _ _ _ _ _ _ _ _ Ht Hp Hload Hnc Hh Ho He Hc Hws) fuel t w rest mm). Qed.

Lemma c85_silent_all compile G r g data name rules order ws s fuel t w :
  grammar_tree G r -> proper G -> load_tree r = Ret (g, data) -> no_collision (g_vocabulary g) G -> head (parser_rule_names G) = Some name ->
  iteration_order g order -> engine_ok compile -> compiled compile G rules -> (lit "WHITE_SPACE", ws) ∈ generated_constants data ->
  chain_run compile order fuel g data ws s = Ret (t, w, None, []) ->
  exists ts more, tokenized rules s ts /\ tree_of (g_vocabulary g) G name t /\
    map fst (visible ts) ++ [lit "_STOP"] = map token_name (rule_leaves t) ++ more.
Proof. intros Ht Hp Hload Hnc Hh Ho He Hc Hws. exact (proj1 (proj2 (c85_all _ _ _ _ _ _ _ _ _ _ Ht Hp Hload Hnc Hh Ho He Hc Hws)) fuel t w). Qed.

Lemma c85_accepts_all compile G r g data name rules order ws s ts :
  grammar_tree G r -> proper G -> load_tree r = Ret (g, data) -> no_collision (g_vocabulary g) G -> head (parser_rule_names G) = Some name ->
  iteration_order g order -> engine_ok compile -> compiled compile G rules -> (lit "WHITE_SPACE", ws) ∈ generated_constants data ->
  ll1 (productions g) -> tokenized rules s ts ->
  (exists t n, (forall fuel, n <= fuel -> chain_run compile order fuel g data ws s = Ret (t, [], None, [])) /\
     tree_of (g_vocabulary g) G name t /\ map (fun t => (token_name t, text t)) (rule_leaves t) = visible ts) <->
  matches_atom G (RuleRef name) (map fst (visible ts)).
Proof. intros Ht Hp Hload Hnc Hh Ho He Hc Hws. exact (proj2 (proj2 (c85_all _ _ _ _ _ _ _ _ _ _ Ht Hp Hload Hnc Hh Ho He Hc Hws)) ts). Qed.

Lemma c85_rules compile G r g data : grammar_tree G r -> proper G -> load_tree r = Ret (g, data) -> exists rules, compiled compile G rules.
Proof. intros Ht Hp Hl. eexists. exact (compiled_exists compile G r g data Ht Hp Hl). Qed.

Lemma tokenized_unique rules s ts ts' : (forall x m e t, (x, m) ∈ rules -> m t = Some e -> exists a b, t = a ++ b /\ blen a = e) ->
  tokenized rules s ts -> tokenized rules s ts' -> ts = ts'.
Proof.
  intros He H. revert ts'. induction H as [|i name m w rest ts Hi Hw H IH]; intros ts' H'.
  - inversion H' as [|j n' m' w' rest' ts0 Hj Hw' H0 E]; [done|]. subst. apply app_eq_nil in E as [-> ->]. destruct Hw' as [Hw' _]. cbn [blen] in Hw'. lia.
  - inversion H' as [E|j n' m' w' rest' ts0 Hj Hw' H0 E]; subst.
    + symmetry in E. apply app_eq_nil in E as [-> ->]. destruct Hw as [Hw _]. cbn [blen] in Hw. lia.
    + rewrite E in Hw'. destruct (wins_unique _ _ _ _ _ _ Hw Hw') as [<- El]. rewrite Hi in Hj. injection Hj as <- <-.
      symmetry in E. apply blen_prefix in E as [<- <-]; [|done]. f_equal. by apply IH.
Qed.
Lemma c85_unique compile G rules s ts ts' : engine_ok compile -> compiled compile G rules -> tokenized rules s ts -> tokenized rules s ts' -> ts = ts'.
Proof.
  intros He Hc. apply tokenized_unique. intros x m e t Hin Hm. unfold compiled in Hc. revert Hin. apply Forall2_flip in Hc.
  induction Hc as [|d e' ds es [Hd (y & _ & Hy)] _ IH]; intros Hin; [by apply elem_of_nil in Hin|].
  apply elem_of_cons in Hin as [<-|Hin]; [|by apply IH]. cbn [snd] in Hy. subst m. apply He in Hm as (a & b & -> & Eb). by exists a, b.
Qed.

(** *** The regex crate as an engine *)
Definition engine (nd : N -> bool) (x : str) : matcher := default (fun _ => None) (Regex.compile nd x).
Lemma engine_is_ok nd : engine_ok (engine nd).
Proof.
  intros x s e. unfold engine, Regex.compile. destruct (regex_of_text x) as [re|]; simpl; [|done].
  intros H. apply find_inv in H as (m & rest & -> & El & _). by exists m, rest.
Qed.

(** *** Example: sum: Num (Plus Num)*;  with white space *)
Definition ex_sum : list rule :=
  [ParserRule (lit "sum") [Sequence [ref "Num"; Element (Group [Sequence [ref "Plus"; ref "Num"]]) (Some (Star, false))]];
   LexerRule (lit "Num") (lit "/[0-9]+/"); LexerRule (lit "Plus") (lit "/\+/"); LexerRule (lit "WHITE_SPACE") (lit "/[ ]+/")].
Definition ex_sum_tree : rule_ctx := build_grammar ex_sum.
Definition ex_sum_g : grammar := grammar_of ex_sum_tree.
Definition ex_sum_order : list production := elements (productions ex_sum_g).
Definition ascii_digit (c : N) : bool := ((48 <=? c) && (c <=? 57))%N.
Definition ex_sum_rules : list (str * matcher) := map (fun d => (ld_name d, engine ascii_digit (ld_regex d))) (rules_of ex_sum_tree).
Definition ex_sum_tokens : list (str * str) :=
  [(lit "Num", lit "12"); (lit "WHITE_SPACE", lit " "); (lit "Plus", lit "+"); (lit "Num", lit "3")].

Definition wins_b (rs : list matcher) (s : str) (i len : nat) : bool :=
  (0 <? len) && match rs !! i with Some r => bool_decide (r s = Some len) | None => false end &&
  forallb (fun p : nat * matcher => match p.2 s with Some e => (e <=? len) && (negb (e =? len) || (i <=? p.1)) | None => true end) (imap pair rs).
Lemma wins_computed rs s i len : wins_b rs s i len = true -> wins rs s i len.
Proof.
  unfold wins_b. rewrite !andb_true_iff. intros [[Hl Hi] Hf]. apply Nat.ltb_lt in Hl. split; [done|]. split.
  - destruct (rs !! i) as [m|] eqn:E; [|done]. exists m. split; [done|]. by apply bool_decide_eq_true in Hi.
  - intros j m e Hj Hm. rewrite forallb_forall in Hf. specialize (Hf (j, m)). cbn [fst snd] in Hf.
    rewrite Hm in Hf. assert ((e <=? len) && (negb (e =? len) || (i <=? j)) = true) as H.
    { apply Hf. apply elem_of_list_In. apply elem_of_lookup_imap. eauto. }
    apply andb_true_iff in H as [H1 H2]. apply Nat.leb_le in H1. split; [done|]. intros ->. apply orb_true_iff in H2 as [H2|H2].
    + rewrite Nat.eqb_refl in H2. done.
    + by apply Nat.leb_le in H2.
Qed.
Lemma ex_sum_tokenized : tokenized ex_sum_rules (lit "12 +3") ex_sum_tokens.
Proof.
  assert (forall i n w rest ts, fst <$> ex_sum_rules !! i = Some n -> wins_b (map snd ex_sum_rules) (w ++ rest) i (blen w) = true ->
    tokenized ex_sum_rules rest ts -> tokenized ex_sum_rules (w ++ rest) ((n, w) :: ts)) as K.
  { intros i n w rest ts Hi Hw H. apply fmap_Some in Hi as ([n' m] & Hi & ->). eapply tokenized_cons; [done|by apply wins_computed|done]. }
  apply (K 0 (lit "Num") (lit "12") (lit " +3")); [by vm_compute..|].
  apply (K 2 (lit "WHITE_SPACE") (lit " ") (lit "+3")); [by vm_compute..|].
  apply (K 1 (lit "Plus") (lit "+") (lit "3")); [by vm_compute..|].
  apply (K 0 (lit "Num") (lit "3") []); [by vm_compute..|]. constructor.
Qed.
Lemma ex_sum_matches : matches_atom ex_sum (RuleRef (lit "sum")) (map fst (visible ex_sum_tokens)).
Proof.
  change (map fst (visible ex_sum_tokens)) with [lit "Num"; lit "Plus"; lit "Num"].
  eapply matches_rule; [apply elem_of_list_here|apply elem_of_list_here|]. constructor.
  apply (matches_cons _ _ _ [_] [_; _]); [repeat constructor|]. apply (matches_cons _ _ _ [_; _] []); [|constructor].
  apply (matches_star_cons _ _ _ [_; _] []); [|constructor]. eapply matches_group; [apply elem_of_list_here|]. constructor.
  apply (matches_cons _ _ _ [_] [_]); [repeat constructor|]. apply (matches_cons _ _ _ [_] []); repeat constructor.
Qed.
Lemma ex_sum_loaded : load_tree ex_sum_tree = Ret (ex_sum_g, rules_of ex_sum_tree).
Proof. apply loaded_ret. by vm_compute. Qed.
Lemma ex_sum_hyps : grammar_tree ex_sum ex_sum_tree /\ proper ex_sum /\ load_tree ex_sum_tree = Ret (ex_sum_g, rules_of ex_sum_tree) /\
  no_collision (g_vocabulary ex_sum_g) ex_sum /\ head (parser_rule_names ex_sum) = Some (lit "sum") /\ iteration_order ex_sum_g ex_sum_order /\
  engine_ok (engine ascii_digit) /\ compiled (engine ascii_digit) ex_sum ex_sum_rules /\
  (lit "WHITE_SPACE", 4) ∈ generated_constants (rules_of ex_sum_tree) /\ ll1 (productions ex_sum_g).
Proof.
  assert (grammar_tree ex_sum ex_sum_tree) as Ht by (by apply build_grammar_tree).
  assert (proper ex_sum) as Hp by (apply proper_computed; by vm_compute).
  split; [exact Ht|]. split; [exact Hp|]. split; [exact ex_sum_loaded|]. split; [apply no_collision_computed; by vm_compute|].
  split; [by vm_compute|]. split; [unfold iteration_order; reflexivity|]. split; [exact (engine_is_ok _)|].
  split; [exact (compiled_exists _ _ _ _ _ Ht Hp ex_sum_loaded)|]. split; [apply (bool_decide_unpack _); by vm_compute|].
  apply ll1_computed; by vm_compute.
Qed.
Lemma ex_sum_run : map (fun t => (token_name t, text t)) <$>
  match chain_run (engine ascii_digit) ex_sum_order 1000 ex_sum_g (rules_of ex_sum_tree) 4 (lit "12 +3") with
  | Ret (t, [], None, []) => Some (rule_leaves t)
  | _ => None
  end = Some [(lit "Num", lit "12"); (lit "Plus", lit "+"); (lit "Num", lit "3")].
Proof. by vm_compute. Qed.
