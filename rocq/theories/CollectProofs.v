(** CollectProofs.v -- the collecting visitors (C47, C48). *)
From Verif Require Export VisitorMain.

(** ** Unwrapping a literal *)
Lemma blen_one s : blen s = 1 -> exists a, s = [a] /\ utf8_len a = 1.
Proof.
  destruct s as [|a s]; simpl; [done|]. intros H. pose proof (utf8_len_pos a). exists a.
  assert (s = []) as -> by (apply blen_nil; lia). simpl in H. split; [done|lia].
Qed.
Lemma slice_delimited r body : slice_bytes 1 (blen r - 1) r = Some body <-> delimited r body.
Proof.
  split.
  - unfold slice_bytes. destruct (Nat.ltb_spec (blen r - 1) 1) as [|Hl]; [done|].
    destruct (drop_bytes 1 r) as [q|] eqn:Ed; [|done]. intros Et.
    apply drop_bytes_inv in Ed as (p & -> & Hp). apply take_bytes_inv in Et as (q' & -> & Hb).
    rewrite !blen_app in Hb. rewrite !blen_app in Hl. apply blen_one in Hp as (a & -> & Ha).
    assert (blen q' = 1) as Hq by (simpl in Hb, Hl; lia). apply blen_one in Hq as (b & -> & Hb').
    exists a, b. done.
  - intros (a & b & -> & Ha & Hb). pose proof (slice_bytes_app [a] body [b]) as H. simpl app in H.
    replace (blen [a]) with 1 in H by (simpl; lia).
    replace (blen (a :: body)) with (blen (a :: body ++ [b]) - 1) in H by (simpl; rewrite blen_app; simpl; lia). done.
Qed.
Lemma delimited_blen r body : delimited r body -> 2 <= blen r.
Proof. intros (a & b & -> & Ha & Hb). simpl. rewrite blen_app. simpl. lia. Qed.

Lemma replace_unescaped s : unescaped s (replace (lit "\/") (lit "/") s).
Proof.
  unfold replace. change (lit "\/") with [92%N; 47%N]. change (lit "/") with [47%N].
  remember (length s) as n eqn:Hn. assert (length s <= n) as Hl by lia. clear Hn.
  revert s Hl. induction n as [|n IH]; intros s Hl.
  { destruct s; simpl in Hl; [constructor|lia]. }
  destruct s as [|c s]; [constructor|]. cbn [replace_go].
  destruct (strip_prefix [92%N; 47%N] (c :: s)) as [q|] eqn:E.
  - cbn [strip_prefix] in E. destruct (N.eqb_spec 92 c) as [<-|]; [|done]. destruct s as [|c' s]; [done|].
    destruct (N.eqb_spec 47 c') as [<-|]; [|done]. cbn [length Nat.sub replace_go].
    apply (unescaped_slash s). apply IH. simpl in Hl. lia.
  - apply unescaped_other; [|apply IH; simpl in Hl; lia].
    intros s0 Es. change (lit "\/" ++ s0) with (92%N :: 47%N :: s0) in Es. rewrite Es in E. simpl in E. done.
Qed.
Lemma unescaped_fun s s1 s2 : unescaped s s1 -> unescaped s s2 -> s1 = s2.
Proof.
  intros H. revert s2. induction H as [|s s' H IH|c s s' Hc H IH]; intros s2 H2.
  - by inversion H2.
  - inversion H2 as [|s0 s0' H0 E1 E2|c0 s0 s0' Hc0 H0 E1 E2]; subst.
    + f_equal. by apply IH.
    + exfalso. by apply (Hc0 s).
  - inversion H2 as [|s0 s0' H0 E1 E2|c0 s0 s0' Hc0 H0 E1 E2]; subst.
    + exfalso. by apply (Hc s0).
    + f_equal. by apply IH.
Qed.

Lemma unwrap_regular_spec r x : unwrap_regular r = Ret x <-> regex_of r x.
Proof.
  unfold unwrap_regular. split.
  - destruct (slice_bytes 1 (blen r - 1) r) as [body|] eqn:E; simpl; [|done]. intros [= <-].
    apply slice_delimited in E. exists body, (replace (lit "\/") (lit "/") body). split; [done|]. split; [apply replace_unescaped|done].
  - intros (body & body' & Hd & Hu & ->). apply slice_delimited in Hd. rewrite Hd. simpl.
    by rewrite (unescaped_fun _ _ _ Hu (replace_unescaped body)).
Qed.
Lemma unwrap_regular_panic r : unwrap_regular r = Panic <-> ~ exists body, delimited r body.
Proof.
  unfold unwrap_regular. destruct (slice_bytes 1 (blen r - 1) r) as [body|] eqn:E; simpl; split; try done.
  - intros H. exfalso. apply H. exists body. by apply slice_delimited.
  - intros _ [body H]. apply slice_delimited in H. congruence.
Qed.
Lemma unwrap_regular_fuel r : unwrap_regular r <> OutOfFuel.
Proof. unfold unwrap_regular. by destruct (slice_bytes _ _ _). Qed.

(** ** One lexer rule *)
Lemma get_terminal_leaves n ty : get_terminal n ty 0 = head (leaves_of ty n).
Proof.
  unfold get_terminal. assert (get_terminals n ty = leaves_of ty n) as ->; [|by destruct (leaves_of ty n)].
  unfold get_terminals, leaves_of. enough (forall acc, fold_left (fun acc child => match child with Terminal t => if token_type t =? ty then acc ++ [t] else acc | _ => acc end) (children n) acc = acc ++ omap (fun a => match a with Terminal t => if token_type t =? ty then Some t else None | _ => None end) (children n)) as K by apply (K []).
  induction (children n) as [|a cs IH]; intros acc; cbn [fold_left]; [cbn; by rewrite app_nil_r|]. rewrite IH.
  destruct a as [t| |]; try done. cbn [omap list_omap]. destruct (token_type t =? ty); [by rewrite <- app_assoc|done].
Qed.
Lemma get_rule_context_nodes n i : get_rule_context n i 0 = head (nodes_of i n).
Proof.
  unfold get_rule_context. assert (get_rule_contexts n i = nodes_of i n) as ->; [|by destruct (nodes_of i n)].
  unfold get_rule_contexts, nodes_of. enough (forall acc, fold_left (fun acc child => match child with Rule c => if rule_index c =? i then acc ++ [c] else acc | _ => acc end) (children n) acc = acc ++ omap (fun a => match a with Rule c => if rule_index c =? i then Some c else None | _ => None end) (children n)) as K by apply (K []).
  induction (children n) as [|a cs IH]; intros acc; cbn [fold_left]; [cbn; by rewrite app_nil_r|]. rewrite IH.
  destruct a as [|c|]; try done. cbn [omap list_omap]. destruct (rule_index c =? i); [by rewrite <- app_assoc|done].
Qed.
Lemma defines_acc n name regular : defines n name regular <->
  exists t reg rl, lexer_rule_token_ref n = Some t /\ lexer_rule_regular n = Some reg /\
    regular_regular_literal reg = Some rl /\ text t = name /\ text rl = regular.
Proof.
  unfold defines, lexer_rule_token_ref, lexer_rule_regular, regular_regular_literal.
  setoid_rewrite get_terminal_leaves. setoid_rewrite get_rule_context_nodes. done.
Qed.
Lemma definition_of_acc n : definition_of n =
  match lexer_rule_token_ref n with
  | Some t => match lexer_rule_regular n with
              | Some reg => match regular_regular_literal reg with
                            | Some rl => if blen (text rl) <? 2 then None else Some (text t, text rl)
                            | None => None
                            end
              | None => None
              end
  | None => None
  end.
Proof.
  unfold definition_of, lexer_rule_token_ref, lexer_rule_regular. rewrite get_terminal_leaves, get_rule_context_nodes.
  destruct (leaves_of TOKEN_REF n), (nodes_of REGULAR n) as [|reg ?]; try done. cbn [head].
  unfold regular_regular_literal. rewrite get_terminal_leaves. by destruct (leaves_of REGULAR_LITERAL reg).
Qed.
Lemma c47_symbol ctx s name regular :
  defines ctx name regular -> is_terminal_name_defined (sy_vocabulary s) name = false ->
  (blen regular < 2 -> symbol_visit_lexer_rule ctx s = Ret (tt, s)) /\
  (forall body body', delimited regular body -> unescaped body body' ->
     exists s', symbol_visit_lexer_rule ctx s = Ret (tt, s') /\
       sy_data s' = sy_data s ++ [LexerRuleData (sy_next_token_id s) name (lit "^(" ++ body' ++ lit ")")]) /\
  (symbol_visit_lexer_rule ctx s = Panic <-> 2 <= blen regular /\ ~ exists body, delimited regular body).
Proof.
  intros (t & reg & rl & H1 & H2 & H3 & <- & <-)%defines_acc Hn. unfold symbol_visit_lexer_rule.
  rewrite H1. simpl. rewrite Hn, H2. simpl. rewrite H3. simpl. split_and!.
  - intros H. by rewrite (proj2 (Nat.ltb_lt _ _) H).
  - intros body body' Hd Hu. rewrite (proj2 (Nat.ltb_ge _ _) (delimited_blen _ _ Hd)).
    rewrite (proj2 (unwrap_regular_spec (text rl) (lit "^(" ++ body' ++ lit ")"))) by (exists body, body'; done). simpl. eauto.
  - destruct (Nat.ltb_spec (blen (text rl)) 2); [split; [done|lia]|].
    rewrite <- unwrap_regular_panic. destruct (unwrap_regular (text rl)); simpl; split; naive_solver.
Qed.
Lemma c47_lexer ctx s name regular :
  defines ctx name regular -> name ∉ map ld_name (le_data s) ->
  (blen regular < 2 -> lexer_visit_lexer_rule ctx s = Ret (tt, s)) /\
  (forall body body', delimited regular body -> unescaped body body' ->
     lexer_visit_lexer_rule ctx s = Ret (tt, LexerState
       (le_data s ++ [LexerRuleData (le_next_token_type s) name (lit "^(" ++ body' ++ lit ")")]) (S (le_next_token_type s)))) /\
  (lexer_visit_lexer_rule ctx s = Panic <-> 2 <= blen regular /\ ~ exists body, delimited regular body).
Proof.
  intros (t & reg & rl & H1 & H2 & H3 & <- & <-)%defines_acc Hn. unfold lexer_visit_lexer_rule. rewrite H1. simpl.
  assert (existsb (fun d => bool_decide (ld_name d = text t)) (le_data s) = false) as ->.
  { apply not_true_iff_false. intros Ht. apply existsb_exists in Ht as (d & Hd & He). apply bool_decide_eq_true in He.
    apply Hn. rewrite <- He. apply elem_of_list_fmap. exists d. split; [done|]. by apply elem_of_list_In. }
  rewrite H2. simpl. rewrite H3. simpl. split_and!.
  - intros H. by rewrite (proj2 (Nat.ltb_lt _ _) H).
  - intros body body' Hd Hu. rewrite (proj2 (Nat.ltb_ge _ _) (delimited_blen _ _ Hd)).
    rewrite (proj2 (unwrap_regular_spec (text rl) (lit "^(" ++ body' ++ lit ")"))) by (exists body, body'; done). simpl. eauto.
  - destruct (Nat.ltb_spec (blen (text rl)) 2); [split; [done|lia]|].
    rewrite <- unwrap_regular_panic. destruct (unwrap_regular (text rl)); simpl; split; naive_solver.
Qed.
Lemma c47_unescape s : exists s', unescaped s s' /\ forall s'', unescaped s s'' -> s'' = s'.
Proof. exists (replace (lit "\/") (lit "/") s). split; [apply replace_unescaped|]. intros s'' H. eapply unescaped_fun; [done|apply replace_unescaped]. Qed.

(** ** Collecting *)
Lemma first_occurrences_ext {A} (key : A -> str) seen seen' l :
  (forall x, x ∈ seen <-> x ∈ seen') -> first_occurrences key seen l = first_occurrences key seen' l.
Proof.
  revert seen seen'. induction l as [|x l IH]; intros seen seen' H; [done|]. simpl.
  rewrite (bool_decide_ext _ _ (H (key x))). case_bool_decide; [by apply IH|]. f_equal. apply IH.
  intros y. rewrite !elem_of_cons, H. done.
Qed.
Definition entry_ok (e : str * str) (d : lexer_rule_data) : Prop := ld_name d = fst e /\ regex_of (snd e) (ld_regex d).
Definition numbered (start : nat) (l : list lexer_rule_data) : Prop := forall i d, l !! i = Some d -> ld_type d = start + i.

Lemma numbered_nil start : numbered start [].
Proof. intros i d H. by rewrite lookup_nil in H. Qed.
Lemma numbered_cons start d l : ld_type d = start -> numbered (S start) l -> numbered start (d :: l).
Proof. intros Hd H [|i] d'; simpl; [intros [= <-]; lia|]. intros Hi. rewrite (H i d' Hi). lia. Qed.

Lemma name_seen (l : list lexer_rule_data) n : existsb (fun d => bool_decide (ld_name d = n)) l = bool_decide (n ∈ map ld_name l).
Proof.
  induction l as [|d l IH]; [done|]. cbn [existsb map]. rewrite IH. repeat case_bool_decide; set_solver.
Qed.

Lemma lexer_collect nodes s s' :
  rfold (fun s r => let! (_, s') := lexer_visit_lexer_rule r s in Ret s') nodes s = Ret s' ->
  exists new, le_data s' = le_data s ++ new /\ le_next_token_type s' = le_next_token_type s + length new /\
    Forall2 entry_ok (first_occurrences fst (map ld_name (le_data s)) (omap definition_of nodes)) new /\
    numbered (le_next_token_type s) new.
Proof.
  revert s. induction nodes as [|n nodes IH]; intros s H; cbn [rfold] in H.
  { injection H as <-. exists []. rewrite app_nil_r, Nat.add_0_r. split_and!; [done|done|constructor|apply numbered_nil]. }
  destruct (lexer_visit_lexer_rule n s) as [[[] s1]| |] eqn:E; cbn [rbind] in H; [|done|done].
  unfold lexer_visit_lexer_rule in E. destruct (lexer_rule_token_ref n) as [t|] eqn:Et; cbn [rbind unwrap] in E; [|done].
  rewrite name_seen in E. case_bool_decide as Hseen.
  - injection E as <-. destruct (IH s H) as (new & ? & ? & HF & ?). exists new. split_and!; [done|done| |done].
    cbn [omap list_omap]. destruct (definition_of n) as [[nm rg]|] eqn:Ed; [|done].
    cbn [first_occurrences fst]. rewrite definition_of_acc in Ed. rewrite Et in Ed. repeat case_match; try done.
    all: injection Ed as <- <-; try done; by rewrite bool_decide_eq_true_2 in * by done.
  - destruct (lexer_rule_regular n) as [reg|] eqn:Er; cbn [rbind unwrap] in E; [|done].
    destruct (regular_regular_literal reg) as [rl|] eqn:El; cbn [rbind unwrap] in E; [|done].
    destruct (Nat.ltb_spec (blen (text rl)) 2) as [Hlt|Hge].
    + injection E as <-. destruct (IH s H) as (new & ? & ? & HF & ?). exists new. split_and!; [done|done| |done].
      cbn [omap list_omap]. rewrite definition_of_acc at 1. by rewrite Et, Er, El, (proj2 (Nat.ltb_lt _ _) Hlt).
    + destruct (unwrap_regular (text rl)) as [x| |] eqn:Ex; cbn [rbind] in E; [|done|done]. injection E as <-.
      destruct (IH _ H) as (new & E1 & E2 & HF & HN). cbn [le_data le_next_token_type] in *.
      eexists (_ :: new). rewrite <- app_assoc in E1. split_and!; [exact E1| | |].
      * rewrite E2. simpl. lia.
      * cbn [omap list_omap]. rewrite definition_of_acc at 1. rewrite Et, Er, El, (proj2 (Nat.ltb_ge _ _) Hge).
        cbn [first_occurrences fst]. rewrite bool_decide_eq_false_2 by done. constructor.
        -- split; [done|]. by apply unwrap_regular_spec.
        -- erewrite first_occurrences_ext; [exact HF|]. intros y. rewrite map_app. set_solver.
      * by apply numbered_cons.
Qed.

Lemma outermost_index p r n : n ∈ outermost p r -> p (rule_index n) = true.
Proof.
  induction r as [m cs i IH] using tree_ind. simpl. destruct (p i) eqn:E.
  - intros ->%elem_of_list_singleton. done.
  - induction cs as [|[t|c|t] cs IHcs]; [by intros ?%elem_of_nil|..].
    + apply IHcs. intros r Hr. apply IH. by apply elem_of_list_further.
    + rewrite elem_of_app. intros [H|H]; [by eapply IH; [apply elem_of_list_here|]|].
      apply IHcs; [|done]. intros r Hr. apply IH. by apply elem_of_list_further.
    + apply IHcs. intros r Hr. apply IH. by apply elem_of_list_further.
Qed.
Lemma outermost_below_index p r n : n ∈ outermost_below p r -> p (rule_index n) = true.
Proof.
  unfold outermost_below. intros Hn. apply elem_of_list_In, in_concat in Hn as (l & Hl & Hn).
  apply in_map_iff in Hl as (a & <- & _). destruct a as [t|c|t]; [done| |done]. apply elem_of_list_In in Hn. by apply outermost_index in Hn.
Qed.
Lemma first_occurrences_in seen l x : x ∉ seen -> x ∈ l -> x ∈ first_occurrences id seen l.
Proof.
  revert seen. induction l as [|y l IH]; intros seen Hs Hl; [by apply elem_of_nil in Hl|]. simpl.
  case_bool_decide as Hy; apply elem_of_cons in Hl as [->|Hl].
  - done.
  - by apply IH.
  - apply elem_of_list_here.
  - destruct (decide (x = y)) as [->|Hne]; [apply elem_of_list_here|]. apply elem_of_list_further. apply IH; [|done].
    rewrite elem_of_cons. intros [?|?]; done.
Qed.

Lemma lexer_fold r s : visit_children lexer_visitor r s =
  let! s' := rfold (fun s r => let! (_, s') := lexer_visit_lexer_rule r s in Ret s') (outermost_below (fun i => i =? LEXER_RULE) r) s in Ret (tt, s').
Proof.
  rewrite visit_children_fold by done.
  rewrite (outermost_below_ext _ (fun i => i =? LEXER_RULE)).
  2:{ intros i. unfold overridden. destruct i as [|[|[|[|[|[|[|[|[|i]]]]]]]]]; done. }
  f_equal. assert (HF : Forall (fun n => rule_index n = LEXER_RULE) (outermost_below (fun i => i =? LEXER_RULE) r)).
  { apply Forall_forall. intros n Hn. apply outermost_below_index in Hn. by apply Nat.eqb_eq. }
  revert s. induction HF as [|n l Hn _ IH]; intros s; [done|]. cbn [rfold]. unfold visit_step at 1. rewrite Hn.
  change (v_override lexer_visitor LEXER_RULE) with (Some lexer_visit_lexer_rule). cbn [rbind].
  destruct (lexer_visit_lexer_rule n s) as [[[] s']| |]; cbn [rbind]; [apply IH|done|done].
Qed.

Lemma c48_lexer_rules r data next s' x :
  visit_children lexer_visitor r (LexerState data next) = Ret (x, s') ->
  exists new, le_data s' = data ++ new /\ le_next_token_type s' = next + length new /\
    (forall i d, new !! i = Some d -> ld_type d = next + i) /\
    Forall2 (fun e d => ld_name d = fst e /\ regex_of (snd e) (ld_regex d))
      (first_occurrences fst (map ld_name data) (omap definition_of (outermost_below (fun i => i =? LEXER_RULE) r))) new.
Proof.
  rewrite lexer_fold. destruct (rfold _ _ _) as [s1| |] eqn:E; simpl; [|done|done]. intros [= _ <-].
  apply lexer_collect in E as (new & ? & ? & ? & ?). exists new. done.
Qed.
Lemma c48_lexer_rules_return r data next :
  (forall n, n ∈ outermost_below (fun i => i =? LEXER_RULE) r ->
     exists name regular body, defines n name regular /\ delimited regular body) ->
  exists s', visit_children lexer_visitor r (LexerState data next) = Ret (tt, s').
Proof.
  intros H. rewrite lexer_fold. generalize (LexerState data next) as s.
  induction (outermost_below (fun i => i =? LEXER_RULE) r) as [|n l IH]; intros s; [by eexists|]. cbn [rfold].
  destruct (H n (elem_of_list_here _ _)) as (name & regular & body & Hd & Hb).
  destruct (c47_unescape body) as (body' & Hu & _).
  assert (exists s1, lexer_visit_lexer_rule n s = Ret (tt, s1)) as [s1 E].
  { destruct (decide (name ∈ map ld_name (le_data s))) as [Hs|Hs].
    - apply defines_acc in Hd as (t & reg & rl & H1 & _ & _ & Ht & _). unfold lexer_visit_lexer_rule. rewrite H1. simpl.
      rewrite name_seen, Ht, bool_decide_eq_true_2 by done. eauto.
    - destruct (c47_lexer n s name regular Hd Hs) as (_ & K & _). rewrite (K body body' Hb Hu). eauto. }
  rewrite E. cbn [rbind]. apply IH. intros n' Hn'. apply H. by apply elem_of_list_further.
Qed.

Lemma symbol_collect nodes seen s s' :
  (forall n, is_terminal_name_defined (sy_vocabulary s) n = true <-> n ∈ seen) ->
  (forall i, i ∈ terminals (sy_vocabulary s) -> i < sy_next_token_id s) ->
  Forall (fun n => is_rule_index (rule_index n) = true) nodes ->
  rfold (visit_step symbol_visitor) nodes s = Ret s' ->
  exists new, sy_data s' = sy_data s ++ new /\
    Forall2 entry_ok (first_occurrences fst seen (omap definition_of (filter (fun n => rule_index n = LEXER_RULE) nodes))) new.
Proof.
  revert seen s. induction nodes as [|n nodes IH]; intros seen s Hseen Hlt HF H; cbn [rfold] in H.
  { injection H as <-. exists []. rewrite app_nil_r. split; [done|constructor]. }
  apply Forall_cons in HF as [Hn HF].
  destruct (visit_step symbol_visitor s n) as [s1| |] eqn:E; cbn [rbind] in H; [|done|done].
  unfold visit_step in E. unfold is_rule_index in Hn. apply orb_true_iff in Hn as [Hn|Hn]; apply Nat.eqb_eq in Hn.
  - rewrite Hn in E. change (v_override symbol_visitor PARSER_RULE) with (Some symbol_visit_parser_rule) in E. cbv iota beta in E.
    rewrite filter_cons_False by (rewrite Hn; done).
    destruct (symbol_visit_parser_rule n s) as [[[] s2]| |] eqn:E2; cbn [rbind] in E; [|done|done]. injection E as <-.
    unfold symbol_visit_parser_rule in E2. destruct (parser_rule_rule_ref n) as [t|]; cbn [rbind unwrap] in E2; [|done].
    destruct (is_terminal_name_defined (sy_vocabulary s) (text t)); injection E2 as <-; [by eapply IH|].
    eapply (IH seen) in H; [done|..|done]; cbn [sy_vocabulary sy_next_token_id]; unfold add_named_nonterminal; repeat case_bool_decide; done.
  - rewrite Hn in E. change (v_override symbol_visitor LEXER_RULE) with (Some symbol_visit_lexer_rule) in E. cbv iota beta in E.
    rewrite filter_cons_True by done.
    destruct (symbol_visit_lexer_rule n s) as [[[] s2]| |] eqn:E2; cbn [rbind] in E; [|done|done]. injection E as <-.
    unfold symbol_visit_lexer_rule in E2. destruct (lexer_rule_token_ref n) as [t|] eqn:Et; cbn [rbind unwrap] in E2; [|done].
    destruct (is_terminal_name_defined (sy_vocabulary s) (text t)) eqn:Edef.
    + injection E2 as <-. destruct (IH seen s Hseen Hlt HF H) as (new & E1 & HF'). exists new. split; [done|].
      cbn [omap list_omap]. destruct (definition_of n) as [[nm rg]|] eqn:Ed; [|done].
      cbn [first_occurrences fst]. assert (nm = text t) as ->.
      { rewrite definition_of_acc in Ed. rewrite Et in Ed. repeat case_match; congruence. }
      rewrite bool_decide_eq_true_2 by (by apply Hseen). done.
    + destruct (lexer_rule_regular n) as [reg|] eqn:Er; cbn [rbind unwrap] in E2; [|done].
      destruct (regular_regular_literal reg) as [rl|] eqn:El; cbn [rbind unwrap] in E2; [|done].
      destruct (Nat.ltb_spec (blen (text rl)) 2) as [Hl|Hge].
      * injection E2 as <-. destruct (IH seen s Hseen Hlt HF H) as (new & E1 & HF'). exists new. split; [done|].
        cbn [omap list_omap]. rewrite definition_of_acc at 1. by rewrite Et, Er, El, (proj2 (Nat.ltb_lt _ _) Hl).
      * destruct (unwrap_regular (text rl)) as [x| |] eqn:Ex; cbn [rbind] in E2; [|done|done]. injection E2 as <-.
        assert (Ea : fst (add_terminal (sy_vocabulary s) (sy_next_token_id s) (text t)) =
           {| nt_name_to_id := nt_name_to_id (sy_vocabulary s); nt_id_to_name := nt_id_to_name (sy_vocabulary s);
              t_name_to_id := <[text t := sy_next_token_id s]> (t_name_to_id (sy_vocabulary s));
              t_id_to_name := <[sy_next_token_id s := text t]> (t_id_to_name (sy_vocabulary s));
              nonterminals := nonterminals (sy_vocabulary s); terminals := {[sy_next_token_id s]} ∪ terminals (sy_vocabulary s) |}).
        { unfold add_terminal. unfold is_terminal_name_defined in Edef. rewrite Edef.
          rewrite bool_decide_eq_false_2; [done|]. intros ?%Hlt. lia. }
        rewrite Ea in H. apply (IH (text t :: seen)) in H as (new & E1 & HF').
        -- cbn [sy_data] in E1. rewrite <- app_assoc in E1. eexists (_ :: new). split; [exact E1|].
           cbn [omap list_omap]. rewrite definition_of_acc at 1. rewrite Et, Er, El, (proj2 (Nat.ltb_ge _ _) Hge).
           cbn [first_occurrences fst]. rewrite bool_decide_eq_false_2.
           ++ constructor; [|done]. split; [done|]. by apply unwrap_regular_spec.
           ++ intros ?%Hseen. congruence.
        -- cbn [sy_vocabulary]. intros m. rewrite elem_of_cons, <- Hseen. unfold is_terminal_name_defined. cbn [t_name_to_id].
           rewrite !bool_decide_eq_true, lookup_insert_is_Some'. naive_solver.
        -- cbn [sy_vocabulary sy_next_token_id terminals]. intros i. rewrite elem_of_union, elem_of_singleton.
           intros [->|?%Hlt]; lia.
        -- done.
Qed.

Lemma c48_load_tree r g data : load_tree r = Ret (g, data) ->
  Forall2 (fun e d => ld_name d = fst e /\ regex_of (snd e) (ld_regex d))
    (first_occurrences fst [lit "_START"; lit "_STOP"]
       (omap definition_of (filter (fun n => rule_index n = LEXER_RULE) (outermost_below is_rule_index r)))) data.
Proof.
  unfold load_tree. intros H.
  destruct (visit_children literal_visitor r _) as [[x s1]| |] eqn:E1; simpl in H; [|done|done].
  apply literal_pass in E1. subst s1. simpl in H.
  destruct (visit_children symbol_visitor r _) as [[y s2]| |] eqn:E2; simpl in H; [|done|done].
  destruct (production_visit_rule_list _ _ _) as [s3| |] eqn:E3; simpl in H; [|done|done]. injection H as _ <-.
  rewrite visit_children_fold in E2 by done.
  rewrite (outermost_below_ext _ is_rule_index) in E2.
  2:{ intros i. unfold overridden. destruct i as [|[|[|[|[|[|[|[|[|i]]]]]]]]]; done. }
  destruct (rfold _ _ _) as [s2'| |] eqn:E; simpl in E2; [|done|done]. injection E2 as _ <-.
  apply (symbol_collect _ [lit "_START"; lit "_STOP"]) in E as (new & -> & HF); [exact HF|..].
  - intros n. unfold is_terminal_name_defined. rewrite bool_decide_eq_true. simpl.
    change (t_name_to_id vocabulary_new) with (<[lit "_STOP" := 1]> (<[lit "_START" := 0]> (∅ : gmap str nat))).
    rewrite !lookup_insert_is_Some', !elem_of_cons. rewrite lookup_empty.
    split; [intros [->|[->|[? ?]]]; [auto|auto|done]|].
    intros [->|[->|?%elem_of_nil]]; [auto|auto|done].
  - cbn [sy_vocabulary sy_next_token_id]. intros i. apply (si_terms _ sym_inv_start).
  - apply Forall_forall. intros n Hn. by apply outermost_below_index in Hn.
Qed.

(** ** String literals *)
Lemma strings_fold r s : visit_children strings_visitor r s = let! s' := rfold (visit_leaf strings_visitor) (leaf_nodes r) s in Ret (tt, s').
Proof.
  assert (E : visit strings_visitor r s = visit_children strings_visitor r s).
  { rewrite visit_unfold. replace (v_override strings_visitor (rule_index r)) with (@None (rule_ctx -> strings_state -> res (unit * strings_state))); [done|].
    destruct (rule_index r) as [|[|[|[|[|[|[|[|[|i]]]]]]]]]; done. }
  rewrite <- E, <- (c18_leaves strings_visitor tt (fun _ b => b)); try done.
  - destruct (visit strings_visitor r s) as [[[] s']| |]; done.
  - intros i. destruct i as [|[|[|[|[|[|[|[|[|i]]]]]]]]]; done.
Qed.

Definition literal_entry (name : str) (d : lexer_rule_data) : Prop :=
  ld_name d = lit "T_" ++ usize_to_string (ld_type d) /\ exists body, delimited name body /\ ld_regex d = lit "^(" ++ literal_regex body ++ lit ")".

Lemma slice_delimited' r body : (if blen r =? 0 then None else slice_bytes 1 (blen r - 1) r) = Some body <-> delimited r body.
Proof.
  destruct (Nat.eqb_spec (blen r) 0) as [E|E]; [|apply slice_delimited]. split; [done|]. intros H%delimited_blen. lia.
Qed.
Definition literal_of (a : ast) : option str := match a with Terminal t => if token_type t =? STRING_LITERAL then Some (text t) else None | _ => None end.

Lemma strings_collect leaves seen s :
  (forall n, n ∈ st_cache s <-> n ∈ seen) ->
  match rfold (visit_leaf strings_visitor) leaves s with
  | Ret s' => exists new, st_data s' = st_data s ++ new /\ st_next_token_type s' = st_next_token_type s + length new /\
      numbered (st_next_token_type s) new /\
      Forall2 literal_entry (first_occurrences id seen (omap literal_of leaves)) new
  | Panic => exists l, l ∈ omap literal_of leaves /\ ~ exists body, delimited l body
  | OutOfFuel => False
  end.
Proof.
  revert seen s. induction leaves as [|a leaves IH]; intros seen s Hseen; cbn [rfold].
  { exists []. rewrite app_nil_r, Nat.add_0_r. split_and!; [done|done|apply numbered_nil|constructor]. }
  assert (Skip : visit_leaf strings_visitor s a = Ret s -> (literal_of a = None \/ exists l, literal_of a = Some l /\ l ∈ seen) ->
    match (let! s' := visit_leaf strings_visitor s a in rfold (visit_leaf strings_visitor) leaves s') with
    | Ret s' => exists new, st_data s' = st_data s ++ new /\ st_next_token_type s' = st_next_token_type s + length new /\
        numbered (st_next_token_type s) new /\
        Forall2 literal_entry (first_occurrences id seen (omap literal_of (a :: leaves))) new
    | Panic => exists l, l ∈ omap literal_of (a :: leaves) /\ ~ exists body, delimited l body
    | OutOfFuel => False
    end).
  { intros -> Ha. cbn [rbind omap list_omap]. specialize (IH seen s Hseen).
    assert (K : first_occurrences id seen (match literal_of a with Some y => y :: omap literal_of leaves | None => omap literal_of leaves end) =
                first_occurrences id seen (omap literal_of leaves)).
    { destruct Ha as [->|(l & -> & Hl)]; [done|]. cbn [first_occurrences id]. by rewrite bool_decide_eq_true_2. }
    destruct (rfold _ leaves s) as [s'| |]; [|destruct IH as (l & Hl & Hn)|done].
    - by rewrite <- K in IH.
    - exists l. split; [|done]. destruct (literal_of a); [by apply elem_of_list_further|done]. }
  destruct a as [t|c|t]; [|apply Skip; auto|apply Skip; auto].
  destruct (Nat.eqb_spec (token_type t) STRING_LITERAL) as [Ety|Ety].
  2:{ apply Skip; simpl; unfold strings_visit_terminal; rewrite (proj2 (Nat.eqb_neq _ _) Ety); auto. }
  destruct (decide (text t ∈ st_cache s)) as [Hc|Hc].
  { apply Skip; simpl; unfold strings_visit_terminal; rewrite Ety, Nat.eqb_refl; [by rewrite bool_decide_eq_true_2|].
    right. exists (text t). split; [done|]. by apply Hseen. }
  clear Skip. cbn [visit_leaf]. change (v_terminal strings_visitor t s) with (strings_visit_terminal t s).
  unfold strings_visit_terminal. rewrite Ety, Nat.eqb_refl, bool_decide_eq_false_2 by done.
  cbn [omap list_omap literal_of]. rewrite Ety, Nat.eqb_refl.
  destruct (if blen (text t) =? 0 then None else slice_bytes 1 (blen (text t) - 1) (text t)) as [body|] eqn:Eb; cbn [unwrap rbind].
  - apply slice_delimited' in Eb.
    match goal with |- context [rfold _ leaves ?s1] => specialize (IH (text t :: seen) s1) end.
    destruct (rfold _ leaves _) as [s'| |].
    + destruct IH as (new & E1 & E2 & HN & HF).
      { cbn [st_cache]. intros n. rewrite elem_of_union, elem_of_singleton, elem_of_cons, Hseen. done. }
      cbn [st_data st_next_token_type] in *. rewrite <- app_assoc in E1. eexists (_ :: new). split_and!; [exact E1| | |].
      * rewrite E2. simpl. lia.
      * by apply numbered_cons.
      * cbn [first_occurrences id]. rewrite bool_decide_eq_false_2 by (by rewrite <- Hseen). constructor; [|exact HF].
        split; [done|]. eauto.
    + destruct IH as (l & Hl & Hn).
      { cbn [st_cache]. intros n. rewrite elem_of_union, elem_of_singleton, elem_of_cons, Hseen. done. }
      exists l. split; [by apply elem_of_list_further|done].
    + apply IH. cbn [st_cache]. intros n. rewrite elem_of_union, elem_of_singleton, elem_of_cons, Hseen. done.
  - exists (text t). split; [apply elem_of_list_here|]. intros [body Hb]. apply slice_delimited' in Hb. congruence.
Qed.

Lemma c48_strings r :
  (forall x s', visit_children strings_visitor r strings_new = Ret (x, s') ->
    st_next_token_type s' = 2 + length (st_data s') /\
    (forall i d, st_data s' !! i = Some d -> ld_type d = 2 + i /\ ld_name d = lit "T_" ++ usize_to_string (2 + i)) /\
    length (st_data s') = length (first_occurrences id [] (literal_texts r)) /\
    forall i d l, st_data s' !! i = Some d -> first_occurrences id [] (literal_texts r) !! i = Some l ->
      exists body, delimited l body /\ ld_regex d = lit "^(" ++ literal_regex body ++ lit ")") /\
  (visit_children strings_visitor r strings_new <> OutOfFuel) /\
  (visit_children strings_visitor r strings_new = Panic <-> exists l, l ∈ literal_texts r /\ ~ exists body, delimited l body).
Proof.
  rewrite strings_fold. pose proof (strings_collect (leaf_nodes r) [] strings_new) as H.
  assert (omap literal_of (leaf_nodes r) = literal_texts r) as Et by done. rewrite Et in H.
  destruct (rfold (visit_leaf strings_visitor) (leaf_nodes r) strings_new) as [s'| |]; cbn [rbind].
  - destruct H as (new & E1 & E2 & HN & HF). { intros n. simpl. rewrite elem_of_empty. split; [done|]. by intros ?%elem_of_nil. }
    simpl in E1, E2, HN. split_and!; [|done|].
    + intros x s0 [= _ <-]. rewrite E1. split_and!; [done| |by eapply eq_sym, Forall2_length|].
      * intros i d Hi. specialize (HN i d Hi). split; [done|]. destruct (Forall2_lookup_r _ _ _ _ _ HF Hi) as (l & _ & Hl & _).
        by rewrite HN in Hl.
      * intros i d l Hi Hl. destruct (Forall2_lookup_lr _ _ _ _ _ _ HF Hl Hi) as (_ & ?). done.
    + split; [done|]. intros (l & Hl & Hn). exfalso.
      assert (exists k, first_occurrences id [] (literal_texts r) !! k = Some l) as [k Hk].
      { apply elem_of_list_lookup. apply first_occurrences_in; [|done]. apply not_elem_of_nil. }
      destruct (Forall2_lookup_l _ _ _ _ _ HF Hk) as (d & _ & _ & body & Hb & _). apply Hn. eauto.
  - destruct H as (l & Hl & Hn). { intros n. simpl. rewrite elem_of_empty. split; [done|]. by intros ?%elem_of_nil. }
    split_and!; [done|done|]. split; [eauto|done].
  - exfalso. apply H. intros n. simpl. rewrite elem_of_empty. split; [done|]. by intros ?%elem_of_nil.
Qed.
