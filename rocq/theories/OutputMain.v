(** OutputMain.v -- proofs of C81 and C82. *)
From Coq Require Import DecimalNat.
From Verif Require Export OutputProofs ForestProofs BootstrapProofs.

(** ** C81: printing changes nothing *)
Lemma c81_same r g data : (exists lines, out_load_tree r = Ret (g, data, lines)) <-> load_tree r = Ret (g, data).
Proof.
  pose proof (erase_load r) as H. split.
  - intros [lines E]. by rewrite E in H.
  - intros E. rewrite E in H. destruct (out_load_tree r) as [[[g' d'] lines]| |]; [|done|done]. apply out_ret in H. injection H as -> ->. by exists lines.
Qed.

(** ** C81: silence *)
Lemma repeats_nil {A} `{EqDecision A} (l : list A) : forall seen, repeats seen l = [] <-> NoDup l /\ forall x, x ∈ l -> x ∉ seen.
Proof.
  induction l as [|x l IH]; intros seen; cbn [repeats].
  { split; [intros _; split; [constructor|by intros x ?%elem_of_nil]|done]. }
  case_bool_decide as D.
  - split; [done|]. intros [_ K]. exfalso. apply (K x); [apply elem_of_list_here|done].
  - rewrite IH, NoDup_cons. split.
    + intros [Hn K]. split_and!; [|done|].
      * intros Hx. apply (K x Hx), elem_of_list_here.
      * intros y [->|Hy]%elem_of_cons; [done|]. intros Hs. apply (K y Hy). by apply elem_of_list_further.
    + intros [[Hx Hn] K]. split; [done|]. intros y Hy [->|Hs]%elem_of_cons; [done|]. apply (K y); [by apply elem_of_list_further|done].
Qed.
Lemma report_groups_nil gs : forall seen, report_groups seen gs = [] <->
  forall alts, alts ∈ gs -> map plain_alternative alts ∉ seen -> NoDup (map plain_alternative alts).
Proof.
  induction gs as [|alts gs IH]; intros seen; cbn [report_groups].
  { split; [by intros _ a ?%elem_of_nil|done]. }
  case_bool_decide as D.
  - rewrite IH. split; intros K a.
    + intros [->|Ha]%elem_of_cons Hs; [done|by apply K].
    + intros Ha Hs. apply K; [by apply elem_of_list_further|done].
  - assert (forall {X Y} (a : list X) (y : Y) b, map (fun _ => y) a ++ b = [] <-> a = [] /\ b = []) as Hm.
    { intros X Y a y b. destruct a; cbn; naive_solver. }
    rewrite Hm, IH, repeats_nil. split.
    + intros [[Hn _] K] a [->|Ha]%elem_of_cons Hs; [done|].
      destruct (decide (map plain_alternative a = map plain_alternative alts)) as [->|Hne]; [done|]. apply K; [done|].
      rewrite elem_of_cons. naive_solver.
    + intros K. split; [split; [apply K; [apply elem_of_list_here|done]|by intros x _ ?%elem_of_nil]|].
      intros a Ha Hs. apply K; [by apply elem_of_list_further|]. intros ?. apply Hs. by apply elem_of_list_further.
Qed.
Lemma report_alternatives_nil l : forall sg sa, report_alternatives sg sa l = [] <->
  (forall na, na ∈ l -> forall alts, alts ∈ groups_alternative (snd na) -> map plain_alternative alts ∉ sg -> NoDup (map plain_alternative alts)) /\
  NoDup (map (fun na => (fst na, plain_alternative (snd na))) l) /\
  forall na, na ∈ l -> (fst na, plain_alternative (snd na)) ∉ sa.
Proof.
  induction l as [|[n a] l IH]; intros sg sa; cbn [report_alternatives].
  { split; [|done]. intros _. split_and!; [by intros ? ?%elem_of_nil|constructor|by intros ? ?%elem_of_nil]. }
  assert (forall {X} (a b c : list X), a ++ b ++ c = [] <-> a = [] /\ b = [] /\ c = []) as Hm.
  { intros X [|] [|] c; cbn; naive_solver. }
  rewrite Hm, IH, report_groups_nil. cbn [map]. rewrite NoDup_cons. cbn [fst snd]. split.
  - intros (K1 & K2 & K3 & K4 & K5). case_bool_decide as D; [done|]. split_and!.
    + intros na [->|Hna]%elem_of_cons alts Ha Hs; [by apply K1|].
      destruct (decide (map plain_alternative alts ∈ map (map plain_alternative) (groups_alternative a))) as [Hi|Hi].
      * apply elem_of_list_In, in_map_iff in Hi as (b & E & Hb). apply elem_of_list_In in Hb. rewrite <- E. apply K1; [done|by rewrite E].
      * apply (K3 na); [done..|]. rewrite elem_of_app. naive_solver.
    + intros Hi. apply elem_of_list_In, in_map_iff in Hi as (na & E & Hna). apply elem_of_list_In in Hna. apply (K5 na Hna). rewrite E. apply elem_of_list_here.
    + done.
    + intros na [->|Hna]%elem_of_cons; [done|]. intros Hs. apply (K5 na Hna). by apply elem_of_list_further.
  - intros (K1 & [K2 K3] & K4). split_and!.
    + intros alts Ha Hs. by apply (K1 (n, a) (elem_of_list_here _ _)).
    + rewrite bool_decide_eq_false_2; [done|]. apply (K4 (n, a)), elem_of_list_here.
    + intros na Hna alts Ha Hs. apply (K1 na); [by apply elem_of_list_further|done|]. intros ?. apply Hs. rewrite elem_of_app. by right.
    + done.
    + intros na Hna [E|Hs]%elem_of_cons.
      * apply K2. rewrite <- E. apply elem_of_list_In, in_map_iff. exists na. split; [done|by apply elem_of_list_In].
      * apply (K4 na); [by apply elem_of_list_further|done].
Qed.

Lemma in_concat_map {A B} (f : A -> list B) l y : y ∈ concat (map f l) <-> exists x, x ∈ l /\ y ∈ f x.
Proof.
  rewrite elem_of_list_In, in_concat. split.
  - intros (b & Hb & Hy). apply in_map_iff in Hb as (x & <- & Hx). exists x. rewrite !elem_of_list_In. done.
  - intros (x & Hx & Hy). exists (f x). split; [by apply in_map, elem_of_list_In|by apply elem_of_list_In].
Qed.
(** [groups_alternative] lists the groups within. *)
Lemma within_groups x : (forall e, within_element x e -> forall alts s, x = Element (Group alts) s -> alts ∈ groups_element e) /\
  (forall a, within_alternative x a -> forall alts s, x = Element (Group alts) s -> alts ∈ groups_alternative a).
Proof.
  apply within_mut.
  - intros alts s ->. cbn. rewrite elem_of_app, elem_of_list_singleton. by right.
  - intros alts alt e s Ha _ IH -> alts' s' E. cbn. rewrite elem_of_app. left. apply in_concat_map. exists alt. split; [done|]. by eapply IH.
  - intros es e He _ IH alts' s' E. cbn. apply in_concat_map. exists e. split; [done|]. by eapply IH.
Qed.
Fixpoint groups_within_element (e : element) : forall alts, alts ∈ groups_element e -> exists s, within_element (Element (Group alts) s) e
with groups_within_alternative (a : alternative) : forall alts, alts ∈ groups_alternative a -> exists s, within_alternative (Element (Group alts) s) a.
Proof.
  - destruct e as [a s]. destruct a as [n|n|n|l]; intros alts; cbn; try (by intros ?%elem_of_nil).
    rewrite elem_of_app, elem_of_list_singleton. intros [H| ->]; [|exists s; constructor].
    assert (exists alt, alt ∈ l /\ exists s', within_alternative (Element (Group alts) s') alt) as (alt & Hl & s' & Hw).
    { induction l as [|alt l IH]; cbn in H; [by apply elem_of_nil in H|]. apply elem_of_app in H as [H|H].
      - exists alt. split; [apply elem_of_list_here|]. by apply groups_within_alternative.
      - destruct (IH H) as (alt' & Hl & K). exists alt'. split; [by apply elem_of_list_further|done]. }
    exists s'. by eapply within_group.
  - destruct a as [|es]; intros alts; cbn; [by intros ?%elem_of_nil|]. intros H.
    assert (exists e, e ∈ es /\ exists s', within_element (Element (Group alts) s') e) as (e & He & s' & Hw).
    { induction es as [|e es IH]; cbn in H; [by apply elem_of_nil in H|]. apply elem_of_app in H as [H|H].
      - exists e. split; [apply elem_of_list_here|]. by apply groups_within_element.
      - destruct (IH H) as (e' & Hl & K). exists e'. split; [by apply elem_of_list_further|done]. }
    exists s'. by econstructor.
Qed.
Lemma in_rule_alternatives G n a : (n, a) ∈ rule_alternatives G <-> exists alts, ParserRule n alts ∈ G /\ a ∈ alts.
Proof.
  unfold rule_alternatives. rewrite in_concat_map. split.
  - intros ([m alts|m re] & HG & H); [|by apply elem_of_nil in H]. apply elem_of_list_In, in_map_iff in H as (b & [= -> ->] & Hb).
    exists alts. split; [done|by apply elem_of_list_In].
  - intros (alts & HG & Ha). exists (ParserRule n alts). split; [done|]. by apply elem_of_list_In, in_map, elem_of_list_In.
Qed.
Lemma report_silent G : report G = [] <-> no_duplicates G.
Proof.
  unfold report, no_duplicates. assert (forall {X Y} (f : X -> Y) (a : list X) b, map f a ++ b = [] <-> a = [] /\ b = []) as Hm.
  { intros X Y f a b. destruct a; cbn; naive_solver. }
  rewrite Hm, repeats_nil, report_alternatives_nil. rewrite !NoDup_cons.
  assert (lit "_START" ∉ [lit "_STOP"]) as Hss by (by intros ?%elem_of_list_singleton).
  split.
  - intros [[H1 H2] (H3 & H4 & _)]. split; [split_and!; [ | |done]|split; [done|]].
    + rewrite elem_of_cons. intros [K|K]; [done|]. apply (H2 _ K), elem_of_list_here.
    + intros K. apply (H2 _ K). apply elem_of_list_further, elem_of_list_here.
    + intros alts s (name & alts' & alt & HG & Ha & Hw).
      apply (H3 (name, alt)); [apply in_rule_alternatives; eauto| |by intros ?%elem_of_nil]. by eapply within_groups.
  - intros [(H1 & H2 & H3) (H4 & H5)]. rewrite elem_of_cons in H1. split; [split; [done|]|split_and!; [|done|by intros ? _ ?%elem_of_nil]].
    + intros x Hx [->|[->|?%elem_of_nil]%elem_of_cons]%elem_of_cons; naive_solver.
    + intros [n a] (alts' & HG & Ha)%in_rule_alternatives alts Hg _. apply groups_within_alternative in Hg as [s Hs]. apply (H5 alts s). by exists n, alts', a.
Qed.
Lemma c81_silent G r g data lines :
  grammar_tree G r -> proper G -> out_load_tree r = Ret (g, data, lines) -> no_collision (g_vocabulary g) G ->
  (lines = [] <-> no_duplicates G).
Proof. intros Ht Hp Hl Hn. rewrite (c81_report G r g data lines Ht Hp Hl Hn). apply report_silent. Qed.

(** ** C81: the two visitors that report definitions, on every tree *)
Lemma report_definitions_ext says nodes : forall seen seen', (forall x, x ∈ seen <-> x ∈ seen') -> report_definitions says seen nodes = report_definitions says seen' nodes.
Proof.
  induction nodes as [|n nodes IH]; intros seen seen' H; [done|]. cbn [report_definitions].
  destruct (rule_index n =? LEXER_RULE).
  - destruct (leaves_of TOKEN_REF n) as [|t ?]; [by apply IH|]. rewrite (bool_decide_ext _ _ (H (text t))). case_bool_decide; [f_equal; by apply IH|].
    destruct (definition_of n); [apply IH|f_equal; by apply IH]. intros x. rewrite !elem_of_cons, H. done.
  - destruct (leaves_of RULE_REF n) as [|t ?]; [by apply IH|]. rewrite (bool_decide_ext _ _ (H (text t))). f_equal. by apply IH.
Qed.
Lemma token_ref_leaves n : lexer_rule_token_ref n = head (leaves_of TOKEN_REF n).
Proof. apply get_terminal_leaves. Qed.
Lemma rule_ref_leaves n : parser_rule_rule_ref n = head (leaves_of RULE_REF n).
Proof. apply get_terminal_leaves. Qed.
Lemma head_leaf {A} (l : list A) x : head l = Some x -> exists l', l = x :: l'.
Proof. destruct l; [done|]. cbn. intros [= ->]. eauto. Qed.

Lemma lexer_output nodes : Forall (fun n => rule_index n = LEXER_RULE) nodes -> forall s o s' o',
  rfold (fun so r => let! (_, so') := out_lexer_rule r so in Ret so') nodes (s, o) = Ret (s', o') ->
  o' = o ++ report_definitions says_again (map ld_name (le_data s)) nodes.
Proof.
  induction 1 as [|n nodes Hn _ IH]; intros s o s' o' H; cbn [rfold] in H.
  { apply out_ret in H. injection H as _ ->. cbn. by rewrite app_nil_r. }
  destruct (out_lexer_rule n (s, o)) as [[[] [s1 o1]]| |] eqn:E; cbn [rbind] in H; [|done|done]. apply IH in H. subst o'.
  cbn [report_definitions]. rewrite Hn. rewrite Nat.eqb_refl.
  unfold out_lexer_rule in E. destruct (lexer_rule_token_ref n) as [t|] eqn:Et; cbn [rbind unwrap] in E; [|done].
  pose proof Et as Et'. rewrite token_ref_leaves in Et'. apply head_leaf in Et' as [ts ->].
  rewrite name_seen in E. case_bool_decide as Hseen.
  - injection E as <- <-. by rewrite <- app_assoc.
  - destruct (lexer_rule_regular n) as [reg|] eqn:Er; cbn [rbind unwrap] in E; [|done].
    destruct (regular_regular_literal reg) as [rl|] eqn:El; cbn [rbind unwrap] in E; [|done].
    rewrite definition_of_acc, Et, Er, El.
    destruct (blen (text rl) <? 2).
    + injection E as <- <-. by rewrite <- app_assoc.
    + destruct (unwrap_regular (text rl)) as [x| |] eqn:Ex; cbn [rbind] in E; [|done|done]. injection E as <- <-. f_equal. cbn [le_data].
      apply report_definitions_ext. intros y. rewrite map_app, elem_of_app, elem_of_cons. cbn. rewrite elem_of_list_singleton. tauto.
Qed.
Lemma c81_lexer r data next x s' lines :
  visit_children out_lexer_visitor r (LexerState data next, []) = Ret (x, (s', lines)) ->
  visit_children lexer_visitor r (LexerState data next) = Ret (x, s') /\
  lines = report_definitions says_again (map ld_name data) (outermost_below (fun i => i =? LEXER_RULE) r).
Proof.
  intros H. split.
  { pose proof (erase_lexer r (LexerState data next) []) as K. by rewrite H in K. }
  rewrite visit_children_fold in H by done.
  rewrite (outermost_below_ext _ (fun i => i =? LEXER_RULE)) in H.
  2:{ intros i. unfold overridden. destruct i as [|[|[|[|[|[|[|[|[|i]]]]]]]]]; done. }
  assert (HF : Forall (fun n => rule_index n = LEXER_RULE) (outermost_below (fun i => i =? LEXER_RULE) r)).
  { apply Forall_forall. intros n Hn. apply outermost_below_index in Hn. by apply Nat.eqb_eq. }
  destruct (rfold _ _ _) as [[s1 o1]| |] eqn:E; cbn [rbind] in H; [|done|done]. injection H as _ -> ->.
  apply (lexer_output _ HF (LexerState data next) [] s' lines). rewrite <- E. clear E.
  generalize (LexerState data next, @nil str) as so. induction HF as [|n l Hn _ IH]; intros so; [done|]. cbn [rfold].
  unfold visit_step at 1. rewrite Hn. change (v_override out_lexer_visitor LEXER_RULE) with (Some out_lexer_rule). cbn [rbind].
  destruct (out_lexer_rule n so) as [[[] so']| |]; cbn [rbind]; [apply IH|done|done].
Qed.

Lemma symbol_output nodes : Forall (fun n => is_rule_index (rule_index n) = true) nodes -> forall seen s o s' o',
  (forall n, is_terminal_name_defined (sy_vocabulary s) n = true <-> n ∈ seen) ->
  (forall i, i ∈ terminals (sy_vocabulary s) -> i < sy_next_token_id s) ->
  rfold (visit_step out_symbol_visitor) nodes (s, o) = Ret (s', o') ->
  o' = o ++ report_definitions says_token seen nodes.
Proof.
  induction 1 as [|n nodes Hn _ IH]; intros seen s o s' o' Hseen Hlt H; cbn [rfold] in H.
  { apply out_ret in H. injection H as _ ->. cbn. by rewrite app_nil_r. }
  destruct (visit_step out_symbol_visitor (s, o) n) as [[s1 o1]| |] eqn:E; cbn [rbind] in H; [|done|done].
  unfold visit_step in E. unfold is_rule_index in Hn. apply orb_true_iff in Hn as [Hn|Hn]; apply Nat.eqb_eq in Hn.
  - rewrite Hn in E. change (v_override out_symbol_visitor PARSER_RULE) with (Some out_symbol_parser_rule) in E. cbv iota beta in E.
    destruct (out_symbol_parser_rule n (s, o)) as [[[] [s2 o2]]| |] eqn:E2; cbn [rbind] in E; [|done|done]. injection E as -> ->.
    cbn [report_definitions]. rewrite Hn. change (PARSER_RULE =? LEXER_RULE) with false. cbv iota.
    unfold out_symbol_parser_rule in E2. destruct (parser_rule_rule_ref n) as [t|] eqn:Et; cbn [rbind unwrap] in E2; [|done].
    rewrite rule_ref_leaves in Et. apply head_leaf in Et as [ts ->].
    destruct (is_terminal_name_defined (sy_vocabulary s) (text t)) eqn:Ed; injection E2 as <- <-.
    + rewrite bool_decide_eq_true_2 by (by apply Hseen). apply (IH seen) in H; [|done..]. rewrite H. by rewrite <- app_assoc.
    + rewrite bool_decide_eq_false_2; [|intros ?%Hseen; congruence].
      apply (IH seen) in H; [done|..]; cbn [sy_vocabulary sy_next_token_id]; unfold add_named_nonterminal; repeat case_bool_decide; done.
  - rewrite Hn in E. change (v_override out_symbol_visitor LEXER_RULE) with (Some out_symbol_lexer_rule) in E. cbv iota beta in E.
    destruct (out_symbol_lexer_rule n (s, o)) as [[[] [s2 o2]]| |] eqn:E2; cbn [rbind] in E; [|done|done]. injection E as -> ->.
    cbn [report_definitions]. rewrite Hn. rewrite Nat.eqb_refl.
    unfold out_symbol_lexer_rule in E2. destruct (lexer_rule_token_ref n) as [t|] eqn:Et; cbn [rbind unwrap] in E2; [|done].
    pose proof Et as Et'. rewrite token_ref_leaves in Et'. apply head_leaf in Et' as [ts ->].
    destruct (is_terminal_name_defined (sy_vocabulary s) (text t)) eqn:Edef.
    + injection E2 as <- <-. rewrite bool_decide_eq_true_2 by (by apply Hseen). apply (IH seen) in H; [|done..]. rewrite H. by rewrite <- app_assoc.
    + rewrite bool_decide_eq_false_2; [|intros ?%Hseen; congruence].
      destruct (lexer_rule_regular n) as [reg|] eqn:Er; cbn [rbind unwrap] in E2; [|done].
      destruct (regular_regular_literal reg) as [rl|] eqn:El; cbn [rbind unwrap] in E2; [|done].
      rewrite definition_of_acc, Et, Er, El. destruct (blen (text rl) <? 2).
      * injection E2 as <- <-. apply (IH seen) in H; [|done..]. rewrite H. by rewrite <- app_assoc.
      * destruct (unwrap_regular (text rl)) as [x| |] eqn:Ex; cbn [rbind] in E2; [|done|done]. injection E2 as <- <-.
        assert (Ea : fst (add_terminal (sy_vocabulary s) (sy_next_token_id s) (text t)) =
           {| nt_name_to_id := nt_name_to_id (sy_vocabulary s); nt_id_to_name := nt_id_to_name (sy_vocabulary s);
              t_name_to_id := <[text t := sy_next_token_id s]> (t_name_to_id (sy_vocabulary s));
              t_id_to_name := <[sy_next_token_id s := text t]> (t_id_to_name (sy_vocabulary s));
              nonterminals := nonterminals (sy_vocabulary s); terminals := {[sy_next_token_id s]} ∪ terminals (sy_vocabulary s) |}).
        { unfold add_terminal. unfold is_terminal_name_defined in Edef. rewrite Edef.
          rewrite bool_decide_eq_false_2; [done|]. intros ?%Hlt. lia. }
        rewrite Ea in H. apply (IH (text t :: seen)) in H; [done|..].
        -- cbn [sy_vocabulary]. intros m. rewrite elem_of_cons, <- Hseen. unfold is_terminal_name_defined. cbn [t_name_to_id].
           rewrite !bool_decide_eq_true, lookup_insert_is_Some'. naive_solver.
        -- cbn [sy_vocabulary sy_next_token_id terminals]. intros i. rewrite elem_of_union, elem_of_singleton.
           intros [->|?%Hlt]; lia.
Qed.

(** The production visitor appends lines of two kinds. *)
Definition about_productions (l : str) : Prop := l = says_alternative \/ l = says_group.
Definition appends (o o' : list str) : Prop := exists x, o' = o ++ x /\ Forall about_productions x.
Lemma appends_refl o : appends o o.
Proof. exists []. by rewrite app_nil_r. Qed.
Lemma appends_trans a b c : appends a b -> appends b c -> appends a c.
Proof. intros (x & -> & Hx) (y & -> & Hy). exists (x ++ y). rewrite app_assoc. split; [done|]. by apply Forall_app. Qed.
Lemma block_appends rs s o id s' o' : out_make_block rs (s, o) = (id, (s', o')) -> appends o o'.
Proof.
  unfold out_make_block. destruct (block_cache s !! rs) as [i|]; [intros [= _ _ <-]; apply appends_refl|].
  destruct (out_insert _ _ _) as [P x] eqn:E. intros [= _ _ <-]. exists x. split; [done|].
  revert E. generalize (ps_productions s). revert P x. induction rs as [|r rs IH]; intros P x P0 E; cbn [out_insert] in E; [injection E as _ <-; constructor|].
  destruct (out_insert _ rs _) as [P' y] eqn:E'. injection E as _ <-. apply Forall_app. split; [case_bool_decide; repeat constructor; by right|by eapply IH].
Qed.
Lemma suffix_appends c id it s o it' s' o' : out_apply_suffix c id it (s, o) = (it', (s', o')) -> o' = o.
Proof. unfold out_apply_suffix. destruct (apply_suffix c id it s). by intros [= _ _ <-]. Qed.
Section Appends.
Context (rec : rule_ctx -> production_state * list str -> res (item * (production_state * list str))).
Context (Hrec : forall c s o it s' o', rec c (s, o) = Ret (it, (s', o')) -> appends o o').
Lemma elements_appends es : forall s o its s' o', out_visit_elements rec es (s, o) = Ret (its, (s', o')) -> appends o o'.
Proof using Hrec.
  induction es as [|e es IH]; intros s o its s' o' H; cbn [out_visit_elements] in H.
  - apply out_ret in H. injection H as _ _ <-. apply appends_refl.
  - destruct (rec e (s, o)) as [[it [s1 o1]]| |] eqn:E; cbn [rbind] in H; [|done|done].
    destruct (out_visit_elements rec es (s1, o1)) as [[its' [s2 o2]]| |] eqn:E2; cbn [rbind] in H; [|done|done].
    apply out_ret in H. injection H as _ _ <-. eapply appends_trans; [by eapply Hrec|by eapply IH].
Qed.
Lemma alternative_appends c s o its s' o' : out_visit_alternative rec c (s, o) = Ret (its, (s', o')) -> appends o o'.
Proof using Hrec.
  unfold out_visit_alternative. destruct (alternative_epsilon c); [|apply elements_appends].
  intros H. apply out_ret in H. injection H as _ _ <-. apply appends_refl.
Qed.
Lemma alternatives_appends cs : forall s o rs s' o', out_visit_alternatives rec cs (s, o) = Ret (rs, (s', o')) -> appends o o'.
Proof using Hrec.
  induction cs as [|c cs IH]; intros s o rs s' o' H; cbn [out_visit_alternatives] in H.
  - apply out_ret in H. injection H as _ _ <-. apply appends_refl.
  - destruct (out_visit_alternative rec c (s, o)) as [[r [s1 o1]]| |] eqn:E; cbn [rbind] in H; [|done|done].
    destruct (out_visit_alternatives rec cs (s1, o1)) as [[rs' [s2 o2]]| |] eqn:E2; cbn [rbind] in H; [|done|done].
    apply out_ret in H. injection H as _ _ <-. eapply appends_trans; [by eapply alternative_appends|by eapply IH].
Qed.
End Appends.
Lemma element_appends fuel : forall c s o it s' o', out_visit_element fuel c (s, o) = Ret (it, (s', o')) -> appends o o'.
Proof.
  induction fuel as [|fuel IH]; intros c s o it s' o' H; cbn [out_visit_element] in H; [done|].
  destruct (element_token_ref c) as [t|].
  { destruct (get_terminal_id_by_name _ _) as [id|]; cbn [rbind unwrap] in H; [|done]. apply out_ret in H. apply suffix_appends in H as ->. apply appends_refl. }
  destruct (element_string_literal c) as [t|].
  { destruct (get_terminal_id_by_name _ _) as [id|]; cbn [rbind unwrap] in H; [|done]. apply out_ret in H. apply suffix_appends in H as ->. apply appends_refl. }
  destruct (element_rule_ref c) as [t|].
  { destruct (get_nonterminal_id_by_name _ _) as [id|]; cbn [rbind unwrap] in H; [|done]. apply out_ret in H. apply suffix_appends in H as ->. apply appends_refl. }
  destruct (element_block c) as [b|]; [|done].
  unfold out_visit_block in H. destruct (out_visit_alternatives _ _ _) as [[rs [s1 o1]]| |] eqn:E; cbn [rbind] in H; [|done|done].
  apply (alternatives_appends _ IH) in E. destruct (out_make_block rs (s1, o1)) as [id [s2 o2]] eqn:E2. apply block_appends in E2.
  apply out_ret in H. apply suffix_appends in H as ->. by eapply appends_trans.
Qed.
Lemma rules_appends fuel c s o s' o' : out_rule_list fuel c (s, o) = Ret (s', o') -> appends o o'.
Proof.
  unfold out_rule_list. generalize (parser_rule_list c). clear c. intros l. revert s o.
  induction l as [|c l IH]; intros s o H; cbn [rfold] in H; [apply out_ret in H; injection H as _ <-; apply appends_refl|].
  destruct (out_parser_rule fuel (s, o) c) as [[s1 o1]| |] eqn:E; cbn [rbind] in H; [|done|done].
  eapply appends_trans; [|by eapply IH]. clear H IH.
  unfold out_parser_rule in E. destruct (parser_rule_rule_ref c) as [t|]; cbn [rbind unwrap] in E; [|done].
  destruct (get_nonterminal_id_by_name _ _) as [id|]; cbn [rbind unwrap] in E; [|done].
  destruct (parser_rule_block c) as [b|]; cbn [rbind unwrap] in E; [|done].
  revert s o E. induction (alternative_list b) as [|a al IHa]; intros s o E; cbn [rfold] in E; [apply out_ret in E; injection E as _ <-; apply appends_refl|].
  destruct (out_rule_alternative fuel id (s, o) a) as [[s2 o2]| |] eqn:E2; cbn [rbind] in E; [|done|done].
  eapply appends_trans; [|by eapply IHa]. clear E IHa.
  unfold out_rule_alternative in E2. destruct (out_visit_alternative _ _ _) as [[r [s3 o3]]| |] eqn:E3; cbn [rbind] in E2; [|done|done].
  apply out_ret in E2. injection E2 as _ <-. eapply appends_trans; [eapply alternative_appends; [|exact E3]; apply element_appends|].
  eexists. split; [done|]. case_bool_decide; repeat constructor.
Qed.
Lemma c81_definitions r g data lines : out_load_tree r = Ret (g, data, lines) ->
  exists rest, lines = report_definitions says_token [lit "_START"; lit "_STOP"] (outermost_below is_rule_index r) ++ rest /\
    forall l, l ∈ rest -> l = says_alternative \/ l = says_group.
Proof.
  unfold out_load_tree. intros H.
  destruct (visit_children literal_visitor r _) as [[x s1]| |] eqn:E1; cbn [rbind] in H; [|done|done].
  apply literal_pass in E1. subst s1. cbn [lt_vocabulary lt_data lt_next_token_id] in H.
  destruct (visit_children out_symbol_visitor r _) as [[y [s2 o2]]| |] eqn:E2; cbn [rbind] in H; [|done|done].
  destruct (out_rule_list _ _ _) as [[s3 o3]| |] eqn:E3; cbn [rbind] in H; [|done|done]. apply out_ret in H. injection H as _ _ <-.
  apply rules_appends in E3 as (rest & -> & HF). rewrite Forall_forall in HF. exists rest. split; [|done]. f_equal. clear HF rest.
  rewrite visit_children_fold in E2 by done.
  rewrite (outermost_below_ext _ is_rule_index) in E2.
  2:{ intros i. unfold overridden. destruct i as [|[|[|[|[|[|[|[|[|i]]]]]]]]]; done. }
  destruct (rfold _ _ _) as [[s2' o2']| |] eqn:E; cbn [rbind] in E2; [|done|done]. injection E2 as _ _ <-.
  apply (symbol_output _ ltac:(apply Forall_forall; intros n Hn; by apply outermost_below_index in Hn) [lit "_START"; lit "_STOP"]) in E; [exact E|..].
  - intros n. unfold is_terminal_name_defined. rewrite bool_decide_eq_true. cbn [sy_vocabulary].
    change (t_name_to_id _) with (<[lit "_STOP" := 1]> (<[lit "_START" := 0]> (∅ : gmap str nat))).
    rewrite !lookup_insert_is_Some', !elem_of_cons. rewrite lookup_empty.
    split; [intros [->|[->|[? ?]]]; [auto|auto|done]|].
    intros [->|[->|?%elem_of_nil]]; [auto|auto|done].
  - cbn [sy_vocabulary sy_next_token_id]. intros i. apply (si_terms _ sym_inv_start).
Qed.

(** ** C81: what is not reported, and what is reported wrongly *)
Definition lines_of (r : rule_ctx) : list str := match out_load_tree r with Ret (_, _, l) => l | _ => [] end.
Lemma lines_ret r : loaded r = true -> out_load_tree r = Ret (grammar_of r, rules_of r, lines_of r).
Proof.
  intros H%loaded_ret. destruct (proj2 (c81_same r _ _) H) as [l E]. rewrite E. unfold lines_of. by rewrite E.
Qed.

(** s: A;  s: B;  A: /a/;  B: /b/; *)
Definition ex_twice : list rule :=
  [ParserRule (lit "s") [Sequence [Element (TokenRef (lit "A")) None]]; ParserRule (lit "s") [Sequence [Element (TokenRef (lit "B")) None]];
   LexerRule (lit "A") (lit "/a/"); LexerRule (lit "B") (lit "/b/")].
Lemma c81_rules_refuted : exists G r g data, grammar_tree G r /\ proper G /\ references_defined G /\ no_collision (g_vocabulary g) G /\
  out_load_tree r = Ret (g, data, []) /\ ~ NoDup (parser_rule_names G).
Proof.
  exists ex_twice, (build_grammar ex_twice), (grammar_of (build_grammar ex_twice)), (rules_of (build_grammar ex_twice)).
  split_and!.
  - by apply build_grammar_tree.
  - apply proper_computed; by vm_compute.
  - split_and!.
    + intros n s Ho%occurs_computed. change (occurring ex_twice) with [Element (TokenRef (lit "A")) None; Element (TokenRef (lit "B")) None] in Ho.
      rewrite !elem_of_cons, elem_of_nil in Ho. apply (bool_decide_unpack (n ∈ _)).
      destruct Ho as [[= -> _]|[[= -> _]|[]]]; by vm_compute.
    + intros n s Ho%occurs_computed. change (occurring ex_twice) with [Element (TokenRef (lit "A")) None; Element (TokenRef (lit "B")) None] in Ho.
      rewrite !elem_of_cons, elem_of_nil in Ho. by destruct Ho as [?|[?|[]]].
    + intros n s Ho%occurs_computed. change (occurring ex_twice) with [Element (TokenRef (lit "A")) None; Element (TokenRef (lit "B")) None] in Ho.
      rewrite !elem_of_cons, elem_of_nil in Ho. by destruct Ho as [?|[?|[]]].
  - apply no_collision_computed. by vm_compute.
  - rewrite lines_ret by (by vm_compute). assert (lines_of (build_grammar ex_twice) = []) as -> by (by vm_compute). done.
  - intros Hn. inversion Hn as [|? ? Hx _]; subst. apply Hx, elem_of_list_here.
Qed.

(** a: X* | c*;  b: X;  c: Y;  X: /x/;  Y: /y/; *)
Definition ex_spurious : list rule :=
  [ParserRule (lit "a") [Sequence [Element (TokenRef (lit "X")) (Some (Star, false))]; Sequence [Element (RuleRef (lit "c")) (Some (Star, false))]];
   ParserRule (lit "b") [Sequence [Element (TokenRef (lit "X")) None]];
   ParserRule (lit "c") [Sequence [Element (TokenRef (lit "Y")) None]];
   LexerRule (lit "X") (lit "/x/"); LexerRule (lit "Y") (lit "/y/")].
Lemma no_duplicates_computed G : bool_decide (report G = []) = true -> no_duplicates G.
Proof. intros H%bool_decide_eq_true. by apply report_silent. Qed.
Lemma c81_spurious_refuted : exists G r g data lines, grammar_tree G r /\ proper G /\ no_duplicates G /\
  out_load_tree r = Ret (g, data, lines) /\ says_alternative ∈ lines.
Proof.
  exists ex_spurious, (build_grammar ex_spurious), (grammar_of (build_grammar ex_spurious)), (rules_of (build_grammar ex_spurious)), (lines_of (build_grammar ex_spurious)).
  split_and!.
  - by apply build_grammar_tree.
  - apply proper_computed; by vm_compute.
  - apply no_duplicates_computed. by vm_compute.
  - by apply lines_ret; vm_compute.
  - apply (bool_decide_unpack _). by vm_compute.
Qed.

(** s: A | (A | A) | A | (A | A)*;  A: /a/;  A: /b/; *)
Definition ex_dups : list rule :=
  let a := Sequence [Element (TokenRef (lit "A")) None] in
  [ParserRule (lit "s") [a; Sequence [Element (Group [a; a]) None]; a; Sequence [Element (Group [a; a]) (Some (Star, false))]];
   LexerRule (lit "A") (lit "/a/"); LexerRule (lit "A") (lit "/b/")].
Lemma ex_dups_meets : grammar_tree ex_dups (build_grammar ex_dups) /\ proper ex_dups /\
  exists g data, out_load_tree (build_grammar ex_dups) = Ret (g, data, [says_token (lit "A"); says_group; says_alternative]) /\
    no_collision (g_vocabulary g) ex_dups.
Proof.
  split; [by apply build_grammar_tree|]. split; [apply proper_computed; by vm_compute|].
  exists (grammar_of (build_grammar ex_dups)), (rules_of (build_grammar ex_dups)). split.
  - rewrite lines_ret by (by vm_compute). assert (lines_of (build_grammar ex_dups) = [says_token (lit "A"); says_group; says_alternative]) as -> by (by vm_compute). done.
  - apply no_collision_computed. by vm_compute.
Qed.
Lemma ex_list_silent : exists g data, out_load_tree ex_list_tree = Ret (g, data, []) /\ no_duplicates ex_list.
Proof.
  exists (grammar_of ex_list_tree), (rules_of ex_list_tree). split.
  - rewrite lines_ret by (by vm_compute). assert (lines_of ex_list_tree = []) as -> by (by vm_compute). done.
  - apply no_duplicates_computed. by vm_compute.
Qed.

(** ** C82: standard output of main *)
Lemma c82_lines nd order fuel file s r w rest mm : main_run nd order fuel file s = Ret (r, w, rest, mm) ->
  exists ast g d lines, from_value file = Ret (Some ast) /\ out_load_tree ast = Ret (g, d, lines) /\
    main_stdout nd order fuel file s = Ret (unlines (lines ++ map line_conflict w ++ option_list rest ++ replicate (length mm) says_mismatch)).
Proof.
  unfold main_run, main_stdout, load_ast. intros H.
  destruct (from_value file) as [[ast|]| |] eqn:E1; cbn [rbind unwrap] in *; [|done..].
  destruct (load_tree ast) as [[g d]| |] eqn:E2; cbn [rbind] in H; [|done..].
  destruct (proj2 (c81_same _ _ _) E2) as [lines E3]. exists ast, g, d, lines. split; [done|]. split; [done|]. rewrite E3. cbn [rbind].
  destruct (build_table fuel order g) as [[tab w']| |]; cbn [rbind] in *; [|done..].
  destruct (v1_lexer nd s) as [c| |]; cbn [rbind] in *; [|done..].
  destruct (scan_all c 15 0 fuel lexer_init) as [[toks rest']| |]; cbn [rbind] in *; [|done..].
  destruct (parse (g_vocabulary g) tab toks fuel) as [[r' mm']| |]; cbn [rbind] in *; [|done..].
  apply out_ret in H. injection H as -> -> -> ->. unfold unlines, println.
  assert (map (fun _ => line_mismatch) mm = replicate (length mm) says_mismatch) as -> by (clear; induction mm as [|? mm IH]; [done|cbn; by rewrite IH]).
  by destruct rest.
Qed.
Lemma stdout_run nd order fuel file s o : main_stdout nd order fuel file s = Ret o -> exists x, main_run nd order fuel file s = Ret x.
Proof.
  unfold main_run, main_stdout, load_ast. intros H.
  destruct (from_value file) as [[ast|]| |] eqn:E1; cbn [rbind unwrap] in *; [|done..].
  destruct (out_load_tree ast) as [[[g d] l]| |] eqn:E2; cbn [rbind] in H; [|done..].
  rewrite (proj1 (c81_same ast g d) (ex_intro _ l E2)). cbn [rbind].
  destruct (build_table fuel order g) as [[tab w']| |]; cbn [rbind] in *; [|done..].
  destruct (v1_lexer nd s) as [c| |]; cbn [rbind] in *; [|done..].
  destruct (scan_all c 15 0 fuel lexer_init) as [[toks rest']| |]; cbn [rbind] in *; [|done..].
  destruct (parse (g_vocabulary g) tab toks fuel) as [[r' mm']| |]; cbn [rbind] in *; [|done..]. eauto.
Qed.

(** On the shipped file. *)
Lemma shipped_lines : exists ast, from_value syntaxis2_json = Ret (Some ast) /\ out_load_tree ast = Ret (shipped, rules_of shipped_tree, []).
Proof.
  assert (match from_value syntaxis2_json with Ret (Some ast) => match out_load_tree ast with Ret (_, _, []) => true | _ => false end | _ => false end = true) as H
    by (vm_compute; reflexivity).
  pose proof shipped_load as Hl. unfold load_ast in Hl.
  destruct (from_value syntaxis2_json) as [[ast|]| |]; cbn [rbind unwrap] in Hl; [|discriminate H..].
  exists ast. split; [reflexivity|]. destruct (proj2 (c81_same _ _ _) Hl) as [l E]. rewrite E in H |- *. destruct l; [reflexivity|discriminate H].
Qed.
Lemma shipped_ret (x y : grammar * list lexer_rule_data) : Ret x = Ret y -> x = y.
Proof. congruence. Qed.
Lemma c82_shipped nd g d order fuel s o : load_ast syntaxis2_json = Ret (g, d) -> iteration_order g order ->
  main_stdout nd order fuel syntaxis2_json s = Ret o <->
  exists r rest mm, main_run nd order fuel syntaxis2_json s = Ret (r, [], rest, mm) /\ o = unlines (option_list rest ++ replicate (length mm) says_mismatch).
Proof.
  intros Hl Ho. rewrite shipped_load in Hl. assert (g = shipped) as -> by (apply shipped_ret in Hl; congruence). clear Hl d.
  destruct shipped_lines as (ast & E1 & E2).
  assert (forall r w rest mm, main_run nd order fuel syntaxis2_json s = Ret (r, w, rest, mm) ->
    w = [] /\ main_stdout nd order fuel syntaxis2_json s = Ret (unlines (option_list rest ++ replicate (length mm) says_mismatch))) as K.
  { intros r w rest mm Hr.
    assert (w = []) as ->.
    { unfold main_run in Hr. rewrite shipped_load in Hr. cbn [rbind] in Hr.
      destruct (build_table fuel order shipped) as [[tab w']| |] eqn:Et; cbn [rbind] in Hr; [|discriminate Hr..].
      destruct (v1_lexer nd s) as [c| |]; cbn [rbind] in Hr; [|discriminate Hr..].
      destruct (scan_all c 15 0 fuel lexer_init) as [[toks rest']| |]; cbn [rbind] in Hr; [|discriminate Hr..].
      destruct (parse (g_vocabulary shipped) tab toks fuel) as [[r' mm']| |]; cbn [rbind] in Hr; [|discriminate Hr..].
      assert (w' = w) as <- by congruence. destruct c44_shipped as (g & d & Hgd & Hcl & Hll & _). rewrite shipped_load in Hgd.
      assert (g = shipped) as -> by (apply shipped_ret in Hgd; congruence).
      exact (proj2 (proj1 (c29_warnings shipped _ _ _ _ Ho Hcl Et)) Hll). }
    split; [reflexivity|]. destruct (c82_lines _ _ _ _ _ _ _ _ _ Hr) as (ast' & g' & d' & lines & F1 & F2 & F3).
    rewrite E1 in F1. assert (ast' = ast) as -> by congruence. rewrite E2 in F2. assert (lines = []) as -> by congruence. exact F3. }
  split.
  - intros Hs. destruct (stdout_run _ _ _ _ _ _ Hs) as [[[[r w] rest] mm] Hr]. destruct (K _ _ _ _ Hr) as [-> K']. exists r, rest, mm. split; [exact Hr|]. congruence.
  - intros (r & rest & mm & Hr & ->). apply (K _ _ _ _ Hr).
Qed.
Lemma unlines_nil l : unlines l = [] -> l = [].
Proof. destruct l as [|x l]; [done|]. unfold unlines. cbn [map concat]. destruct x; discriminate. Qed.
Lemma c82_silent nd g d order s : digits_ok nd -> load_ast syntaxis2_json = Ret (g, d) -> iteration_order g order ->
  (exists fuel, main_stdout nd order fuel syntaxis2_json s = Ret []) <-> exists G ts, grammar_tokens G ts /\ written ts s.
Proof.
  intros Hnd Hl Ho. split.
  - intros [fuel Hs]. apply (c82_shipped nd g d order fuel s [] Hl Ho) in Hs as (r & rest & mm & Hr & E). symmetry in E. apply unlines_nil in E.
    assert (mm = []) as -> by (destruct mm; [reflexivity|destruct rest; discriminate E]).
    destruct (c44_sound _ _ _ _ _ _ _ _ _ Hnd Hl Ho Hr) as (_ & _ & G & ts & H1 & H2 & _). eauto.
  - intros (G & ts & H1 & H2). destruct (c44_complete nd g d order G ts s Hnd Hl Ho H1 H2) as (r & _ & n & Hn). exists n.
    apply (c82_shipped nd g d order n s [] Hl Ho). exists r, None, []. split; [exact (Hn n (le_n _))|reflexivity].
Qed.

(** ** C82: a printed conflict names its two productions *)
Lemma number_split n m c c' x y : ~ digit c -> ~ digit c' -> usize_to_string n ++ c :: x = usize_to_string m ++ c' :: y -> n = m /\ c = c' /\ x = y.
Proof.
  intros Hc Hc' H. pose proof (usize_to_string_digits n) as Hn. pose proof (usize_to_string_digits m) as Hm.
  enough (usize_to_string n = usize_to_string m) as E.
  { split; [by apply usize_to_string_inj|]. rewrite E in H. apply app_inv_head in H. by injection H. }
  revert H Hn Hm. generalize (usize_to_string n) (usize_to_string m). intros a. induction a as [|d a IH]; intros [|e b] H Hn Hm; [done|..]; cbn in H.
  - injection H as -> _. by inversion Hm.
  - injection H as <- _. by inversion Hn.
  - injection H as -> H. inversion Hn; inversion Hm; subst. f_equal. by apply IH.
Qed.
Lemma item_split it it' x y : debug_item it ++ x = debug_item it' ++ y -> it = it' /\ x = y.
Proof.
  assert (~ digit 41%N) as Hd by (unfold digit; lia).
  destruct it as [n|n], it' as [m|m]; cbn [debug_item]; rewrite <- !app_assoc; intros H.
  - apply app_inv_head in H. apply number_split in H as (-> & _ & E); done.
  - cbn in H. discriminate H.
  - cbn in H. discriminate H.
  - apply app_inv_head in H. apply number_split in H as (-> & _ & E); done.
Qed.
Lemma item_head it x : exists c y, debug_item it ++ x = c :: y /\ (c = 78%N \/ c = 84%N).
Proof. destruct it; cbn [debug_item]; cbn; eauto. Qed.
Lemma items_split l : forall l' x y, debug_items l ++ lit "] }" ++ x = debug_items l' ++ lit "] }" ++ y -> l = l' /\ x = y.
Proof.
  induction l as [|it [|it2 l] IH]; intros l' x y H.
  - destruct l' as [|it' [|it2' l']].
    + split; [done|]. cbn [debug_items app] in H. by apply app_inv_head in H.
    + cbn [debug_items] in H. destruct (item_head it' (lit "] }" ++ y)) as (c & z & E & Hc). rewrite E in H. cbn in H. injection H as <- _. by destruct Hc.
    + cbn [debug_items] in H. rewrite <- !app_assoc in H. edestruct (item_head it') as (c & z & E & Hc). rewrite E in H. cbn in H. injection H as <- _. by destruct Hc.
  - destruct l' as [|it' [|it2' l']].
    + cbn [debug_items] in H. destruct (item_head it (lit "] }" ++ x)) as (c & z & E & Hc). rewrite E in H. cbn in H. injection H as -> _. by destruct Hc.
    + cbn [debug_items] in H. apply item_split in H as [-> H]. apply app_inv_head in H. done.
    + cbn [debug_items] in H. rewrite <- !app_assoc in H. apply item_split in H as [-> H]. cbn in H. discriminate H.
  - destruct l' as [|it' [|it2' l']].
    + cbn [debug_items] in H. rewrite <- !app_assoc in H. edestruct (item_head it) as (c & z & E & Hc). rewrite E in H. cbn in H. injection H as -> _. by destruct Hc.
    + cbn [debug_items] in H. rewrite <- !app_assoc in H. apply item_split in H as [-> H]. cbn in H. discriminate H.
    + change (debug_items (it :: it2 :: l)) with (debug_item it ++ lit ", " ++ debug_items (it2 :: l)) in H.
      change (debug_items (it' :: it2' :: l')) with (debug_item it' ++ lit ", " ++ debug_items (it2' :: l')) in H.
      rewrite <- !app_assoc in H. apply item_split in H as [-> H]. apply app_inv_head in H. apply IH in H as [E ->]. by rewrite E.
Qed.
Lemma production_split p p' x y : debug_production p ++ x = debug_production p' ++ y -> p = p' /\ x = y.
Proof.
  unfold debug_production. destruct p as [n l], p' as [m l']. cbn [left right]. rewrite <- !app_assoc. intros H. apply app_inv_head in H.
  apply (number_split n m 44%N 44%N) in H as (-> & _ & H); [|unfold digit; lia..]. apply (f_equal (drop 9)) in H. cbn [drop] in H.
  apply items_split in H as [-> ->]. done.
Qed.
Lemma c82_conflict c c' : line_conflict c = line_conflict c' -> c = c'.
Proof.
  destruct c as [p q], c' as [p' q']. unfold line_conflict. cbn [fst snd]. intros H. apply production_split in H as [-> H]. apply app_inv_head in H.
  assert (debug_production q ++ [] = debug_production q' ++ []) as E by (by rewrite H). apply production_split in E as [-> _]. done.
Qed.
Lemma ex_conflict : line_conflict (Production 4 [NT 3; T 2], Production 4 []) =
  lit "Production { left: 4, right: [NonTerminal(3), Terminal(2)] }, Production { left: 4, right: [] }".
Proof. vm_compute. reflexivity. Qed.
Lemma ex_stdout : main_stdout ascii_digit shipped_order 3000 syntaxis2_json (lit "ab: Cd )") = Ret (unlines [says_mismatch]).
Proof. vm_compute. reflexivity. Qed.

Lemma uint_value u : forall acc, foldl (fun v c => 10 * v + (N.to_nat c - 48)) acc (uint_str u) = Nat.of_uint_acc u acc.
Proof.
  induction u; intros acc; cbn [uint_str foldl Nat.of_uint_acc]; [done|..]; rewrite IHu; f_equal;
    rewrite Nat.tail_mul_spec; first [lia|rewrite Nat.tail_add_spec; lia|cbn; lia].
Qed.
Lemma to_uint_decimal n : decimal n (usize_to_string n).
Proof.
  unfold usize_to_string. split; [|split].
  - induction (Nat.to_uint n); cbn [uint_str]; constructor; try done; split; by vm_compute.
  -
    assert (Decimal.unorm (Nat.to_uint n) = Nat.to_uint n) as E by (rewrite <- DecimalNat.Unsigned.to_of, DecimalNat.Unsigned.of_to; reflexivity).
    rewrite <- E. clear E. induction (Nat.to_uint n) as [|u IH|u IH|u IH|u IH|u IH|u IH|u IH|u IH|u IH|u IH]; cbn [Decimal.unorm uint_str]; [by left|exact IH|..]; right; eexists _, _; (split; [reflexivity|by vm_compute]).
  - rewrite uint_value. change (Nat.of_uint (Nat.to_uint n) = n). apply DecimalNat.Unsigned.of_to.
Qed.
Lemma debug_items_shows its : shows_items its (debug_items its).
Proof.
  assert (forall it, shows_item it (debug_item it)) as K.
  { intros [m|m]; exists (usize_to_string m); (split; [apply to_uint_decimal|reflexivity]). }
  induction its as [|it [|it' its] IH]; [exact shows_none|exact (shows_one _ _ (K it))|]. cbn [debug_items]. exact (shows_more _ _ _ _ _ (K it) IH).
Qed.
Lemma c82_conflict_text c : exists a b, shows_production (fst c) a /\ shows_production (snd c) b /\ line_conflict c = a ++ lit ", " ++ b.
Proof.
  assert (forall p, shows_production p (debug_production p)) as K.
  { intros p. exists (usize_to_string (left p)), (debug_items (right p)). split; [apply to_uint_decimal|]. split; [apply debug_items_shows|reflexivity]. }
  exists (debug_production (fst c)), (debug_production (snd c)). done.
Qed.
