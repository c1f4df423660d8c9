(** OverridesProofs.v -- C17 and C54 with replaced methods; C90. *)
From Verif Require Export SpecOverrides ReentrantProofs.

Lemma walk_over_unfold {S} (l : listener S) e x n cs i s : walk_over l e x (RuleCtx n cs i) s =
  let r := RuleCtx n cs i in
  exit_every_rule l r (x r (fold_left (fun s a => match a with Terminal t => exit_terminal l t (enter_terminal l t s) | Rule c => walk_over l e x c s
    | Error t => exit_errornode l t (enter_errornode l t s) end) cs (e r (enter_every_rule l r s)))).
Proof. reflexivity. Qed.

Lemma walk_over_default {S} (l : listener S) r s : walk_over l (l_enter l) (l_exit l) r s = walk l r s.
Proof.
  revert s. induction r as [n cs i IH] using tree_ind. intros s. rewrite walk_over_unfold, ReentrantProofs.walk_unfold. cbv zeta.
  f_equal. f_equal. generalize (l_enter l (RuleCtx n cs i) (enter_every_rule l (RuleCtx n cs i) s)).
  induction cs as [|[t|c|t] cs IHcs]; intros s0; [done|..]; cbn [fold_left].
  - apply IHcs. intros r Hr. apply IH. by apply elem_of_list_further.
  - rewrite IH by apply elem_of_list_here. apply IHcs. intros r Hr. apply IH. by apply elem_of_list_further.
  - apply IHcs. intros r Hr. apply IH. by apply elem_of_list_further.
Qed.

Lemma walk_over_nested {S} (l : listener S) e x r calls : nested_node r calls ->
  forall s, walk_over l e x r s = fold_left (perform_over l e x) calls s.
Proof.
  intros H. revert r calls H.
  apply (nested_node_ind' (fun r calls _ => forall s, walk_over l e x r s = fold_left (perform_over l e x) calls s)
    (fun cs calls _ => forall s, fold_left (fun s a => match a with Terminal t => exit_terminal l t (enter_terminal l t s) | Rule c => walk_over l e x c s
    | Error t => exit_errornode l t (enter_errornode l t s) end) cs s = fold_left (perform_over l e x) calls s)).
  - intros [n cs i] body Hi Hb IH s. rewrite walk_over_unfold. cbv zeta. cbn [children] in IH. rewrite IH. cbn [app fold_left]. by rewrite fold_left_app.
  - intros [n cs i] body Hi Hb IH s. rewrite walk_over_unfold. cbv zeta. cbn [children] in IH. rewrite IH. cbn [app fold_left]. by rewrite fold_left_app.
  - done.
  - intros t cs calls H IH s. cbn [fold_left]. apply IH.
  - intros t cs calls H IH s. cbn [fold_left]. apply IH.
  - intros r cs c1 c2 H1 IH1 H2 IH2 s. cbn [fold_left]. by rewrite fold_left_app, <- IH1, IH2.
Qed.
Lemma c17_over {S} (l : listener S) e x r s : walk_over l e x r s = fold_left (perform_over l e x) (walk recorder r []) s.
Proof. apply walk_over_nested, c17_walk. Qed.

Lemma c54_same {S R} (o : open_visitor S R) fuel which r s :
  full_run fuel (fun f g => FullVisitor (o f g) None None) which r s = open_run fuel o which r s.
Proof.
  enough (forall which, full_run fuel (fun f g => FullVisitor (o f g) None None) which = open_run fuel o which) as H by by rewrite H.
  clear which r s. induction fuel as [|n IH]; intros which; [done|].
  cbn [full_run open_run f_methods f_visit f_visit_children]. by rewrite !IH.
Qed.

Lemma around_loop {S} (l : listener S) e x f g h ctx cs y s :
  (forall c, Rule c ∈ cs -> forall s, h c s = Ret (tt, walk_over l e x c s)) ->
  visit_loop (f_methods (around_visit l e x f g)) h ctx cs y s = Ret (tt, fold_left (fun s a => match a with Terminal t => exit_terminal l t (enter_terminal l t s) | Rule c => walk_over l e x c s
    | Error t => exit_errornode l t (enter_errornode l t s) end) cs s).
Proof.
  revert y s. induction cs as [|c cs IH]; intros y s H; [by destruct y|]. cbn [visit_loop fold_left].
  change (v_should_visit_next_child (f_methods (around_visit l e x f g)) ctx y s) with (Ret (true, s) : res (bool * S)). cbn [rbind].
  assert (IH' : forall y s, visit_loop (f_methods (around_visit l e x f g)) h ctx cs y s = Ret (tt, fold_left (fun s a => match a with Terminal t => exit_terminal l t (enter_terminal l t s) | Rule c => walk_over l e x c s
    | Error t => exit_errornode l t (enter_errornode l t s) end) cs s)) by (intros y' s'; apply IH; intros c' Hc'; apply H; by apply elem_of_list_further).
  destruct c as [t|c|t].
  - change (v_terminal (f_methods (around_visit l e x f g)) t s) with (Ret (tt, exit_terminal l t (enter_terminal l t s))). cbn [rbind]. apply IH'.
  - rewrite H by apply elem_of_list_here. cbn [rbind]. apply IH'.
  - change (v_errornode (f_methods (around_visit l e x f g)) t s) with (Ret (tt, exit_errornode l t (enter_errornode l t s))). cbn [rbind]. apply IH'.
Qed.
Lemma c54_around {S} (l : listener S) e x r :
  exists n, forall fuel s, n <= fuel -> full_run fuel (around_visit l e x) true r s = Ret (tt, walk_over l e x r s).
Proof.
  exists (2 * depth r). intros fuel s Hf. revert fuel s Hf. induction r as [r IH] using (induction_ltof1 _ depth). unfold ltof in IH. intros fuel s Hf.
  assert (1 <= depth r) by (destruct r; cbn; lia). destruct fuel as [|[|n]]; [lia|lia|].
  cbn [full_run f_visit f_visit_children around_visit].
  change (v_default_result (f_methods _) ?s) with (Ret (tt, s)). cbn [rbind].
  change (f_methods _) with (f_methods (around_visit l e x (full_run n (around_visit l e x) true) (full_run n (around_visit l e x) false))).
  rewrite (around_loop l e x).
  - cbn [rbind]. destruct r as [nm cs i]. rewrite walk_over_unfold. reflexivity.
  - intros c Hin s'. pose proof (depth_child _ _ Hin). apply IH; lia.
Qed.

(** Replacing visit_children alone: every node of every rule without its own method gets the new body. *)
Lemma c54_children {S R} (o : any_visitor S R) (h : rule_ctx -> S -> res (R * S)) r s fuel :
  (forall f g, f_visit (o f g) = None /\ v_override (f_methods (o f g)) (rule_index r) = None /\ f_visit_children (o f g) = Some h) ->
  2 <= fuel -> full_run fuel o true r s = h r s.
Proof.
  intros H Hf. destruct fuel as [|[|n]]; [lia|lia|]. remember (Datatypes.S n) as m eqn:E. cbn [full_run].
  destruct (H (full_run m o true) (full_run m o false)) as (-> & -> & _). subst m. cbn [full_run].
  by destruct (H (full_run n o true) (full_run n o false)) as (_ & _ & ->).
Qed.

(** C90 *)
Lemma visit_hook_ext {S R} (v : visitor S R) h h' r s :
  (forall ctx x s, h ctx x s = h' ctx x s) -> visit (set_hook v h) r s = visit (set_hook v h') r s.
Proof.
  intros H. revert s. induction r as [r IH] using (induction_ltof1 _ depth). unfold ltof in IH. intros s. rewrite !visit_unfold.
  change (v_override (set_hook v h') (rule_index r)) with (v_override (set_hook v h) (rule_index r)).
  destruct (v_override (set_hook v h) (rule_index r)); [done|]. unfold visit_children.
  change (v_default_result (set_hook v h') s) with (v_default_result (set_hook v h) s).
  destruct (v_default_result (set_hook v h) s) as [[x s0]| |]; cbn [rbind]; [|done..].
  apply visit_loop_hooks; [done..|exact H|]. intros c Hc s'. apply IH. by apply depth_child.
Qed.
Lemma c90_refuted : exists r,
  (let! (_, n) := visit (set_hook counting (asks stop_at_one)) r 0 in Ret n) = Ret 1 /\
  (let! (_, n) := visit (with_hook counting (asks stop_at_one)) r 0 in Ret n) = Ret 3.
Proof. exists (RuleCtx [] [Terminal (token_new 4 [] []); Terminal (token_new 4 [] []); Error (token_new 5 [] [])] 3). split; reflexivity. Qed.
Lemma c90_blind {S V} (v : visitor S (dyn V)) answer r s :
  visit (with_hook v (asks answer)) r s = visit (set_hook v (fun ctx _ s => answer ctx (fun _ => None) s)) r s.
Proof. by apply visit_hook_ext. Qed.
Lemma c90_content {S V} (v : visitor S (dyn V)) answer r s :
  visit (with_hook v (asks_content answer)) r s = visit (set_hook v (asks answer)) r s.
Proof. by apply visit_hook_ext. Qed.
Lemma c90_leaves {S V} (v : visitor S (dyn V)) d agg (want : V -> bool) type r s :
  no_overrides v ->
  (forall s, v_default_result v s = Ret (d, s)) ->
  (forall a b s, v_aggregate_result v a b s = Ret (agg a b, s)) ->
  let hook := asks (fun _ ask s => Ret (match ask type with Some x => want x | None => true end, s)) in
  (let! (_, s') := visit (with_hook v hook) r s in Ret s') = rfold (visit_leaf v) (leaf_nodes r) s.
Proof.
  intros Hn Hd Ha hook. rewrite (c18_leaves (with_hook v hook) d agg); [|exact Hn|exact Hd|exact Ha|reflexivity].
  generalize (leaf_nodes r). intros l. revert s. induction l as [|a l IH]; intros s; [done|]. cbn [rfold].
  change (visit_leaf (with_hook v hook) s a) with (visit_leaf v s a). destruct (visit_leaf v s a); cbn [rbind]; [apply IH|done..].
Qed.
