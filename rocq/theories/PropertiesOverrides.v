(** PropertiesOverrides.v -- C17 and C54 for implementations that also replace the dispatching methods; C90 (what
    should_visit_next_child can see).  Statement vocabulary: SpecOverrides.v. *)
From Verif Require Import OverridesProofs.

(** C17: a listener with its own enter and exit gets them at every node, between the every-rule methods, in the same order. *)
Theorem C17_replaced {S} (l : listener S) enter exit r s :
  walk_over l enter exit r s = fold_left (perform_over l enter exit) (walk recorder r []) s /\
  walk_over l (l_enter l) (l_exit l) r s = walk l r s.
Proof. exact (conj (c17_over l enter exit r s) (walk_over_default l r s)). Qed.
Print Assumptions C17_replaced.

Example C17_replaced_example :
  walk_over recorder (fun r s => s ++ [EnterRule 100 r]) (fun r s => s) (RuleCtx [] [Rule (RuleCtx [] [] 40)] 3) [] =
    let e := RuleCtx [] [] 40 in let a := RuleCtx [] [Rule e] 3 in
    [EnterEvery a; EnterRule 100 a; EnterEvery e; EnterRule 100 e; ExitEvery e; ExitEvery a].
Proof. reflexivity. Qed.

(** C54: implementations that replace neither visit nor visit_children are those of Reentrant.v. *)
Theorem C54_nothing_replaced {S R} (o : open_visitor S R) fuel which r s :
  full_run fuel (fun f g => FullVisitor (o f g) None None) which r s = open_run fuel o which r s.
Proof. exact (c54_same o fuel which r s). Qed.
Print Assumptions C54_nothing_replaced.

(** C54: a visitor that replaces visit by enter, self.visit_children(ctx), exit is the walker with these two, on every tree. *)
Theorem C54_around_visit_is_walking {S} (l : listener S) enter exit r :
  exists n, forall fuel s, n <= fuel -> full_run fuel (around_visit l enter exit) true r s = Ret (tt, walk_over l enter exit r s).
Proof. exact (c54_around l enter exit r). Qed.
Print Assumptions C54_around_visit_is_walking.

(** C54: with a replaced visit_children nothing is visited that the new body does not visit. *)
Theorem C54_visit_children_replaced {S R} (o : any_visitor S R) (body : rule_ctx -> S -> res (R * S)) r s fuel :
  (forall f g, f_visit (o f g) = None /\ v_override (f_methods (o f g)) (rule_index r) = None /\ f_visit_children (o f g) = Some body) ->
  2 <= fuel -> full_run fuel o true r s = body r s.
Proof. exact (c54_children o body r s fuel). Qed.
Print Assumptions C54_visit_children_replaced.

Example C54_visit_children_replaced_example :
  full_run 2 (fun _ _ => FullVisitor (default_visitor nat) None (Some (fun r s => Ret (tt, s + length (children r))))) true
    (RuleCtx [] [Rule (RuleCtx [] [Rule (RuleCtx [] [] 1)] 40); Terminal (token_new 4 [] [])] 3) 5 = Ret (tt, 7).
Proof. reflexivity. Qed.

(** C90 is false: a hook that is to stop after the first leaf, and would if it saw the result, lets all three be visited. *)
Theorem C90_stops_refuted : exists r,
  (let! (_, n) := visit (set_hook counting (asks stop_at_one)) r 0 in Ret n) = Ret 1 /\
  (let! (_, n) := visit (with_hook counting (asks stop_at_one)) r 0 in Ret n) = Ret 3.
Proof. exact c90_refuted. Qed.
Print Assumptions C90_stops_refuted.

(** C90: a hook that asks for values (of types other than Box<dyn Any>) always gets None: its answers do not depend on the results. *)
Theorem C90_blind {S V} (v : visitor S (dyn V)) answer r s :
  visit (with_hook v (asks answer)) r s = visit (set_hook v (fun ctx _ s => answer ctx (fun _ => None) s)) r s.
Proof. exact (c90_blind v answer r s). Qed.
Print Assumptions C90_blind.

(** C90: so a hook that goes on unless it finds a result of one type that it does not want never stops: every leaf is visited. *)
Theorem C90_never_stops {S V} (v : visitor S (dyn V)) d agg (want : V -> bool) type r s :
  no_overrides v ->
  (forall s, v_default_result v s = Ret (d, s)) ->
  (forall a b s, v_aggregate_result v a b s = Ret (agg a b, s)) ->
  let hook := asks (fun _ ask s => Ret (match ask type with Some x => want x | None => true end, s)) in
  (let! (_, s') := visit (with_hook v hook) r s in Ret s') = rfold (visit_leaf v) (leaf_nodes r) s.
Proof. exact (c90_leaves v d agg want type r s). Qed.
Print Assumptions C90_never_stops.

Example C90_never_stops_example : no_overrides counting.
Proof. exact (fun i => match i with 0 | 1 | 2 | 3 | 4 | 5 | 6 | 7 | 8 | _ => eq_refl end). Qed.

(** C90 as it can be had: a hook that first asks for the Box<dyn Any> and then asks the content does see the results. *)
Theorem C90_content_partial {S V} (v : visitor S (dyn V)) answer r s :
  visit (with_hook v (asks_content answer)) r s = visit (set_hook v (asks answer)) r s.
Proof. exact (c90_content v answer r s). Qed.
Print Assumptions C90_content_partial.

Example C90_content_example :
  (let! (_, n) := visit (with_hook counting (asks_content stop_at_one))
     (RuleCtx [] [Terminal (token_new 4 [] []); Terminal (token_new 4 [] []); Error (token_new 5 [] [])] 3) 0 in Ret n) = Ret 1.
Proof. reflexivity. Qed.
