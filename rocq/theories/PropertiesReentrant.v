(** PropertiesReentrant.v -- C54 (visitors whose methods call back) and C18 for the trait's default bodies.
    Statement vocabulary: SpecReentrant.v, SpecTree.v. *)
From Verif Require Import ReentrantProofs.

(** C54: a visitor that forwards to a listener around self.visit_children(ctx) is the walker with that listener, for
    every listener and every tree of grammar-language nodes. *)
Theorem C54_forwarding_is_walking {S} (l : listener S) r : (forall n, node_of n r -> rule_index n <= 8) ->
  exists n, forall fuel s, n <= fuel -> open_run fuel (forwarding l) true r s = Ret (tt, walk l r s).
Proof. exact (c54_walker l r). Qed.
Print Assumptions C54_forwarding_is_walking.

Example C54_example : exists n, forall fuel, n <= fuel ->
  open_run fuel (forwarding recorder) true (RuleCtx [] [Rule (RuleCtx [] [Terminal (token_new 4 [] [])] 4)] 3) [] =
    Ret (tt, let e := RuleCtx [] [Terminal (token_new 4 [] [])] 4 in let a := RuleCtx [] [Rule e] 3 in
      [EnterEvery a; EnterRule 3 a; EnterEvery e; EnterRule 4 e; EnterTerminal (token_new 4 [] []); ExitTerminal (token_new 4 [] []);
       ExitRule 4 e; ExitEvery e; ExitRule 3 a; ExitEvery a]).
Proof. exact ex_forwarding_calls. Qed.

(** C54: methods that only visit nodes below their own always finish, whatever they do in between. *)
Theorem C54_descending_terminates {S R} (o : open_visitor S R) r : descending o -> productive o ->
  exists n, forall fuel s, n <= fuel -> open_run fuel o true r s <> OutOfFuel /\ open_run fuel o true r s = open_run n o true r s.
Proof. exact (c54_stable o r). Qed.
Print Assumptions C54_descending_terminates.

Example C54_descending_example {S} (l : listener S) : descending (forwarding l) /\ productive (forwarding l).
Proof. exact (conj (ex_forwarding l) (ex_forwarding_productive l)). Qed.

(** C54: methods that do not call back behave as in C18. *)
Theorem C54_plain {S R} (v : visitor S R) r : exists n, forall fuel s, n <= fuel ->
  open_run fuel (fun _ _ => v) true r s = visit v r s /\ open_run fuel (fun _ _ => v) false r s = visit_children v r s.
Proof. exact (c54_plain v r). Qed.
Print Assumptions C54_plain.

(** C18 for the bodies the trait gives to default_result, aggregate_result and should_visit_next_child: every leaf is
    visited, in document order; and the visitor that overrides nothing changes nothing. *)
Theorem C18_defaults {S} (vt ve : token -> S -> res (unit * S)) r s :
  let d := default_visitor S in
  let v := Visitor S unit None None None None None None None None None vt ve (v_default_result d) (v_aggregate_result d) (v_should_visit_next_child d) in
  (let! (_, s') := visit v r s in Ret s') = rfold (visit_leaf v) (leaf_nodes r) s /\ visit d r s = Ret (tt, s).
Proof. exact (c18_defaults vt ve r s). Qed.
Print Assumptions C18_defaults.
