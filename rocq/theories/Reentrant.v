(** Reentrant.v -- model of visitors whose methods call back into the traversal: the trait SyntaxisVisitor of
    src/tool/syntaxis/syntaxis_visitor.rs:8-94 (src/tool/v1/syntaxis_visitor.rs is the same text) with overrides that
    use [self.visit] and [self.visit_children]. *)
From Verif Require Export Walker.

(** An implementation: its methods, given self.visit and self.visit_children. (Overrides of visit and visit_children
    themselves: Overrides.v.) *)
Definition open_visitor (S R : Type) : Type :=
  (rule_ctx -> S -> res (R * S)) -> (rule_ctx -> S -> res (R * S)) -> visitor S R.

(** visit (true; syntaxis_visitor.rs:52-66) and visit_children (false; :72-86).  An override may visit any node, even its own, so
    the recursion is bounded by fuel: one unit per call. *)
Fixpoint open_run {S R} (fuel : nat) (o : open_visitor S R) (which : bool) (r : rule_ctx) (s : S) : res (R * S) :=
  match fuel with
  | 0 => OutOfFuel
  | Datatypes.S n =>
      let v := o (open_run n o true) (open_run n o false) in
      if which then
        match v_override v (rule_index r) with
        | Some f => f r s
        | None => open_run n o false r s
        end
      else
        let! (result, s0) := v_default_result v s in
        visit_loop v (open_run n o true) r (children r) result s0
  end.

(** A visitor that forwards to a listener around self.visit_children(ctx) in each of its nine methods. *)
Definition forwarding {S} (l : listener S) : open_visitor S unit := fun _ visit_children =>
  let method := Some (fun r s =>
    let! (x, s1) := visit_children r (l_enter l r (enter_every_rule l r s)) in
    Ret (x, exit_every_rule l r (l_exit l r s1))) in
  let d := default_visitor S in
  Visitor S unit method method method method method method method method method
    (fun t s => Ret (tt, exit_terminal l t (enter_terminal l t s)))
    (fun t s => Ret (tt, exit_errornode l t (enter_errornode l t s)))
    (v_default_result d) (v_aggregate_result d) (v_should_visit_next_child d).
