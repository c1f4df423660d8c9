(** Overrides.v -- implementations of the traits of src/tool/syntaxis/syntaxis_visitor.rs, syntaxis_listener.rs (and the
    same ones of v1) that also replace the methods with a dispatching body, and what a hook learns from its [&dyn Any]. *)
From Verif Require Export Reentrant.

(** walk -- syntaxis_walker.rs:8-29 with a listener that replaces enter and exit (syntaxis_listener.rs:40-70) by its own. *)
Fixpoint walk_over {S} (l : listener S) (enter exit : rule_ctx -> S -> S) (ast : rule_ctx) (s : S) {struct ast} : S :=
  let s := enter_every_rule l ast s in
  let s := enter ast s in
  let s :=
    match ast with
    | RuleCtx _ children _ =>
        (fix go (cs : list Ast.ast) (s : S) : S :=
           match cs with
           | [] => s
           | child :: cs' =>
               let s := match child with
                        | Terminal t => exit_terminal l t (enter_terminal l t s)
                        | Rule ctx => walk_over l enter exit ctx s
                        | Error t => exit_errornode l t (enter_errornode l t s)
                        end in
               go cs' s
           end) children s
    end in
  let s := exit ast s in
  exit_every_rule l ast s.

(** An implementation of SyntaxisVisitor that may also replace visit (syntaxis_visitor.rs:52-66) and visit_children
    (:72-86); its methods are given self.visit and self.visit_children. *)
Record full_visitor (S R : Type) := FullVisitor {
  f_methods : visitor S R;
  f_visit : option (rule_ctx -> S -> res (R * S));
  f_visit_children : option (rule_ctx -> S -> res (R * S));
}.
Arguments FullVisitor {S R}. Arguments f_methods {S R}. Arguments f_visit {S R}. Arguments f_visit_children {S R}.
Definition any_visitor (S R : Type) : Type :=
  (rule_ctx -> S -> res (R * S)) -> (rule_ctx -> S -> res (R * S)) -> full_visitor S R.

(** visit (true) and visit_children (false), one unit of fuel per call as in Reentrant.v. *)
Fixpoint full_run {S R} (fuel : nat) (o : any_visitor S R) (which : bool) (r : rule_ctx) (s : S) : res (R * S) :=
  match fuel with
  | 0 => OutOfFuel
  | Datatypes.S n =>
      let i := o (full_run n o true) (full_run n o false) in
      let v := f_methods i in
      if which then
        match f_visit i with
        | Some f => f r s
        | None =>
            match v_override v (rule_index r) with
            | Some f => f r s
            | None => full_run n o false r s
            end
        end
      else
        match f_visit_children i with
        | Some f => f r s
        | None =>
            let! (result, s0) := v_default_result v s in
            visit_loop v (full_run n o true) r (children r) result s0
        end
  end.

(** A visitor that replaces visit by: enter, self.visit_children(ctx), exit. *)
Definition around_visit {S} (l : listener S) (enter exit : rule_ctx -> S -> S) : any_visitor S unit := fun _ visit_children =>
  let d := default_visitor S in
  FullVisitor
    (Visitor S unit None None None None None None None None None
      (fun t s => Ret (tt, exit_terminal l t (enter_terminal l t s)))
      (fun t s => Ret (tt, exit_errornode l t (enter_errornode l t s)))
      (v_default_result d) (v_aggregate_result d) (v_should_visit_next_child d))
    (Some (fun r s =>
      let! (x, s1) := visit_children r (enter r (enter_every_rule l r s)) in
      Ret (x, exit_every_rule l r (exit r s1))))
    None.

(** Values behind a [dyn Any]: of some type (numbered), or themselves a Box<dyn Any>. *)
Inductive dyn (V : Type) := Plain (type : nat) (value : V) | BoxOfAny (content : dyn V).
Arguments Plain {V}. Arguments BoxOfAny {V}.
(** downcast_ref::<T>() for a type T other than Box<dyn Any>, and downcast_ref::<Box<dyn Any>>() -- std::any *)
Definition downcast_ref {V} (type : nat) (d : dyn V) : option V :=
  match d with Plain ty v => if ty =? type then Some v else None | BoxOfAny _ => None end.
Definition downcast_box {V} (d : dyn V) : option (dyn V) := match d with BoxOfAny c => Some c | Plain _ _ => None end.

(** A visitor with another should_visit_next_child. *)
Definition set_hook {S R} (v : visitor S R) (hook : rule_ctx -> R -> S -> res (bool * S)) : visitor S R :=
  Visitor S R (v_rule_list v) (v_parser_rule v) (v_block v) (v_alternative v) (v_epsilon v) (v_element v) (v_ebnf_suffix v)
    (v_lexer_rule v) (v_regular v) (v_terminal v) (v_errornode v) (v_default_result v) (v_aggregate_result v) hook.

(** A visitor whose results are Box<dyn Any>, with [hook] as its should_visit_next_child -- syntaxis_visitor.rs:74, 91.
    visit_children passes [&result], a &Box<dyn Any>, for the parameter [&dyn Any]: the reference is unsized as it is (this
    coercion is tried before dereferencing), so the value behind the parameter is the box, not its content. *)
Definition with_hook {S V} (v : visitor S (dyn V)) (hook : rule_ctx -> dyn V -> S -> res (bool * S)) : visitor S (dyn V) :=
  set_hook v (fun ctx result s => hook ctx (BoxOfAny result) s).
