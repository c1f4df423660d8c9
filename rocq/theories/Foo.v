(** Foo.v -- model of the fixture tests/foo (a visitor, a listener and a walker written by hand for a small
    grammar) and of tests/foo_test.rs.  What println! writes is the list of lines. *)
From Verif Require Export Base Ast.

(** tests/foo/foo_parser.rs:4-6 *)
Definition FOO_START := 1.
Definition FOO_STMT := 2.
Definition FOO_EXPR := 3.

(** ExprContext::number -- tests/foo/foo_context.rs:49-51 *)
Definition foo_number (ctx : rule_ctx) : option token := get_terminal ctx 1 0.

(** FooAcceptor::accept for RuleContext, FooVisitor::{visit_rule, visit_children, visit_terminal,
    visit_errornode, default_result, aggregate_result, should_visit_next_child} with their default bodies
    (tests/foo/foo_visitor.rs:10-14, 38-72: results are (), nothing is skipped) and FooBaseVisitor::visit_expr
    (:75-84).  The second argument is what has been printed. *)
Fixpoint foo_visit (ctx : rule_ctx) (out : list str) {struct ctx} : list str :=
  let visit_children := fun out =>
    match ctx with
    | RuleCtx _ children _ =>
        (fix go (cs : list ast) (out : list str) : list str :=
           match cs with
           | [] => out
           | child :: cs' =>
               let out := match child with
                          | Terminal _ => out
                          | Rule c => foo_visit c out
                          | Error _ => out
                          end in
               go cs' out
           end) children out
    end in
  if rule_index ctx =? FOO_START then visit_children out
  else if rule_index ctx =? FOO_EXPR then
    let out := match foo_number ctx with Some t => out ++ [text t] | None => out end in
    visit_children out
  else if rule_index ctx =? FOO_STMT then visit_children out
  else visit_children out.

(** FooListener::enter_rule, exit_rule -- tests/foo/foo_listener.rs:31-53 -- for FooBaseListener (:69-86);
    enter_start, exit_start, enter_every_rule, exit_every_rule and the leaf handlers do nothing *)
Definition foo_enter (ctx : rule_ctx) (out : list str) : list str :=
  if rule_index ctx =? FOO_EXPR then out ++ [lit "enter expr"]
  else if rule_index ctx =? FOO_START then out
  else if rule_index ctx =? FOO_STMT then out ++ [lit "enter stmt"]
  else out.
Definition foo_exit (ctx : rule_ctx) (out : list str) : list str :=
  if rule_index ctx =? FOO_EXPR then out ++ [lit "exit expr"]
  else if rule_index ctx =? FOO_START then out
  else if rule_index ctx =? FOO_STMT then out ++ [lit "exit stmt"]
  else out.

(** FooWalker::walk -- tests/foo/foo_walker.rs:8-30 *)
Fixpoint foo_walk (ast : rule_ctx) (out : list str) {struct ast} : list str :=
  let out := foo_enter ast out in
  let out :=
    match ast with
    | RuleCtx _ children _ =>
        (fix go (cs : list Ast.ast) (out : list str) : list str :=
           match cs with
           | [] => out
           | child :: cs' =>
               let out := match child with
                          | Terminal _ => out
                          | Rule ctx => foo_walk ctx out
                          | Error _ => out
                          end in
               go cs' out
           end) children out
    end in
  foo_exit ast out.

(** create_ast -- tests/foo/mod.rs:13-107 *)
Definition foo_ast : rule_ctx :=
  let lb := Token 3 (lit "'('") (Position 0 0) (Position 0 1) 0 (lit "'('") 0 0 1 in
  let number := Token 1 (lit "Number") (Position 0 2) (Position 0 5) 0 (lit "234") 1 2 5 in
  let rb := Token 4 (lit "')'") (Position 0 0) (Position 0 1) 0 (lit "')'") 0 0 1 in
  let semi := Token 5 (lit "';'") (Position 0 0) (Position 0 1) 0 (lit "';'") 0 0 1 in
  let expr := RuleCtx (lit "expr") [Terminal lb; Terminal number; Terminal rb] FOO_EXPR in
  let stmt := RuleCtx (lit "stmt") [Rule expr; Terminal semi] 2 in
  RuleCtx (lit "start") [Rule stmt] 1.

(** test_foo -- tests/foo_test.rs:12-29: the lines printed for a tree *)
Definition test_foo (start : rule_ctx) : list str :=
  foo_walk start (foo_visit start [rule_display start]).
