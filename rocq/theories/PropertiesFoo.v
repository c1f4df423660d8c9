(** PropertiesFoo.v -- C76: the visitor and the listener of the fixture tests/foo.
    Statement vocabulary: SpecFoo.v. *)
From Verif Require Import FooProofs.

(** C76: the visitor prints the first number of every expression that has one, in document order, at every depth. *)
Theorem C76_visitor r out : foo_visit r out = out ++ numbers r.
Proof. exact (c76_visitor r out). Qed.
Print Assumptions C76_visitor.

Example C76_example : test_foo foo_ast =
  [lit "start (stmt (expr ('(' Number ')' ) ';' ) )"; lit "234"; lit "enter stmt"; lit "enter expr"; lit "exit expr"; lit "exit stmt"].
Proof. exact c76_test. Qed.

(** C76: the listener announces exactly the statements and expressions, properly nested. *)
Theorem C76_listener r out : exists lines, foo_walk r out = out ++ lines /\ announced (outline_of r) lines.
Proof. exact (c76_listener r out). Qed.
Print Assumptions C76_listener.

(** C76: two trees get the same announcements if and only if they nest statements and expressions the same way. *)
Theorem C76_lines_iff r1 r2 : foo_walk r1 [] = foo_walk r2 [] <-> outline_of r1 = outline_of r2.
Proof. exact (c76_lines_iff r1 r2). Qed.
Print Assumptions C76_lines_iff.

(** C76: the test prints the tree, then the numbers, then the announcements. *)
Theorem C76_order r : exists lines, test_foo r = [rule_display r] ++ numbers r ++ lines /\ announced (outline_of r) lines.
Proof. exact (c76_order r). Qed.
Print Assumptions C76_order.
