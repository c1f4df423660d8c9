(** SpecFoo.v -- words for the statements about the fixture tests/foo. *)
From Verif Require Export Foo SpecVisitor.

(** The texts of the first Number (token type 1) of each expr node (rule 3) that has one, nodes in document order. *)
Definition numbers (r : rule_ctx) : list str :=
  omap (fun n => if rule_index n =? 3 then text <$> head (leaves_of 1 n) else None) (opening_order r).

(** The stmt and expr nodes of a tree, as a forest, without anything else. *)
Inductive outline := Stmt (below : list outline) | Expr (below : list outline).
Fixpoint outline_of (r : rule_ctx) : list outline :=
  match r with
  | RuleCtx _ cs i =>
      let below :=
        (fix go (cs : list ast) : list outline :=
           match cs with
           | [] => []
           | Rule c :: cs' => outline_of c ++ go cs'
           | _ :: cs' => go cs'
           end) cs in
      match i with 2 => [Stmt below] | 3 => [Expr below] | _ => below end
  end.
(** [announced l lines]: each node of the forest is announced when it is entered and when it is left. *)
Inductive announced : list outline -> list str -> Prop :=
| announced_nil : announced [] []
| announced_stmt below l a b : announced below a -> announced l b ->
    announced (Stmt below :: l) ([lit "enter stmt"] ++ a ++ [lit "exit stmt"] ++ b)
| announced_expr below l a b : announced below a -> announced l b ->
    announced (Expr below :: l) ([lit "enter expr"] ++ a ++ [lit "exit expr"] ++ b).
