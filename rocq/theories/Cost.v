(** Cost.v -- the parsers once more, with the work they do: src/tool/parser/ll1_parser.rs:27-61, src/tool/v1/syntaxis_parser.rs:96-131. *)
From Verif Require Export Parser.

(** The nodes of a tree: what [ASTContext::clone] (derived, ast_context.rs:6) copies. *)
Fixpoint nodes (a : ast) : nat :=
  match a with
  | Terminal _ | Error _ => 1
  | Rule (RuleCtx _ cs _) => S ((fix go (cs : list ast) : nat := match cs with [] => 0 | c :: cs' => nodes c + go cs' end) cs)
  end.
Definition nodes_list (cs : list ast) : nat := sum_list (map nodes cs).

(** The calls of parse_ast, the nodes copied, and the outcome. *)
Definition counted (A : Type) : Type := nat * nat * res A.
Definition cret {A} (x : res A) : counted A := (0, 0, x).
Definition cbind {A B} (m : counted A) (f : A -> counted B) : counted B :=
  match m with
  | (q, k, Ret a) => let '(q', k', x) := f a in (q + q', k + k', x)
  | (q, k, Panic) => (q, k, Panic)
  | (q, k, OutOfFuel) => (q, k, OutOfFuel)
  end.

(** The loop -- ll1_parser.rs:35-59, v1/syntaxis_parser.rs:105-129.  The children of a nameless rule are cloned one by one
    (ll1_parser.rs:43-45, v1/syntaxis_parser.rs:113-115). *)
Fixpoint count_items (voc : vocabulary) (toks : list token)
    (rec : nat -> nat -> counted (rule_ctx * nat * list mismatch))
    (rhs : list item) (cursor : nat) (kids : list ast) (mm : list mismatch)
    : counted (nat * list ast * list mismatch) :=
  match rhs with
  | [] => cret (Ret (cursor, kids, mm))
  | NT rule_id :: rhs' =>
      cbind (rec cursor rule_id) (fun '(rule, new_cursor, mm') =>
      match get_nonterminal_name_by_id voc rule_id with
      | Some _ => count_items voc toks rec rhs' new_cursor (kids ++ [Rule rule]) (mm ++ mm')
      | None => cbind (0, nodes_list (children rule), Ret tt) (fun _ => count_items voc toks rec rhs' new_cursor (kids ++ children rule) (mm ++ mm'))
      end)
  | T ty :: rhs' =>
      cbind (cret (unwrap (toks !! cursor))) (fun tok =>
      let mm' := if negb (ty =? token_type tok) then mm ++ [(cursor, ty)] else mm in
      count_items voc toks rec rhs' (cursor + 1) (kids ++ [Terminal tok]) mm')
  end.
(** parse_ast -- ll1_parser.rs:27-61, v1/syntaxis_parser.rs:96-131 *)
Fixpoint count_ast (voc : vocabulary) (tab : table) (toks : list token) (fuel cursor rule_idx : nat) : counted (rule_ctx * nat * list mismatch) :=
  match fuel with
  | 0 => cret OutOfFuel
  | S fuel' =>
      cbind (1, 0, Ret tt) (fun _ =>
      cbind (cret (unwrap (toks !! cursor))) (fun tok =>
      cbind (cret (unwrap (tab !! (rule_idx, token_type tok)))) (fun p =>
      let name := get_nonterminal_name_with_default voc rule_idx in
      cbind (count_items voc toks (count_ast voc tab toks fuel') (right p) cursor [] []) (fun '(cursor', kids, mm) =>
      cret (Ret (RuleCtx name kids rule_idx, cursor', mm))))))
  end.
