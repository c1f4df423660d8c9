(** Parser.v -- model of the table-driven parsers: src/tool/parser/ll1_parser.rs and
    src/tool/v1/syntaxis_parser.rs ("copied verbatim" parse_ast). *)
From Verif Require Export Base Vocab Ast Grammar.

(** One printed "符号不匹配" line: position, expected terminal -- ll1_parser.rs:52,
    v1/syntaxis_parser.rs:122 *)
Definition mismatch : Type := nat * nat.

(** The [for child in production.right.iter()] loop -- ll1_parser.rs:35-59,
    v1/syntaxis_parser.rs:105-129.  [rec] is the recursive call parse_ast(cursor, rule_id).
    State: cursor, result.children, mismatches printed so far. *)
Fixpoint parse_items (voc : vocabulary) (toks : list token)
    (rec : nat -> nat -> res (rule_ctx * nat * list mismatch))
    (rhs : list item) (cursor : nat) (kids : list ast) (mm : list mismatch)
    : res (nat * list ast * list mismatch) :=
  match rhs with
  | [] => Ret (cursor, kids, mm)
  | NT rule_id :: rhs' =>
      let! (rule, new_cursor, mm') := rec cursor rule_id in
      let kids' := match get_nonterminal_name_by_id voc rule_id with
                   | Some _ => kids ++ [Rule rule]
                   | None => kids ++ children rule
                   end in
      parse_items voc toks rec rhs' new_cursor kids' (mm ++ mm')
  | T ty :: rhs' =>
      let! tok := unwrap (toks !! cursor) in
      let mm' := if negb (ty =? token_type tok) then mm ++ [(cursor, ty)] else mm in
      parse_items voc toks rec rhs' (cursor + 1) (kids ++ [Terminal tok]) mm'
  end.

(** parse_ast -- ll1_parser.rs:27-61, v1/syntaxis_parser.rs:96-131.  Fuel bounds the recursion
    depth. *)
Fixpoint parse_ast (voc : vocabulary) (tab : table) (toks : list token)
    (fuel cursor rule_idx : nat) : res (rule_ctx * nat * list mismatch) :=
  match fuel with
  | 0 => OutOfFuel
  | S fuel' =>
      let! tok := unwrap (toks !! cursor) in
      let! p := unwrap (tab !! (rule_idx, token_type tok)) in
      let name := get_nonterminal_name_with_default voc rule_idx in
      let! (cursor', kids, mm) :=
        parse_items voc toks (parse_ast voc tab toks fuel') (right p) cursor [] [] in
      Ret (RuleCtx name kids rule_idx, cursor', mm)
  end.

(** parse -- ll1_parser.rs:22-24, v1/syntaxis_parser.rs:90-92 (also rule_list,
    v1/syntaxis_parser.rs:44-47) *)
Definition parse (voc : vocabulary) (tab : table) (toks : list token) (fuel : nat)
    : res (rule_ctx * list mismatch) :=
  let! (r, _, mm) := parse_ast voc tab toks fuel 0 0 in Ret (r, mm).

(** The entry points rule_list, parser_rule, block, alternative, epsilon, element, ebnf_suffix, lexer_rule, regular --
    v1/syntaxis_parser.rs:44-87 (parse_ast(0, RULE), the cursor is dropped; the rule numbers are those of :19-27) *)
Definition entry (voc : vocabulary) (tab : table) (toks : list token) (fuel rule : nat) : res (rule_ctx * list mismatch) :=
  let! (r, _, mm) := parse_ast voc tab toks fuel 0 rule in Ret (r, mm).
