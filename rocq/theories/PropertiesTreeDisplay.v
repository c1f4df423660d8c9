(** PropertiesTreeDisplay.v -- C15 (edge terminals), C46, C55 (displayed grammars and trees), C56 (displayed tokens).
    Statement vocabulary: SpecTreeDisplay.v, SpecFormat.v. *)
From Verif Require Import TreeDisplayProofs FormatProofs.

(** C15: get_first_terminal and get_last_terminal return the leaf reached along first (last) children if it is a
    terminal, and nothing otherwise; get_child_count counts. *)
Theorem C15_edge_terminals r t :
  (get_first_terminal r = Some t <-> first_leaf r (Terminal t)) /\ (get_last_terminal r = Some t <-> last_leaf r (Terminal t)) /\
  get_child_count r = length (children r) /\
  (forall a b, first_leaf r a -> first_leaf r b -> a = b) /\ (forall a b, last_leaf r a -> last_leaf r b -> a = b).
Proof. exact (c15_edges r t). Qed.
Print Assumptions C15_edge_terminals.

Example C15_edge_example : let r := RuleCtx [] [Rule (RuleCtx [] [Terminal (token_new 2 [] [])] 1); Error (token_new 3 [] [])] 0 in
  first_leaf r (Terminal (token_new 2 [] [])) /\ last_leaf r (Error (token_new 3 [] [])).
Proof. split; [do 2 constructor|apply (last_leaf_error _ _ [_])]. Qed.

(** C55 is false for arbitrary names: a blank in a name looks like two leaves. *)
Theorem C55_display_shape_refuted : exists a b, ast_display a = ast_display b /\ shape_of a <> shape_of b.
Proof. exact (c55_refuted). Qed.
Print Assumptions C55_display_shape_refuted.

(** C55 for names without blanks and parentheses: the display determines the nesting and all names. *)
Theorem C55_display_shape_partial a b : plain_names (shape_of a) -> plain_names (shape_of b) -> ast_display a = ast_display b -> shape_of a = shape_of b.
Proof. exact (c55_partial a b). Qed.
Print Assumptions C55_display_shape_partial.

Example C55_example : plain_names (shape_of (Rule (RuleCtx (lit "list") [Terminal (token_new 2 (lit "A") []); Rule (RuleCtx (lit "b") [] 1)] 0))) /\
  ast_display (Rule (RuleCtx (lit "list") [Terminal (token_new 2 (lit "A") []); Rule (RuleCtx (lit "b") [] 1)] 0)) = lit "list (A b () )".
Proof. split; [|reflexivity]. repeat constructor; discriminate. Qed.

(** C56 is false for arbitrary names: a quote in the name can be read as the end of the text. *)
Theorem C56_token_display_refuted : exists t u, token_display t = token_display u /\ ~ same_but_channel t u.
Proof. exact (c56_refuted). Qed.
Print Assumptions C56_token_display_refuted.

(** C56 for names without quotes, whatever the text: the display determines every field but the channel. *)
Theorem C56_token_display_partial t u : 39%N ∉ token_name t -> 39%N ∉ token_name u -> token_display t = token_display u -> same_but_channel t u.
Proof. exact (c56_partial t u). Qed.
Print Assumptions C56_token_display_partial.

Example C56_example : 39%N ∉ token_name (token_new 2 (lit "ID") (lit "it's")) /\
  token_display (token_new 2 (lit "ID") (lit "it's")) = lit "[@0, 0:0='it's', <ID>, <2>, start: <line: 0, position: 0>, stop: <line: 0, position: 0>]".
Proof. split; [|reflexivity]. cbn. set_solver. Qed.

(** C55: the layout of a displayed tree, for all names. *)
Theorem C55_display_format a : shown (shape_of a) (ast_display a).
Proof. exact (c55_format a). Qed.
Print Assumptions C55_display_format.

Example C55_format_example : shown (Node (lit "list") [Leaf (lit "A"); Node (lit "b") []]) (lit "list (A b () )").
Proof. exact (c55_format (Rule (RuleCtx (lit "list") [Terminal (token_new 2 (lit "A") []); Rule (RuleCtx (lit "b") [] 1)] 0))). Qed.

(** C46: the layout of a printed grammar: one line per production, in iteration order. *)
Theorem C46_display_format order g s : display_grammar order g = Ret s ->
  exists lines, Forall2 (printed_production (g_vocabulary g)) order lines /\ s = concat lines.
Proof. exact (c46_format order g s). Qed.
Print Assumptions C46_display_format.

Example C46_format_example : display_grammar [Production 0 [NT 1; T 2; T 2]] (g46 (vrun vocabulary_new v46_ops) [NT 1; T 2; T 2]) = Ret (lit "s ->a NUM NUM;" ++ [10%N]).
Proof. exact (proj2 (proj2 (proj2 ex46))). Qed.

(** C56: where each field stands, for every token. *)
Theorem C56_token_display_format t : exists index from upto type l1 p1 l2 p2,
  token_display t = lit "[@" ++ index ++ lit ", " ++ from ++ lit ":" ++ upto ++ lit "='" ++ text t ++ lit "', <" ++ token_name t ++ lit ">, <" ++ type ++
    lit ">, start: <line: " ++ l1 ++ lit ", position: " ++ p1 ++ lit ">, stop: <line: " ++ l2 ++ lit ", position: " ++ p2 ++ lit ">]" /\
  numeral (token_index t) index /\ numeral (char_start_index t) from /\ numeral (char_stop_index t) upto /\ numeral (token_type t) type /\
  numeral (line (start t)) l1 /\ numeral (char_position (start t)) p1 /\ numeral (line (stop t)) l2 /\ numeral (char_position (stop t)) p2.
Proof. exact (c56_format t). Qed.
Print Assumptions C56_token_display_format.

Example C56_format_example : let t := Token 2 (lit "ID") (Position 3 7) (Position 3 10) 0 (lit "foo") 12 40 43 in
  token_display t = lit "[@12, 40:43='foo', <ID>, <2>, start: <line: 3, position: 7>, stop: <line: 3, position: 10>]".
Proof. exact c56_format_example. Qed.
