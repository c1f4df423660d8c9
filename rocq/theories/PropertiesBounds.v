(** PropertiesBounds.v -- C65: bounds on identifiers, offsets and cursors.  A String or Vec of Rust holds fewer than 2^63 bytes,
    so none of these numbers comes near 2^64 and the natural numbers of the model agree with usize. *)
From Verif Require Import BoundsProofs VisitorMain ExampleTree.

(** C65. Scanning with a generated lexer: cursor, offsets, indices, lines and columns never exceed the number of bytes of the input by more than 10. *)
Theorem C65_scan c ts st : lexer_ok c -> scanned (scan c) lexer_init ts st ->
  cursor st <= blen (input c) + 10 /\
  forall t, t ∈ ts -> token_le (blen (input c) + 10) t /\ token_type t < length (regex_list c) + 2.
Proof. exact (c65_scan c ts st). Qed.
Print Assumptions C65_scan.

Example C65_scan_example : lexer_ok (ex_lexer ex_text) /\ exists toks, scan_all (ex_lexer ex_text) 4 0 10 lexer_init = Ret (toks, None) /\
  map token_type toks = [3; 3; 1].
Proof. split; [apply ex_lexer_ok|]. destruct ex_scan_all as (toks & H1 & H2 & _). eauto. Qed.

(** C65. The same for the hand-written lexer, without the 10. *)
Theorem C65_scan_handwritten c ts st : lexer_ok c -> scanned (scan0 c) lexer_init ts st ->
  cursor st <= blen (input c) /\
  forall t, t ∈ ts -> token_le (blen (input c)) t /\ token_type t < length (regex_list c) + 2.
Proof. exact (c65_scan_handwritten c ts st). Qed.
Print Assumptions C65_scan_handwritten.

(** C65. SymbolVisitor: each outermost rule uses up at most one identifier. *)
Theorem C65_symbols r s s' x : visit_children symbol_visitor r s = Ret (x, s') ->
  sy_next_token_id s <= sy_next_token_id s' /\ sy_next_rule_id s <= sy_next_rule_id s' /\
  sy_next_token_id s' + sy_next_rule_id s' <=
    sy_next_token_id s + sy_next_rule_id s + length (outermost_below (fun i => (i =? PARSER_RULE) || (i =? LEXER_RULE)) r).
Proof. exact (c65_symbols r s s' x). Qed.
Print Assumptions C65_symbols.

(** C65. ProductionVisitor: a parser rule uses up fewer identifiers than it has nodes. *)
Theorem C65_productions fuel r s s' : production_visit_rule_list fuel r s = Ret s' ->
  ps_next_rule_id s <= ps_next_rule_id s' <= ps_next_rule_id s + sum_list (map (fun c => nodes c - 1) (parser_rule_list r)).
Proof. exact (c65_productions fuel r s s'). Qed.
Print Assumptions C65_productions.

(** C65. load_ast: token identifiers are below the number of nodes of the tree plus two, rule identifiers below the number of nodes. *)
Theorem C65_load r g d : load_tree r = Ret (g, d) ->
  (forall t, t ∈ terminals (g_vocabulary g) -> t < nodes r + 2) /\
  (forall n, n ∈ nonterminals (g_vocabulary g) -> n < nodes r) /\
  (forall x, x ∈ d -> ld_type x < nodes r + 2).
Proof. exact (c65_load r g d). Qed.
Print Assumptions C65_load.

Example C65_load_example : nodes ex_tree = 27 /\ match load_tree ex_tree with Ret (g, d) => map ld_type d = [2; 3] | _ => False end.
Proof. vm_compute. split; reflexivity. Qed.

(** C65. parse_ast with any table: the cursor never exceeds the number of tokens, mismatches are reported at tokens. *)
Theorem C65_parse voc tab toks fuel c A r c' mm : c <= length toks -> parse_ast voc tab toks fuel c A = Ret (r, c', mm) ->
  c <= c' <= length toks /\ Forall (fun m => fst m < length toks) mm.
Proof. exact (c65_parse voc tab toks fuel c A r c' mm). Qed.
Print Assumptions C65_parse.

Example C65_parse_example : exists r mm, parse_ast vocabulary_new {[ (0, 1) := Production 0 [T 5] ]} [stop_token lexer_init] 1 0 0 = Ret (r, 1, mm) /\ mm = [(0, 5)].
Proof. eexists _, _. split; reflexivity. Qed.
