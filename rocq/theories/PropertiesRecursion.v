(** PropertiesRecursion.v -- C30 and C35 sharpened, C66: order independence, left recursion, recursion depth.
    The vocabulary of the statements is in SpecGrammar.v and SpecRecursion.v. *)
From Verif Require Import RecursionProofs.

(** C30, exactly: the table is the same for all iteration orders iff the grammar is LL(1). *)
Theorem C30_order_independent_iff g : closed (nonterminals (g_vocabulary g)) (productions g) -> 0 ∈ nonterminals (g_vocabulary g) ->
  ((forall order1 order2 fuel1 fuel2 tab1 tab2 w1 w2, iteration_order g order1 -> iteration_order g order2 ->
      build_table fuel1 order1 g = Ret (tab1, w1) -> build_table fuel2 order2 g = Ret (tab2, w2) -> tab1 = tab2)
   <-> ll1 (productions g)).
Proof. exact (c30_iff g). Qed.
Print Assumptions C30_order_independent_iff.

Example C30_iff_example : (closed (nonterminals (g_vocabulary ex_g)) (productions ex_g) /\ 0 ∈ nonterminals (g_vocabulary ex_g) /\ ll1 (productions ex_g)) /\
  ~ ll1 (productions g30).
Proof. exact (conj ex_g_ll1 (proj1 (proj2 g30_no_left_recursion))). Qed.

(** C35, exactly: a table makes the parser terminate on all token lists iff it has no left-recursive cycle at any
    lookahead. Any table, conflicting or not, whatever it was built from. *)
Theorem C35_terminates_iff tab :
  (forall v toks i A, exists n, parse_ast v tab toks n i A <> OutOfFuel) <-> (forall t A, ~ tc (table_corner tab t) A A).
Proof. exact (c35_exact tab). Qed.
Print Assumptions C35_terminates_iff.

Example C35_iff_example_cycle : tc (table_corner {[ (0, 3) := Production 0 [NT 1; NT 0]; (1, 3) := Production 1 [] ]} 3) 0 0.
Proof. exact ex_cycle. Qed.

Example C35_iff_example_acyclic : forall t A, ~ tc (table_corner ex_tab t) A A.
Proof. exact ex_acyclic. Qed.

(** C35: and then the parser diverges wherever the lookahead is the one of the cycle. *)
Theorem C35_cycle_diverges tab t A v toks i tok fuel : tc (table_corner tab t) A A -> toks !! i = Some tok -> token_type tok = t ->
  parse_ast v tab toks fuel i A = OutOfFuel.
Proof. exact (c35_diverges tab t A v toks i tok fuel). Qed.
Print Assumptions C35_cycle_diverges.

(** C35, what is true in terms of the grammar: without left recursion the parser terminates, whatever the conflicts and
    the iteration order. Full statement: the same without the hypothesis on left recursion, refuted in PropertiesGrammar.v. *)
Theorem C35_no_left_recursion_partial g order fuel tab w v toks i A :
  iteration_order g order -> closed (nonterminals (g_vocabulary g)) (productions g) ->
  build_table fuel order g = Ret (tab, w) -> (forall B, ~ left_recursive (productions g) B) ->
  exists n, forall fuel', n <= fuel' ->
    parse_ast v tab toks fuel' i A <> OutOfFuel /\
    parse_ast v tab toks fuel' i A = parse_ast v tab toks n i A.
Proof. exact (c35_no_left_recursion g order fuel tab w v toks i A). Qed.
Print Assumptions C35_no_left_recursion_partial.

Example C35_no_left_recursion_example : closed (nonterminals (g_vocabulary g30)) (productions g30) /\ ~ ll1 (productions g30) /\
  forall A, ~ left_recursive (productions g30) A.
Proof. exact g30_no_left_recursion. Qed.

(** C35: every directly left-recursive rule that can begin with t makes the parser diverge, for some iteration order, on
    every input that has t where the rule is tried. *)
Theorem C35_left_recursion_diverges g p β t : closed (nonterminals (g_vocabulary g)) (productions g) -> 0 ∈ nonterminals (g_vocabulary g) ->
  p ∈ productions g -> right p = NT (left p) :: β -> starts (productions g) [NT (left p)] t ->
  exists order, iteration_order g order /\ exists n, forall fuel, n <= fuel -> exists tab w, build_table fuel order g = Ret (tab, w) /\
    forall v toks i tok, toks !! i = Some tok -> token_type tok = t ->
      forall fuel', parse_ast v tab toks fuel' i (left p) = OutOfFuel.
Proof. exact (c35_left_recursion g p β t). Qed.
Print Assumptions C35_left_recursion_diverges.

Example C35_left_recursion_example : let p := Production 0 [NT 0; T 2] in
  closed (nonterminals (g_vocabulary g35)) (productions g35) /\ 0 ∈ nonterminals (g_vocabulary g35) /\
  p ∈ productions g35 /\ right p = NT (left p) :: [T 2] /\ starts (productions g35) [NT (left p)] 3 /\
  left_recursive (productions g35) 0.
Proof. exact g35_left_recursive. Qed.

(** C66: the recursion depth is at most linear in the number of tokens, and so is the depth of the tree. *)
Theorem C66_depth_linear g order fuel tab w v toks i A :
  iteration_order g order -> closed (nonterminals (g_vocabulary g)) (productions g) ->
  build_table fuel order g = Ret (tab, w) -> w = [] \/ (forall B, ~ left_recursive (productions g) B) ->
  forall depth, (length toks - i) * S (size (nonterminals (g_vocabulary g))) < depth ->
    parse_ast v tab toks depth i A <> OutOfFuel /\
    (forall depth' r j mm, parse_ast v tab toks depth' i A = Ret (r, j, mm) -> fits (S depth) (Rule r)).
Proof. exact (c66_depth g order fuel tab w v toks i A). Qed.
Print Assumptions C66_depth_linear.

Example C66_example : build_table 100 ex_order ex_g = Ret (ex_tab, []) /\ length (ex_toks ++ [tk 1]) = 8 /\ size (nonterminals (g_vocabulary ex_g)) = 3 /\
  parse_ast ex_voc ex_tab (ex_toks ++ [tk 1]) 3 0 0 = OutOfFuel /\
  match parse_ast ex_voc ex_tab (ex_toks ++ [tk 1]) 33 0 0 with Ret (r, 7, []) => True | _ => False end.
Proof. exact ex_depth. Qed.
