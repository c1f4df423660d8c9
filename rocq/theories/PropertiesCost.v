(** PropertiesCost.v -- C91: the work done by the parsers.  Model: Cost.v, Parser.v. *)
From Verif Require Import CostProofs.

(** The counting parser is the parser of Parser.v: forgetting the counters gives back its outcome, panics and lack of fuel included. *)
Theorem C91_same voc tab toks fuel i A : snd (count_ast voc tab toks fuel i A) = parse_ast voc tab toks fuel i A.
Proof. exact (count_same voc tab toks fuel i A). Qed.
Print Assumptions C91_same.

(** Full statement: for each grammar a constant K bounds both counters by K times the number of tokens plus one.  Proved: for the calls; the
    copied nodes are bounded by the square.  The constant depends on the grammar only, and the bounds hold for runs that panic too. *)
Theorem C91_work_partial g order fuel tab w :
  iteration_order g order -> closed (nonterminals (g_vocabulary g)) (productions g) ->
  build_table fuel order g = Ret (tab, w) -> w = [] \/ (forall B, ~ left_recursive (productions g) B) ->
  exists K, forall voc toks fuel i A, let '(calls, copies, _) := count_ast voc tab toks fuel i A in let n := length toks - i in
    calls <= K * (n + 1) /\ copies <= K * (n + 1) * (n + 1).
Proof. exact (c91_grammar g order fuel tab w). Qed.
Print Assumptions C91_work_partial.

(** The same for any table without a cycle of left corners -- the tables on which the parsers always end (C35). *)
Theorem C91_table_partial tab : (forall t A, ~ tc (table_corner tab t) A A) ->
  exists K, forall voc toks fuel i A, let '(calls, copies, _) := count_ast voc tab toks fuel i A in let n := length toks - i in
    calls <= K * (n + 1) /\ copies <= K * (n + 1) * (n + 1).
Proof. exact (c91_bound tab). Qed.
Print Assumptions C91_table_partial.

(** No linear bound for the copies: a grammar file that loads without conflict, and sentences of any length. *)
Theorem C91_linear_refuted : exists G g x order tab,
  load_tree (build_grammar G) = Ret (g, x) /\ iteration_order g order /\ build_table 100 order g = Ret (tab, []) /\
  forall K, exists toks, forall fuel, length toks < fuel ->
    exists calls copies r, count_ast (g_vocabulary g) tab toks fuel 0 0 = (calls, copies, Ret r) /\ K * length toks < copies.
Proof. exact c91_refuted. Qed.
Print Assumptions C91_linear_refuted.

(** The exact numbers for that grammar, s: A*; -- each of the n leaves is copied once for every one before it, and once for s. *)
Theorem C91_star n fuel : n + 1 < fuel ->
  exists copies r, count_ast (g_vocabulary star_g) star_tab (star_tokens n) fuel 0 0 = (n + 2, copies, Ret r) /\ 2 * copies = n * (n + 1).
Proof. exact (star_exact n fuel). Qed.
Print Assumptions C91_star.

(** Only repetitions, options and groups cost copies: where every nonterminal on a right-hand side has a name, nothing is copied. *)
Theorem C91_named voc tab toks :
  (forall k p B, tab !! k = Some p -> NT B ∈ right p -> get_nonterminal_name_by_id voc B <> None) ->
  forall fuel i A, snd (fst (count_ast voc tab toks fuel i A)) = 0.
Proof. exact (c91_named voc tab toks). Qed.
Print Assumptions C91_named.

Example C91_example : (forall k p B, ex_tab !! k = Some p -> NT B ∈ right p -> get_nonterminal_name_by_id named_voc B <> None) /\
  fst (count_ast named_voc ex_tab (ex_toks ++ [GrammarMain.tk 1]) 33 0 0) = (10, 0) /\
  fst (count_ast ex_voc ex_tab (ex_toks ++ [GrammarMain.tk 1]) 33 0 0) = (10, 13).
Proof. split; [exact ex_named|by vm_compute]. Qed.
Example C91_star_example : build_table 100 (elements (productions star_g)) star_g = Ret (star_tab, []) /\
  fst (count_ast (g_vocabulary star_g) star_tab (star_tokens 10) 100 0 0) = (12, 55).
Proof. split; [exact star_build|by vm_compute]. Qed.
