(** PropertiesDisplay.v -- C46: printed grammars. Statement vocabulary: SpecDisplay.v, SpecGrammar.v. *)
From Verif Require Import DisplayProofs.

(** C46 is false: nonterminals are printed without separator, so [s -> a b] and [s -> ab] print alike.
    Full statement: same vocabulary and same text imply the same productions. *)
Theorem C46_display_refuted :
  exists g1 g2 order1 order2 s, g_vocabulary g1 = g_vocabulary g2 /\ readable_names (g_vocabulary g1) /\
  iteration_order g1 order1 /\ iteration_order g2 order2 /\
  display_grammar order1 g1 = Ret s /\ display_grammar order2 g2 = Ret s /\ productions g1 <> productions g2.
Proof. exact (c46_refuted). Qed.
Print Assumptions C46_display_refuted.

(** C46, what is true: when names are words and nonterminals occur only first in a right-hand side, the text
    determines the productions, for every iteration order. *)
Theorem C46_display_partial ops g1 g2 order1 order2 s :
  g_vocabulary g1 = vrun vocabulary_new ops -> g_vocabulary g2 = vrun vocabulary_new ops ->
  readable_names (vrun vocabulary_new ops) ->
  (forall p, p ∈ productions g1 \/ p ∈ productions g2 -> nonterminal_only_first p) ->
  iteration_order g1 order1 -> iteration_order g2 order2 ->
  display_grammar order1 g1 = Ret s -> display_grammar order2 g2 = Ret s ->
  order1 = order2 /\ productions g1 = productions g2.
Proof. exact (c46_injective ops g1 g2 order1 order2 s). Qed.
Print Assumptions C46_display_partial.

Example C46_example : readable_names (vrun vocabulary_new v46_ops) /\
  (forall v, iteration_order (g46 v [NT 1; T 2; T 2]) [Production 0 [NT 1; T 2; T 2]]) /\
  nonterminal_only_first (Production 0 [NT 1; T 2; T 2]) /\
  display_grammar [Production 0 [NT 1; T 2; T 2]] (g46 (vrun vocabulary_new v46_ops) [NT 1; T 2; T 2]) = Ret (lit "s ->a NUM NUM;" ++ [10%N]).
Proof. exact ex46. Qed.

(** C46: printing panics exactly when a production uses an undefined terminal. *)
Theorem C46_display_panics_exactly order g :
  display_grammar order g <> OutOfFuel /\
  (display_grammar order g = Panic <->
   exists p t, p ∈ order /\ T t ∈ right p /\ get_terminal_name_by_id (g_vocabulary g) t = None).
Proof. exact (c46_panics order g). Qed.
Print Assumptions C46_display_panics_exactly.
