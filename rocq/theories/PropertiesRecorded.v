(** PropertiesRecorded.v -- C29 sharpened; C69: the outputs recorded in the tests.
    The vocabulary of the statements is in SpecGrammar.v, SpecFormat.v and SpecRecorded.v; the recorded outputs are in
    Recorded.v and the grammar file they come from is in RecordedJson.v, both generated by tools/mkrecorded.py. *)
From Verif Require Import ConflictProofs RecordedProofs.

(** C29, exactly: a production is reported against another iff it comes later in the iteration, with no competitor for the
    same token in between; and against itself iff it can be empty and one of its first tokens can also follow it. *)
Theorem C29_reports_exactly g order fuel tab w p q :
  iteration_order g order -> closed (nonterminals (g_vocabulary g)) (productions g) ->
  build_table fuel order g = Ret (tab, w) ->
  ((p, q) ∈ w <->
    (exists o1 o2 o3 t, order = o1 ++ q :: o2 ++ p :: o3 /\ left p = left q /\
       predicts (productions g) p t /\ predicts (productions g) q t /\
       forall r, r ∈ o2 -> left r = left p -> ~ predicts (productions g) r t) \/
    (p = q /\ p ∈ productions g /\
     exists t, starts (productions g) (right p) t /\ nullable (productions g) (right p) /\ follows (productions g) (left p) t)).
Proof. exact (c29_reports g order fuel tab w p q). Qed.
Print Assumptions C29_reports_exactly.

Example C29_reports_example : exists tab p q w,
  build_table 10 [Production 0 [T 2]; Production 0 [T 2; T 3]] g30 = Ret (tab, (p, q) :: w) /\ p <> q.
Proof. exact g30_warns. Qed.

(** C29: the number of reports does not depend on the iteration order. *)
Theorem C29_same_number g order1 order2 fuel1 fuel2 tab1 tab2 w1 w2 :
  iteration_order g order1 -> iteration_order g order2 -> closed (nonterminals (g_vocabulary g)) (productions g) ->
  build_table fuel1 order1 g = Ret (tab1, w1) -> build_table fuel2 order2 g = Ret (tab2, w2) -> length w1 = length w2.
Proof. exact (c29_same_number g order1 order2 fuel1 fuel2 tab1 tab2 w1 w2). Qed.
Print Assumptions C29_same_number.

(** C69: the productions of syntaxis.json are the recorded ones, numbers of the generated rules included. *)
Theorem C69_productions g d : load_ast syntaxis_json = Ret (g, d) ->
  exists ps, ps ≡ₚ elements (productions g) /\ Forall2 (recorded_production (g_vocabulary g)) ps recorded_productions.
Proof. exact (c69_productions g d). Qed.
Print Assumptions C69_productions.

Example C69_example : exists g d, load_ast syntaxis_json = Ret (g, d) /\ iteration_order g (elements (productions g)).
Proof. exact ex_old. Qed.

(** C69: in every iteration order, the FIRST and FOLLOW sets of syntaxis.json are the recorded ones. *)
Theorem C69_sets g d : load_ast syntaxis_json = Ret (g, d) ->
  exists n, forall order1 order2 fuel1 fuel2, iteration_order g order1 -> iteration_order g order2 -> n <= fuel1 -> n <= fuel2 ->
    exists first cache follow, first_set fuel1 order1 g = Ret (first, cache) /\ follow_set fuel2 order2 g first = Ret follow /\
      recorded_firsts (g_vocabulary g) first recorded_first /\ recorded_follows (g_vocabulary g) follow recorded_follow.
Proof. exact (c69_sets g d). Qed.
Print Assumptions C69_sets.

Example C69_sets_example : exists g d, load_ast syntaxis_json = Ret (g, d) /\ iteration_order g (elements (productions g)).
Proof. exact ex_old. Qed.

(** C69: in every iteration order ll1_table prints four conflicts for syntaxis.json, all between the two productions of the
    generated rule 13. *)
Theorem C69_conflicts g d order fuel tab w : load_ast syntaxis_json = Ret (g, d) -> iteration_order g order ->
  build_table fuel order g = Ret (tab, w) ->
  length w = 4 /\ forall p q, (p, q) ∈ w ->
    (recorded_production (g_vocabulary g) p (lit "13 -> element;") /\ recorded_production (g_vocabulary g) q (lit "13 -> element 13;")) \/
    (recorded_production (g_vocabulary g) p (lit "13 -> element 13;") /\ recorded_production (g_vocabulary g) q (lit "13 -> element;")).
Proof. exact (c69_conflicts g d order fuel tab w). Qed.
Print Assumptions C69_conflicts.

Example C69_conflicts_example : exists g d, load_ast syntaxis_json = Ret (g, d) /\ iteration_order g (elements (productions g)).
Proof. exact ex_old. Qed.

(** C69: the value is what serde_json reads from the file. *)
Theorem C69_text huge : json_from_str huge syntaxis_text = JOk syntaxis_json.
Proof. exact (c69_text huge). Qed.
Print Assumptions C69_text.
