(** PropertiesReport.v -- C81 for every grammar that loads, collisions or not.
    Statement vocabulary: SpecReport.v, SpecOutput.v, SpecRewrite.v. *)
From Verif Require Import ReportProofs.

(** C81: the whole report, line by line: alternatives are the same where the same symbols stand for their elements (those of C83). *)
Theorem C81_report_all G r g data lines : grammar_tree G r -> proper G -> out_load_tree r = Ret (g, data, lines) ->
  exists f, stands_for G (g_vocabulary g) f /\ one_each_number G f /\
    (forall p, p ∈ productions g <-> rewritten G (g_vocabulary g) f (first_operand (number f) G) p) /\
    lines = report_by (items f) G.
Proof. exact (c81_report_all G r g data lines). Qed.
Print Assumptions C81_report_all.

(** Told apart by what is written, this is the report of C81_report_partial. *)
Theorem C81_report_plain G : report_by plain_alternative G = report G.
Proof. exact (c81_report_plain G). Qed.
Print Assumptions C81_report_plain.

(** C81: nothing is printed iff there are no duplicates in this sense. *)
Theorem C81_silent_all G r g data lines : grammar_tree G r -> proper G -> out_load_tree r = Ret (g, data, lines) ->
  exists f, stands_for G (g_vocabulary g) f /\ one_each_number G f /\
    (forall p, p ∈ productions g <-> rewritten G (g_vocabulary g) f (first_operand (number f) G) p) /\
    (lines = [] <-> no_duplicates_by (items f) G).
Proof. exact (c81_silent_all G r g data lines). Qed.
Print Assumptions C81_silent_all.

(** With a: X* | c* and clashing numbers. *)
Example C81_example_all : grammar_tree ex_spurious (build_grammar ex_spurious) /\ proper ex_spurious /\
  exists g data, out_load_tree (build_grammar ex_spurious) = Ret (g, data, [says_alternative]).
Proof. exact ex_spurious_meets. Qed.
