(** PropertiesSource.v -- C70: what the reported conflicts say about the grammar as it is written.
    The vocabulary of the statements is in SpecEbnf.v and SpecSource.v. *)
From Verif Require Import SourceProofs SpellProofs.

(** C70: the productions made from a grammar are LL(1) iff one token of lookahead settles every choice in the grammar as
    written, between alternatives and about going on in x* and x?, and the operand of each x+ can begin with no token. *)
Theorem C70_source_ll1 G r g data :
  grammar_tree G r -> proper G -> load_tree r = Ret (g, data) -> no_collision (g_vocabulary g) G ->
  ll1 (productions g) <-> source_ll1 G /\ plus_void G.
Proof. exact (c70 G r g data). Qed.
Print Assumptions C70_source_ll1.

Example C70_source_example : grammar_tree ex_list ex_list_tree /\ proper ex_list /\ load_tree ex_list_tree = Ret (ex_list_g, rules_of ex_list_tree) /\
  no_collision (g_vocabulary ex_list_g) ex_list /\ source_ll1 ex_list /\ plus_void ex_list.
Proof.
  split; [exact ex_list_grammar_tree|]. split; [exact ex_list_proper|]. split; [exact ex_list_loaded|].
  split; [exact ex_list_no_collision|exact ex_list_source].
Qed.

(** s: A+;  is LL(1) in the sense of the textbook, not for the tool. *)
Example C70_plus_example : source_ll1 g31_plus /\ plus_ll1 g31_plus /\ ~ plus_void g31_plus.
Proof. exact g31_textbook. Qed.

(** C70: so that is when ll1_table reports nothing, whatever the iteration order. *)
Theorem C70_reports G r g data fuel order tab w :
  grammar_tree G r -> proper G -> load_tree r = Ret (g, data) -> no_collision (g_vocabulary g) G ->
  iteration_order g order -> build_table fuel order g = Ret (tab, w) ->
  w = [] <-> source_ll1 G /\ plus_void G.
Proof. exact (c70_reports G r g data fuel order tab w). Qed.
Print Assumptions C70_reports.

Example C70_reports_example : iteration_order ex_list_g ex_list_order /\ build_table 1000 ex_list_order ex_list_g = Ret (ex_list_tab, []).
Proof. split; [exact (proj1 (proj2 (proj2 (proj2 (proj2 ex_list_all)))))|exact ex_list_table]. Qed.

(** C70: no report means LL(1) in the sense of the textbook, x+ included. *)
Theorem C70_no_reports_sound G r g data fuel order tab :
  grammar_tree G r -> proper G -> load_tree r = Ret (g, data) -> no_collision (g_vocabulary g) G ->
  iteration_order g order -> build_table fuel order g = Ret (tab, []) ->
  source_ll1 G /\ plus_ll1 G.
Proof. exact (c70_sound G r g data fuel order tab). Qed.
Print Assumptions C70_no_reports_sound.

(** C70: conversely, a grammar that is LL(1) in the sense of the textbook gets no report once each x+ in it is written
    (x x* ), and then it matches the same. *)
Theorem C70_plus_spelt_out G r g data fuel order tab w :
  grammar_tree (spell_plus G) r -> proper (spell_plus G) -> load_tree r = Ret (g, data) -> no_collision (g_vocabulary g) (spell_plus G) ->
  iteration_order g order -> build_table fuel order g = Ret (tab, w) ->
  source_ll1 G -> plus_ll1 G ->
  w = [] /\ forall name ts, matches_atom G (RuleRef name) ts <-> matches_atom (spell_plus G) (RuleRef name) ts.
Proof. exact (c70_spelt G r g data fuel order tab w). Qed.
Print Assumptions C70_plus_spelt_out.

Example C70_spelt_example : grammar_tree (spell_plus g31_plus) g31_spelt /\ proper (spell_plus g31_plus) /\
  load_tree g31_spelt = Ret (grammar_of g31_spelt, rules_of g31_spelt) /\
  no_collision (g_vocabulary (grammar_of g31_spelt)) (spell_plus g31_plus) /\
  exists tab, build_table 1000 (elements (productions (grammar_of g31_spelt))) (grammar_of g31_spelt) = Ret (tab, []).
Proof. exact g31_spelt_ok. Qed.

(** C70: what "can begin" means where everything in the grammar matches something. *)
Theorem C70_begins G name n : productive G -> begins_atom G (RuleRef name) n <-> exists ts, matches_atom G (RuleRef name) (n :: ts).
Proof. exact (c70_begins G name n). Qed.
Print Assumptions C70_begins.

Example C70_begins_example : productive ex_list.
Proof. exact ex_list_productive. Qed.
