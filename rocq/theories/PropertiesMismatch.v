(** PropertiesMismatch.v -- C67: what reported mismatches say; C27 and C36 sharpened.
    The vocabulary of the statements is in SpecGrammar.v and SpecMismatch.v. *)
From Verif Require Import MismatchProofs.

(** C67: the reports are in order, one per token, each about a token of another type than expected, and replacing the
    reported tokens by the expected ones makes the consumed tokens a sentence. Any table main can build. *)
Theorem C67_repaired g order fuel tab w0 v toks fuel' i A r j mm :
  iteration_order g order -> closed (nonterminals (g_vocabulary g)) (productions g) ->
  build_table fuel order g = Ret (tab, w0) ->
  parse_ast v tab toks fuel' i A = Ret (r, j, mm) ->
  genuine toks i j mm /\ exists w, repaired toks mm i j w /\ derives (productions g) [NT A] w.
Proof. exact (c67_mismatches g order fuel tab w0 v toks fuel' i A r j mm). Qed.
Print Assumptions C67_repaired.

Example C67_example : build_table 100 ex_order ex_g = Ret (ex_tab, []) /\
  exists r, parse ex_voc ex_tab (map tk [3; 5; 1; 1]) 20 = Ret (r, [(2, 4)]) /\ rule_leaves r = map tk [3; 5; 1].
Proof. exact ex_reported. Qed.

(** C67: up to the first report the input is the beginning of something the grammar derives, and the expected token can
    stand there. *)
Theorem C67_first_mismatch g order fuel tab w0 v toks fuel' r k u mm :
  iteration_order g order -> closed (nonterminals (g_vocabulary g)) (productions g) ->
  build_table fuel order g = Ret (tab, w0) ->
  parse v tab toks fuel' = Ret (r, (k, u) :: mm) ->
  exists tok γ, toks !! k = Some tok /\ token_type tok <> u /\ derives (productions g) [NT 0] (types (take k toks) ++ T u :: γ).
Proof. exact (c67_first g order fuel tab w0 v toks fuel' r k u mm). Qed.
Print Assumptions C67_first_mismatch.

Example C67_first_example : build_table 100 ex_order ex_g = Ret (ex_tab, []) /\
  exists r, parse ex_voc ex_tab (map tk [3; 5; 1; 1]) 20 = Ret (r, [(2, 4)]) /\ rule_leaves r = map tk [3; 5; 1].
Proof. exact ex_reported. Qed.

(** C67: with a conflict-free table a report means the input is not a sentence. *)
Theorem C67_no_false_alarm g order fuel tab v s t rest fuel' r mm :
  iteration_order g order -> closed (nonterminals (g_vocabulary g)) (productions g) ->
  build_table fuel order g = Ret (tab, []) -> token_type t = 1 ->
  parse v tab (s ++ t :: rest) fuel' = Ret (r, mm) -> mm <> [] -> ~ sentence (productions g) 0 s.
Proof. exact (c67_sentence g order fuel tab v s t rest fuel' r mm). Qed.
Print Assumptions C67_no_false_alarm.

(** C36, exactly: with a conflict-free table, the sentences are the inputs parsed without report into a tree that contains
    all tokens. *)
Theorem C36_accepts_iff g order fuel tab v s t :
  iteration_order g order -> closed (nonterminals (g_vocabulary g)) (productions g) ->
  build_table fuel order g = Ret (tab, []) -> token_type t = 1 ->
  (exists fuel' r, parse v tab (s ++ [t]) fuel' = Ret (r, []) /\ rule_leaves r = s) <-> sentence (productions g) 0 s.
Proof. exact (c36_accepts g order fuel tab v s t). Qed.
Print Assumptions C36_accepts_iff.

Example C36_accepts_example : build_table 100 ex_order ex_g = Ret (ex_tab, []) /\ sentence (productions ex_g) 0 ex_toks.
Proof. exact (conj ex_table ex_sentence). Qed.

(** C27, in general: FOLLOW contains the textbook one, and anything more comes from what rules that the start rule does not
    reach derive. *)
Theorem C27_superset g order1 order2 fuel1 fuel2 first cache follow :
  iteration_order g order1 -> iteration_order g order2 ->
  first_set fuel1 order1 g = Ret (first, cache) -> follow_set fuel2 order2 g first = Ret follow ->
  forall A s, follow !! A = Some s -> forall t,
    (textbook_follow (productions g) A t -> t ∈ s) /\
    (t ∈ s -> textbook_follow (productions g) A t \/
       exists X p, p ∈ productions g /\ left p = X /\ follows_in (productions g) X A t) /\
    (forall X, reachable (productions g) X -> follows_in (productions g) X A t -> textbook_follow (productions g) A t).
Proof. exact (c27_superset g order1 order2 fuel1 fuel2 first cache follow). Qed.
Print Assumptions C27_superset.
