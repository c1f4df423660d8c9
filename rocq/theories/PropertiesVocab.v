(** PropertiesVocab.v -- C01-C04: the vocabulary. Histories are lists of calls [vop] run on a new
    vocabulary by [vrun]. *)
From Verif Require Import VocabProofs.

(** C01: names and ids are in bijection after every history. *)
Theorem C01_names_ids_bijection ops :
  let v := vrun vocabulary_new ops in
  (forall n i, get_terminal_id_by_name v n = Some i <-> get_terminal_name_by_id v i = Some n) /\
  (forall n i, get_nonterminal_id_by_name v n = Some i <-> get_nonterminal_name_by_id v i = Some n).
Proof. exact (c01 ops). Qed.
Print Assumptions C01_names_ids_bijection.

Example C01_example : get_nonterminal_id_by_name
  (vrun vocabulary_new [AddNamed 3 (lit "rule"); AddNamed 4 (lit "rule"); AddNamed 3 (lit "other"); AddUnnamed 3])
  (lit "rule") = Some 3.
Proof. by vm_compute. Qed.

(** C02: add_terminal, on any vocabulary. *)
Theorem C02_add_terminal_exact v id name v' b :
  add_terminal v id name = (v', b) ->
  (b = true <-> get_terminal_id_by_name v name = None /\ is_terminal_id v id = false) /\
  (b = false -> v' = v) /\
  (b = true ->
     nonterminals_same v v' /\
     (forall n, get_terminal_id_by_name v' n =
        if decide (n = name) then Some id else get_terminal_id_by_name v n) /\
     (forall i, get_terminal_name_by_id v' i =
        if decide (i = id) then Some name else get_terminal_name_by_id v i) /\
     (forall i, is_terminal_id v' i = bool_decide (i = id) || is_terminal_id v i)).
Proof. exact (c02_terminal v id name v' b). Qed.
Print Assumptions C02_add_terminal_exact.

Example C02_example : snd (add_terminal vocabulary_new 2 (lit "A")) = true /\
  snd (add_terminal vocabulary_new 2 (lit "_STOP")) = false /\ snd (add_terminal vocabulary_new 1 (lit "A")) = false.
Proof. by vm_compute. Qed.

(** C02: add_named_nonterminal, on any vocabulary. *)
Theorem C02_add_named_nonterminal_exact v id name v' b :
  add_named_nonterminal v id name = (v', b) ->
  (b = true <-> get_nonterminal_id_by_name v name = None /\ is_nonterminal_id v id = false) /\
  (b = false -> v' = v) /\
  (b = true ->
     terminals_same v v' /\
     (forall n, get_nonterminal_id_by_name v' n =
        if decide (n = name) then Some id else get_nonterminal_id_by_name v n) /\
     (forall i, get_nonterminal_name_by_id v' i =
        if decide (i = id) then Some name else get_nonterminal_name_by_id v i) /\
     (forall i, is_nonterminal_id v' i = bool_decide (i = id) || is_nonterminal_id v i)).
Proof. exact (c02_named v id name v' b). Qed.
Print Assumptions C02_add_named_nonterminal_exact.

(** C02: add_unnamed_nonterminal, on any reachable vocabulary. *)
Theorem C02_add_unnamed_nonterminal_exact ops id v' b :
  let v := vrun vocabulary_new ops in
  add_unnamed_nonterminal v id = (v', b) ->
  (b = true <-> is_nonterminal_id v id = false) /\
  (b = false -> v' = v) /\
  (b = true ->
     terminals_same v v' /\
     (forall n, get_nonterminal_id_by_name v' n = get_nonterminal_id_by_name v n) /\
     (forall i, get_nonterminal_name_by_id v' i = get_nonterminal_name_by_id v i) /\
     get_nonterminal_name_by_id v' id = None /\
     (forall i, is_nonterminal_id v' i = bool_decide (i = id) || is_nonterminal_id v i)).
Proof. exact (c02_unnamed ops id v' b). Qed.
Print Assumptions C02_add_unnamed_nonterminal_exact.

(** C02: whatever is called later, a binding (and the absence of a name for an unnamed nonterminal) stays. *)
Theorem C02_bindings_permanent ops more :
  let v := vrun vocabulary_new ops in
  let v' := vrun vocabulary_new (ops ++ more) in
  (forall n i, get_terminal_id_by_name v n = Some i -> get_terminal_id_by_name v' n = Some i) /\
  (forall n i, get_nonterminal_id_by_name v n = Some i -> get_nonterminal_id_by_name v' n = Some i) /\
  (forall i, is_terminal_id v i = true -> is_terminal_id v' i = true) /\
  (forall i, is_nonterminal_id v i = true ->
     is_nonterminal_id v' i = true /\ get_nonterminal_name_by_id v' i = get_nonterminal_name_by_id v i).
Proof. exact (c02_permanent ops more). Qed.
Print Assumptions C02_bindings_permanent.

(** C03: _START and _STOP, after every history -- also one that tries to redefine them. *)
Theorem C03_start_stop ops :
  let v := vrun vocabulary_new ops in
  get_terminal_name_by_id v 0 = Some (lit "_START") /\ get_terminal_id_by_name v (lit "_START") = Some 0 /\
  get_terminal_name_by_id v 1 = Some (lit "_STOP") /\ get_terminal_id_by_name v (lit "_STOP") = Some 1.
Proof. exact (c03 ops). Qed.
Print Assumptions C03_start_stop.

Example C03_example : get_terminal_id_by_name
  (vrun vocabulary_new [AddTerminal 0 (lit "X"); AddTerminal 7 (lit "_STOP"); AddTerminal 1 (lit "_STOP")]) (lit "_STOP") = Some 1.
Proof. by vm_compute. Qed.

(** C04: members are exactly the ids successfully inserted (0 and 1 by [new]). *)
Theorem C04_membership ops :
  let v := vrun vocabulary_new ops in
  (forall i, is_terminal_id v i = true <-> i <= 1 \/ exists n, succeeded ops (AddTerminal i n)) /\
  (forall i, is_nonterminal_id v i = true <->
     (exists n, succeeded ops (AddNamed i n)) \/ succeeded ops (AddUnnamed i)) /\
  (forall i n, get_nonterminal_name_by_id v i = Some n <-> succeeded ops (AddNamed i n)).
Proof. exact (c04_members ops). Qed.
Print Assumptions C04_membership.

Example C04_example : succeeded [AddNamed 0 (lit "a"); AddUnnamed 0; AddUnnamed 1] (AddUnnamed 1).
Proof. by exists [AddNamed 0 (lit "a"); AddUnnamed 0], []. Qed.

(** C04: the queries by name and the sets returned. *)
Theorem C04_queries ops :
  let v := vrun vocabulary_new ops in
  (forall n, is_terminal_name_defined v n = true <-> n = lit "_START" \/ n = lit "_STOP" \/ exists i, succeeded ops (AddTerminal i n)) /\
  (forall n, is_nonterminal_name_defined v n = true <-> exists i, succeeded ops (AddNamed i n)) /\
  (forall i, i ∈ get_all_terminals v <-> i <= 1 \/ exists n, succeeded ops (AddTerminal i n)) /\
  (forall i, i ∈ get_all_nonterminals v <-> (exists n, succeeded ops (AddNamed i n)) \/ succeeded ops (AddUnnamed i)).
Proof. exact (c04_queries ops). Qed.
Print Assumptions C04_queries.

(** C04: names shown for ids. *)
Theorem C04_display_names ops i :
  let v := vrun vocabulary_new ops in
  (is_terminal_id v i = true -> exists n, get_terminal_name v i = Ret n /\ get_terminal_id_by_name v n = Some i) /\
  (is_terminal_id v i = false -> get_terminal_name v i = Panic) /\
  (forall n, succeeded ops (AddNamed i n) -> get_nonterminal_name_with_default v i = n) /\
  ((forall n, ~ succeeded ops (AddNamed i n)) -> get_nonterminal_name_with_default v i = usize_to_string i).
Proof. exact (c04_names ops i). Qed.
Print Assumptions C04_display_names.
