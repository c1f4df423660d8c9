(** SpecRecorded.v -- how the comments of the tests write productions and sets of tokens. *)
From Verif Require Export SpecFormat.

(** A symbol: a token by its name; a rule by its name, or its number if it has none. *)
Inductive spelled (v : vocabulary) : item -> str -> Prop :=
| spelled_rule id n : printed_nonterminal v id n -> spelled v (NT id) n
| spelled_token id n : get_terminal_name_by_id v id = Some n -> spelled v (T id) n.
(** A production: the symbols of its right-hand side, each behind a blank. *)
Inductive recorded_production (v : vocabulary) (p : production) : str -> Prop :=
| recorded_line n ss : printed_nonterminal v (left p) n -> Forall2 (spelled v) (right p) ss ->
    recorded_production v p (n ++ lit " ->" ++ concat (map (fun s => lit " " ++ s) ss) ++ lit ";").
(** A set of tokens: the names of its members, each once, in some order. *)
Definition recorded_set (v : vocabulary) (s : gset nat) (names : list str) : Prop :=
  exists ids, ids ≡ₚ elements s /\ Forall2 (fun id n => get_terminal_name_by_id v id = Some n) ids names.
(** A map from rules to FIRST sets, and one from rules to FOLLOW sets: one entry for each rule, in some order. *)
Definition recorded_firsts (v : vocabulary) (m : gmap nat coll) (l : list (str * list str * bool)) : Prop :=
  exists entries, entries ≡ₚ map_to_list m /\
    Forall2 (fun (e : nat * coll) (r : str * list str * bool) =>
      printed_nonterminal v (fst e) (fst (fst r)) /\ recorded_set v (cset (snd e)) (snd (fst r)) /\ allow_epsilon (snd e) = snd r) entries l.
Definition recorded_follows (v : vocabulary) (m : gmap nat (gset nat)) (l : list (str * list str)) : Prop :=
  exists entries, entries ≡ₚ map_to_list m /\
    Forall2 (fun (e : nat * gset nat) (r : str * list str) =>
      printed_nonterminal v (fst e) (fst r) /\ recorded_set v (snd e) (snd r)) entries l.
