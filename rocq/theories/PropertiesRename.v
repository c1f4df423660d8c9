(** PropertiesRename.v -- C95: names are only names.  Model: Visitors.v, Chain.v, Crash.v.  Specification: SpecRename.v, SpecShapeOnly.v, SpecEbnf.v. *)
From Verif Require Import RenameChain.

(** C95: give other names to the rules and tokens of a grammar, different ones staying different.  Loading panics as before, or gives the same
    productions, the same numbers and the same regexes, with the new names in the vocabulary and in the lexer rules. *)
Theorem C95_load ρ G r r' : renaming ρ -> grammar_tree G r -> grammar_tree (map (rename_rule ρ) G) r' ->
  load_tree r' = rename_loaded ρ (load_tree r).
Proof. exact (c95_load ρ G r r'). Qed.
Print Assumptions C95_load.

(** The same for every tree, whether it is one of a grammar or not. *)
Theorem C95_load_tree ρ r : renaming ρ -> load_tree (map_ctx (rename_token ρ) r) = rename_loaded ρ (load_tree r).
Proof. exact (fun H => load_map ρ H r). Qed.
Print Assumptions C95_load_tree.

(** Through the tool chain, for every text: the same conflicts, the same text left over, the same lines about tokens, a panic at the same place,
    or the same tree with the new names at its nodes and tokens. *)
Theorem C95_chain compile ρ G r r' g data order fuel ws s :
  renaming ρ -> grammar_tree G r -> grammar_tree (map (rename_rule ρ) G) r' -> load_tree r = Ret (g, data) ->
  exists g' data', load_tree r' = Ret (g', data') /\ productions g' = productions g /\
  (forall n i, (n, i) ∈ generated_constants data -> (ρ n, i) ∈ generated_constants data') /\
  match chain_log compile order fuel g data ws s, chain_log compile order fuel g' data' ws s with
  | Ret (w, rest, (lines, o)), Ret (w', rest', (lines', o')) => w = w' /\ rest = rest' /\ lines = lines' /\
      match o, o' with
      | inl t, inl t' => ctx_alike (renamed_node ρ (g_vocabulary g)) (fun t t' => t' = respelled ρ t) t t'
      | inr e, inr e' => e = e'
      | _, _ => False
      end
  | Panic, Panic => True
  | OutOfFuel, OutOfFuel => True
  | _, _ => False
  end.
Proof. exact (c95_chain compile ρ G r r' g data order fuel ws s). Qed.
Print Assumptions C95_chain.

(** That _START and _STOP keep their names is needed: a token called _STOP is not loaded. *)
Theorem C95_builtin_names : exists ρ G r r',
  Inj (=) (=) ρ /\ grammar_tree G r /\ grammar_tree (map (rename_rule ρ) G) r' /\ load_tree r' <> rename_loaded ρ (load_tree r).
Proof. exact c95_builtin. Qed.
Print Assumptions C95_builtin_names.

Example C95_example : renaming ex_ρ /\ grammar_tree ex_sum ex_sum_tree /\ grammar_tree (map (rename_rule ex_ρ) ex_sum) (build_grammar (map (rename_rule ex_ρ) ex_sum)) /\
  load_tree ex_sum_tree = Ret (ex_sum_g, rules_of ex_sum_tree) /\
  head (map (rename_rule ex_ρ) ex_sum) = Some (ParserRule (lit "total") [Sequence [ref "Plus"; Element (Group [Sequence [ref "Num"; ref "Plus"]]) (Some (Star, false))]]).
Proof. exact ex_c95. Qed.
