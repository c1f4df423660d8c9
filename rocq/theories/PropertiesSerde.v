(** PropertiesSerde.v -- C19-C20: syntax trees read from JSON values. Statement vocabulary: SpecSerde.v. *)
From Verif Require Import SerdeProofs.

(** C19: reading the JSON description of any tree gives the tree with positions forgotten (error leaves read
    as ordinary leaves: the format does not distinguish them). *)
Theorem C19_roundtrip r : from_value (tree_json r) = Ret (Some (forget r)).
Proof. exact (c19_roundtrip r). Qed.
Print Assumptions C19_roundtrip.

Example C19_example : tree_json (RuleCtx (lit "a") [Terminal (token_new 2 (lit "X") (lit "x"))] 7) =
  JObject [(lit "rule_index", JU64 7); (lit "rule_name", JString (lit "a"));
    (lit "children", JArray [JObject [(lit "token_type", JU64 2); (lit "token_name", JString (lit "X")); (lit "text", JString (lit "x"))]])].
Proof. reflexivity. Qed.

(** C19: exactly the same tree if it has only ordinary leaves without positions. *)
Theorem C19_exact r : plain_tree (Rule r) -> from_value (tree_json r) = Ret (Some r).
Proof. exact (c19_exact r). Qed.
Print Assumptions C19_exact.

(** C20: accepted exactly when the value describes a tree, with that tree as the result. *)
Theorem C20_accepts data r : from_value data = Ret (Some r) <-> describes data r.
Proof. exact (c20_accepts data r). Qed.
Print Assumptions C20_accepts.

Example C20_example : from_value (JObject [(lit "children", JArray [JObject [(lit "token_name", JString (lit "X")); (lit "token_type", JU64 2)]]);
    (lit "extra", JBool true); (lit "rule_index", JU64 7); (lit "rule_name", JString (lit "a"))])
  = Ret (Some (RuleCtx (lit "a") [Terminal (token_new 2 (lit "X") (lit "<no text>"))] 7)).
Proof. vm_compute. reflexivity. Qed.

(** C20: Err exactly when the value describes no tree. *)
Theorem C20_rejects data : from_value data = Ret None <-> forall r, ~ describes data r.
Proof. exact (c20_rejects data). Qed.
Print Assumptions C20_rejects.

Example C20_example_rejected : from_value (JArray []) = Ret None /\
  from_value (JObject [(lit "children", JString []); (lit "rule_index", JU64 7); (lit "rule_name", JString (lit "a"))]) = Ret None.
Proof. split; vm_compute; reflexivity. Qed.

(** C20: no panic, no divergence. *)
Theorem C20_never_panics data : from_value data = Ret None \/ exists r, from_value data = Ret (Some r).
Proof. exact (c20_total data). Qed.
Print Assumptions C20_never_panics.

(** C20: the recursion budget of the model does not matter. *)
Theorem C20_fuel_irrelevant fuel data : jdepth data < fuel -> parse_rule fuel data = from_value data.
Proof. exact (c20_fuel fuel data). Qed.
Print Assumptions C20_fuel_irrelevant.
