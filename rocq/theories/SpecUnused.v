(** SpecUnused.v -- more rules under new names. *)
From Verif Require Export SpecMore SpecChain Chain.

(** G' has more rules than G, but not under the names of G. *)
Definition new_rules (G G' : list rule) : Prop :=
  more_alternatives G G' /\ forall n alt, n ∈ parser_rule_names G -> offers G' n alt -> offers G n alt.

(** A text is accepted with a tree: no conflicts, nothing left over, no lines, whatever the fuel from some point on, and the tree has all visible tokens as leaves. *)
Definition accepted (compile : str -> matcher) (order : list production) (g : grammar) (data : list lexer_rule_data) (ws : nat) (s : str) (ts : list (str * str)) (t : rule_ctx) : Prop :=
  (exists n, forall fuel, n <= fuel -> chain_run compile order fuel g data ws s = Ret (t, [], None, [])) /\
  map (fun t => (token_name t, text t)) (rule_leaves t) = visible ts.
