(** PropertiesChainNames.v -- C77: the names of the tokens of the lexer generated for any grammar. *)
From Verif Require Import ChainNames.

(** C77: the list of names of a generated lexer and its constants say the same, *)
Theorem C77_constants compile r g data s n t : load_tree r = Ret (g, data) ->
  (n, t) ∈ generated_constants data <-> token_names (generated_lexer compile data s) !! t = Some n.
Proof. exact (c77_constants compile r g data s n t). Qed.
Print Assumptions C77_constants.

(** and every token (also _STOP) carries the name of the constant of its type. *)
Theorem C77_every_grammar compile r g data s ts st t : engine_ok compile -> load_tree r = Ret (g, data) ->
  scanned (scan (generated_lexer compile data s)) lexer_init ts st -> t ∈ ts -> (token_name t, token_type t) ∈ generated_constants data.
Proof. exact (c77_every compile r g data s ts st t). Qed.
Print Assumptions C77_every_grammar.

Example C77_every_example : engine_ok (engine ascii_digit) /\ load_tree ex_sum_tree = Ret (ex_sum_g, rules_of ex_sum_tree) /\
  exists t st, scanned (scan (generated_lexer (engine ascii_digit) (rules_of ex_sum_tree) (lit "12"))) lexer_init [t] st /\
    token_name t = lit "Num" /\ token_type t = 2.
Proof. split; [exact (engine_is_ok _)|]. split; [exact ex_sum_loaded|exact ex_sum_scanned]. Qed.
