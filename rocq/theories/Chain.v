(** Chain.v -- model of the program a user of the tool ends up with: main.rs:32-82 with their own grammar and the lexer generated for
    it (lexer.tera) in place of the committed one. *)
From Verif Require Export Generate Parser.

(** first_set, follow_set and ll1_table on the loaded grammar, scan_all_on_channel_tokens(0) of the generated lexer, parse -- main.rs:32-38,
    77-82; [ws] is the constant WHITE_SPACE of the generated lexer (lexer.tera:132).  Result as in Main.v. *)
Definition chain_run (compile : str -> matcher) (order : list production) (fuel : nat) (g : grammar) (data : list lexer_rule_data) (ws : nat) (input : str)
    : res (rule_ctx * list (production * production) * option str * list mismatch) :=
  let! (tab, w) := build_table fuel order g in
  let! (toks, rest) := scan_all (generated_lexer compile data input) ws 0 fuel lexer_init in
  let! (r, mm) := parse (g_vocabulary g) tab toks fuel in
  Ret (r, w, rest, mm).
