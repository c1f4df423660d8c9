(** Main.v -- model of src/main.rs: the whole program. *)
From Verif Require Export ShippedJson Visitors Parser LexerInst.

(** load_ast on a given file content -- main.rs:92-125 (from_reader(file).unwrap(), then the three visitors) *)
Definition load_ast (file : json) : res (grammar * list lexer_rule_data) :=
  let! o := from_value file in
  let! ast := unwrap o in
  load_tree ast.

(** main -- main.rs:32-88, for a given file and input; the tree is handed to ASTDrawer (Drawer.v), which is not run
    here.  [order] is the iteration order of grammar.productions (one HashSet instance throughout), [nd] the
    characters matched by \d.  Result: the tree, the conflicts printed by ll1_table, the rest printed by
    the lexer, the mismatches printed by the parser. *)
Definition main_run (nd : N -> bool) (order : list production) (fuel : nat) (file : json) (input : str)
    : res (rule_ctx * list (production * production) * option str * list mismatch) :=
  let! (g, _) := load_ast file in
  let! (tab, w) := build_table fuel order g in
  let! c := v1_lexer nd input in
  let! (toks, rest) := scan_all c 15 0 fuel lexer_init in
  let! (r, mm) := parse (g_vocabulary g) tab toks fuel in
  Ret (r, w, rest, mm).
