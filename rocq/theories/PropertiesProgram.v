(** PropertiesProgram.v -- C88: the whole effect of main, also when it panics: its standard output, how it ends, the disk.
    Statement vocabulary: SpecProgram.v, SpecOutput.v, SpecFiles.v, SpecShipped.v. *)
From Verif Require Import ProgramMain.

(** C88: what loading prints before it panics.  A grammar with a string literal outside of groups panics in silence; otherwise
    each repeated token is reported first, then alternatives; loading panics iff a rule or token is used that is not defined. *)
Theorem C88_load G r : grammar_tree G r -> proper G ->
  (plain_literal G -> print_load_tree r = ([], Panic)) /\
  (~ plain_literal G -> exists rest, fst (print_load_tree r) = map says_token (repeats [lit "_START"; lit "_STOP"] (lexer_rule_names G)) ++ rest /\ Forall about_alternatives rest) /\
  (snd (print_load_tree r) = Panic <-> ~ references_defined G) /\ snd (print_load_tree r) <> OutOfFuel.
Proof. exact (c88_load G r). Qed.
Print Assumptions C88_load.

Example C88_load_example : grammar_tree ex_broken (build_grammar ex_broken) /\ proper ex_broken /\ ~ plain_literal ex_broken /\
  print_load_tree (build_grammar ex_broken) = ([says_token (lit "A"); says_alternative], Panic).
Proof. exact ex_broken_meets. Qed.

(** C88: the loader with its lines does what the loader of Visitors.v does, for every tree. *)
Theorem C88_load_same r : snd (print_load_tree r) = load_tree r.
Proof. exact (load_same r). Qed.
Print Assumptions C88_load_same.

(** C88: the run with its lines ends and writes as the run of Files.v does, for every disk and every system. *)
Theorem C88_files nd huge order fuel o d s :
  let '(_, e, d') := main_effect nd huge order fuel o d s in main_files nd huge order fuel o d s = (e, d').
Proof. exact (c88_files nd huge order fuel o d s). Qed.
Print Assumptions C88_files.

(** C88: where main ends normally its output is the one of C82, for the document on the disk. *)
Theorem C88_stdout nd huge order fuel o d s out d' : main_effect nd huge order fuel o d s = (out, Ret (), d') ->
  exists bs t j, d !! lit "src/tool/syntaxis/syntaxis2.json" = Some bs /\ text_bytes t bs /\ document huge 127 j t /\ main_stdout nd order fuel j s = Ret out.
Proof. exact (c88_stdout nd huge order fuel o d s out d'). Qed.
Print Assumptions C88_stdout.

(** C88: main with the committed grammar file.  Whatever the iteration order, it prints the text the lexer could not read (at
    most one) and one line for each mismatch.  Then it panics and the disk is as before, or it writes the page of a tree to
    parser2.html and nothing else.  For a text that writes a grammar it prints nothing and the page is that of the tree of this
    grammar; a run to the end without a mismatch is a run on such a text. *)
Theorem C88_main nd huge g x o d bs s c :
  digits_ok nd -> load_ast syntaxis2_json = Ret (g, x) -> healthy o -> text_bytes syntaxis2_text bs -> d !! lit "src/tool/syntaxis/syntaxis2.json" = Some bs ->
  Forall scalar s -> v1_lexer nd s = Ret c ->
  exists n toks rest k e d', let out := unlines (option_list rest ++ replicate k says_mismatch) in
    (forall order fuel, iteration_order g order -> n <= fuel ->
       scan_all c 15 0 fuel lexer_init = Ret (toks, rest) /\ main_effect nd huge order fuel o d s = (out, e, d')) /\
    (e = Panic /\ d' = d \/ e = Ret () /\ exists r b, text_bytes (page (lit "parser") r) b /\ d' = <[lit "parser2.html" := b]> d) /\
    (forall G ts, grammar_tokens G ts -> written ts s ->
       rest = None /\ k = 0 /\ e = Ret () /\ exists r b, grammar_tree G (retype_rule hand_type r) /\ text_bytes (page (lit "parser") r) b /\ d' = <[lit "parser2.html" := b]> d) /\
    (e = Ret () -> k = 0 -> exists G ts, grammar_tokens G ts /\ written ts s).
Proof. exact (c88_main nd huge g x o d bs s c). Qed.
Print Assumptions C88_main.

Example C88_main_example bs d : text_bytes syntaxis2_text bs -> d !! lit "src/tool/syntaxis/syntaxis2.json" = Some bs ->
  main_effect ascii_digit (fun _ => false) shipped_order 3000 (Os true true true Some) d (lit "ab cd ; AB : /x/ ;") = (unlines [says_mismatch], Panic, d).
Proof. exact (ex_effect bs d). Qed.
