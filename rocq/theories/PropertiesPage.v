(** PropertiesPage.v -- C49, C58, C59: the page main writes.
    Statement vocabulary: SpecPage.v, SpecHtml.v, SpecDrawer.v; parser2_html (Parser2Html.v) is the file committed in /repo. *)
From Verif Require Import PageProofs.

(** C58: for every text, whatever the iteration order of the hash sets, main ends the same way: with the same page, or
    with a panic. *)
Theorem C58_deterministic nd g d s : load_ast syntaxis2_json = Ret (g, d) ->
  exists n out, out <> OutOfFuel /\ forall order fuel, iteration_order g order -> n <= fuel ->
    main_page nd order fuel syntaxis2_json s = out.
Proof. exact (c58_deterministic nd g d s). Qed.
Print Assumptions C58_deterministic.

Example C58_example : load_ast syntaxis2_json = Ret (shipped, rules_of shipped_tree) /\ iteration_order shipped shipped_order.
Proof. exact (conj shipped_load shipped_order_ok). Qed.

(** C58: for main's own text this page is, character by character, the file parser2.html in the repository. *)
Theorem C58_committed_page nd g d : load_ast syntaxis2_json = Ret (g, d) ->
  exists n, forall order fuel, iteration_order g order -> n <= fuel ->
    main_page nd order fuel syntaxis2_json main_input = Ret parser2_html.
Proof. exact (c58_committed nd g d). Qed.
Print Assumptions C58_committed_page.

(** C49 full statement: for every tree the text of the page's script element is the drawing and the page's own program,
    [exists program, forall r, script_text InScript (script r ++ page_tail) = Some (script r ++ program)].  False: a token text
    can end the element early, and another one keeps it from being ended at all, so that it is not run. *)
Theorem C49_embedding_refuted : exists r r' a b, drawable_tree r /\ script r = a ++ b /\ b <> [] /\ script_text InScript (script r ++ page_tail) = Some a /\
  drawable_tree r' /\ script_text InScript (script r' ++ page_tail) = None.
Proof. exact (c49_refuted). Qed.
Print Assumptions C49_embedding_refuted.

(** C49, what is true: if no name and no text contains an end tag of the element or begins a comment. *)
Theorem C49_embedding_partial : exists program, forall r, (forall s, label s r -> ~ upsets s) ->
  script_text InScript (script r ++ page_tail) = Some (script r ++ program).
Proof. exact (c49_kept). Qed.
Print Assumptions C49_embedding_partial.

(** C49, exactly: the element's text is found by reading the names and texts one after the other.  If they end the element it
    is cut short; if they leave it behind "<!--" and "<script" it is never ended; otherwise it is what was drawn. *)
Theorem C49_embedding_exact : exists program, forall r,
  match labels_state InScript (labels r) with
  | None => exists a b, script r = a ++ b /\ b <> [] /\ script_text InScript (script r ++ page_tail) = Some a
  | Some (InDouble _) => script_text InScript (script r ++ page_tail) = None
  | Some _ => script_text InScript (script r ++ page_tail) = Some (script r ++ program)
  end.
Proof. exact (c49_exact). Qed.
Print Assumptions C49_embedding_exact.

Example C49_example : forall s, label s (RuleCtx (lit "a") [Terminal (token_new 2 (lit "X") (lit "</scripts><script>"))] 0) -> ~ upsets s.
Proof. exact ex_harmless. Qed.

(** C59 full statement: in every drawn page the title is the given name and the script defines the tree.  False: the name
    is inserted unescaped; it can end the title element and add a script, and "&lt;" is shown as a less-than sign. *)
Theorem C59_name_refuted : exists name text r, (forall s, label s r -> harmless s) /\ name <> text /\ title_content (page name r) = Some text /\
  (forall name', title_safe name' -> script_content (page name r) <> script_content (page name' r)) /\
  exists name2, title_safe name2 /\ forall decode, character_references decode -> decode <$> title_content (page name2 r) <> Some name2.
Proof. exact (c59_refuted). Qed.
Print Assumptions C59_name_refuted.

(** C59, what is true, exactly: the title's text is the name and the page's script is the definition of ast as the tree's
    object followed by a program that depends on neither, if and only if the name can stand in a title and the tree in the
    script element. *)
Theorem C59_page_iff_partial : exists program, forall name r,
  (title_content (page name r) = Some name /\
   exists text, script_content (page name r) = Some (10%N :: lit "    const ast = " ++ text) /\
     exists n, forall f, n <= f -> read_js f text = Some (tree_js r, lit ";" ++ program)) <->
  title_safe name /\ carried r.
Proof. exact (c59_iff). Qed.
Print Assumptions C59_page_iff_partial.

(** C59: harmless names and texts are enough. *)
Theorem C59_page_partial : exists program, forall name r, title_safe name -> (forall s, label s r -> harmless s) ->
  title_content (page name r) = Some name /\
  exists text, script_content (page name r) = Some (10%N :: lit "    const ast = " ++ text) /\
    exists n, forall f, n <= f -> read_js f text = Some (tree_js r, lit ";" ++ program).
Proof. exact (c59_page). Qed.
Print Assumptions C59_page_partial.

(** C59: without an ampersand the name is also what is shown. *)
Theorem C59_shown_partial decode name r : character_references decode -> title_safe name -> c_amp ∉ name ->
  decode <$> title_content (page name r) = Some name.
Proof. exact (c59_shown decode name r). Qed.
Print Assumptions C59_shown_partial.

(** C59 for main: the title is "parser", and the script defines the tree if and only if the tree can stand in it. *)
Theorem C59_main_iff_partial : exists program, forall nd order fuel s p r w rest mm,
  main_page nd order fuel syntaxis2_json s = Ret p -> main_run nd order fuel syntaxis2_json s = Ret (r, w, rest, mm) ->
  title_content p = Some (lit "parser") /\
  ((exists text, script_content p = Some (10%N :: lit "    const ast = " ++ text) /\
     exists n, forall f, n <= f -> read_js f text = Some (tree_js r, lit ";" ++ program)) <-> carried r).
Proof. exact (c59_main_iff). Qed.
Print Assumptions C59_main_iff_partial.

(** C59 for main: every harmless text, mismatches or not. *)
Theorem C59_main_partial : exists program, forall nd order fuel s p, harmless s ->
  main_page nd order fuel syntaxis2_json s = Ret p ->
  exists r w rest mm text, main_run nd order fuel syntaxis2_json s = Ret (r, w, rest, mm) /\
    script_content p = Some (10%N :: lit "    const ast = " ++ text) /\
    exists n, forall f, n <= f -> read_js f text = Some (tree_js r, lit ";" ++ program).
Proof. exact (c59_main). Qed.
Print Assumptions C59_main_partial.

(** C59 for main, from the grammar text to the drawn tree. *)
Theorem C59_written_partial : exists program, forall nd g d order G ts s,
  digits_ok nd -> load_ast syntaxis2_json = Ret (g, d) -> iteration_order g order ->
  grammar_tokens G ts -> written ts s -> harmless s ->
  exists r, grammar_tree G (retype_rule hand_type r) /\
    exists n, forall fuel, n <= fuel -> exists p text, main_page nd order fuel syntaxis2_json s = Ret p /\
      script_content p = Some (10%N :: lit "    const ast = " ++ text) /\ read_js fuel text = Some (tree_js r, lit ";" ++ program).
Proof. exact (c59_written). Qed.
Print Assumptions C59_written_partial.

Example C59_example : grammar_tokens ex_shipped_grammar ex_shipped_tokens /\ written ex_shipped_tokens ex_shipped_text /\
  harmless ex_shipped_text.
Proof. exact ex_page. Qed.
Example C59_example_name : title_safe (lit "parser") /\ exists decode, character_references decode.
Proof. exact (conj parser_safe ex_references). Qed.
