(** PropertiesFiles.v -- C79, C80: the files read and written.
    Statement vocabulary: SpecFiles.v, SpecUtf8.v, SpecJson.v, SpecSerde.v; syntaxis2_text (ShippedText.v), parser2_html
    (Parser2Html.v) and lexer_rs (LexerRs.v) are files of /repo. *)
From Verif Require Import FilesProofs.

(** C79 full statement: if draw returns, the file holds the page,
    [forall o d d' r name path bs, write_contract o -> text_bytes (page name r) bs -> draw o d r name path = (Ret (), d') -> d' !! path = Some bs].
    False: draw makes one call of write and drops its count, so that a short write goes unnoticed.  What is left need not
    even be a text. *)
Theorem C79_draw_refuted : exists o d r name path bs d' b, write_contract o /\ text_bytes (page name r) bs /\ draw o d r name path = (Ret (), d') /\
  d' !! path = Some b /\ forall s, ~ text_bytes s b.
Proof. exact (c79_refuted). Qed.
Print Assumptions C79_draw_refuted.

(** C79, what is true: if draw returns, the file holds as many of the page's bytes as the system took, which are all of them iff it
    took all; no other file is touched. *)
Theorem C79_draw_partial o d d' r name path bs : text_bytes (page name r) bs -> write_contract o -> draw o d r name path = (Ret (), d') ->
  only_changed path d d' /\ (exists k, os_write o (length bs) = Some k /\ d' !! path = Some (take k bs)) /\
  (d' !! path = Some bs <-> os_write o (length bs) = Some (length bs)).
Proof. exact (c79_whole o d d' r name path bs). Qed.
Print Assumptions C79_draw_partial.

(** C79, exactly: it returns iff the template is found, the file is created and the write succeeds.  A missing template or a file that cannot be
    created leaves all files alone; a failing write leaves the file empty, whatever it held. *)
Theorem C79_draw_exact o d r name path bs : text_bytes (page name r) bs ->
  draw o d r name path =
  if os_template o && os_create o then
    match os_write o (length bs) with Some k => (Ret (), <[path := take k bs]> d) | None => (Panic, <[path := []]> d) end
  else (Panic, d).
Proof. exact (c79_exact o d r name path bs). Qed.
Print Assumptions C79_draw_exact.

(** C79: the page has bytes whenever the name, and the names and texts in the tree, are texts. *)
Theorem C79_page_text name r : (exists bs, text_bytes (page name r) bs) <-> Forall scalar name /\ forall s, label s r -> Forall scalar s.
Proof. exact (c79_text name r). Qed.
Print Assumptions C79_page_text.

(** C79: main and parser_test, run on a disk with the grammar file of the repository, leave the same files behind whatever the iteration order of
    the hash sets. *)
Theorem C79_deterministic (nd : N -> bool) (huge : str -> bool) (o : os) (d : disk) (s file : str) (bs : list N) (g : grammar) (x : list lexer_rule_data) :
  load_ast syntaxis2_json = Ret (g, x) -> os_read o = true -> text_bytes syntaxis2_text bs ->
  d !! lit "src/tool/syntaxis/syntaxis2.json" = Some bs ->
  exists n out, fst out <> OutOfFuel /\ forall order fuel, iteration_order g order -> n <= fuel -> run_files nd huge order fuel o d s file = out.
Proof. exact (c79_deterministic nd huge o d s file bs g x). Qed.
Print Assumptions C79_deterministic.

(** C79: if nothing goes wrong main writes the bytes of the committed parser2.html into parser2.html, and nothing else. *)
Theorem C79_main (nd : N -> bool) (huge : str -> bool) (o : os) (d : disk) (bs page_bs : list N) (g : grammar) (x : list lexer_rule_data) :
  load_ast syntaxis2_json = Ret (g, x) -> healthy o -> text_bytes syntaxis2_text bs ->
  d !! lit "src/tool/syntaxis/syntaxis2.json" = Some bs -> text_bytes parser2_html page_bs ->
  exists n, forall order fuel, iteration_order g order -> n <= fuel ->
    main_files nd huge order fuel o d main_input = (Ret (), <[lit "parser2.html" := page_bs]> d).
Proof. exact (c79_run nd huge o d (lit "parser2.html") bs page_bs g x). Qed.
Print Assumptions C79_main.

(** C79: parser_test, with the generated lexer and the general parser, writes the same bytes into parser.html. *)
Theorem C79_parser_test (nd : N -> bool) (huge : str -> bool) (o : os) (d : disk) (bs page_bs : list N) (g : grammar) (x : list lexer_rule_data) :
  load_ast syntaxis2_json = Ret (g, x) -> healthy o -> text_bytes syntaxis2_text bs ->
  d !! lit "src/tool/syntaxis/syntaxis2.json" = Some bs -> text_bytes parser2_html page_bs ->
  exists n, forall order fuel, iteration_order g order -> n <= fuel ->
    parser_test_files nd huge order fuel o d = (Ret (), <[lit "parser.html" := page_bs]> d).
Proof. exact (c79_run nd huge o d (lit "parser.html") bs page_bs g x). Qed.
Print Assumptions C79_parser_test.

(** C79: gen_lexer writes the bytes of the committed lexer.rs. *)
Theorem C79_gen_lexer (huge : str -> bool) (o : os) (d : disk) (bs lexer_bs : list N) : healthy o -> text_bytes syntaxis2_text bs ->
  d !! lit "src/tool/syntaxis/syntaxis2.json" = Some bs -> text_bytes lexer_rs lexer_bs ->
  gen_lexer huge o d = (Ret (), <[lit "tests/lexer_generate/lexer.rs" := lexer_bs]> d).
Proof. exact (c79_gen_lexer huge o d bs lexer_bs). Qed.
Print Assumptions C79_gen_lexer.

(** C79: load_ast_and_draw writes the page of the tree in the grammar file. *)
Theorem C79_load_and_draw (huge : str -> bool) (o : os) (d : disk) (bs : list N) : healthy o -> text_bytes syntaxis2_text bs ->
  d !! lit "src/tool/syntaxis/syntaxis2.json" = Some bs ->
  exists r b, from_str huge syntaxis2_text = Ret (Some r) /\ text_bytes (page (lit "syntaxis") r) b /\
    load_ast_and_draw huge o d = (Ret (), <[lit "syntaxis.html" := b]> d).
Proof. exact (c79_load_draw huge o d bs). Qed.
Print Assumptions C79_load_and_draw.

(** C79: whatever happens, main and parser_test touch no other file than the one they write. *)
Theorem C79_untouched nd huge order fuel o d s file : only_changed file d (snd (run_files nd huge order fuel o d s file)).
Proof. exact (c79_untouched nd huge order fuel o d s file). Qed.
Print Assumptions C79_untouched.

(** C79: if the grammar file is missing, cannot be read or does not describe a tree, all four programs panic and leave all files alone. *)
Theorem C79_unreadable nd huge order fuel o d s file :
  (os_read o = false \/ forall bs t j r, d !! lit "src/tool/syntaxis/syntaxis2.json" = Some bs -> text_bytes t bs -> document huge 127 j t -> ~ describes j r) ->
  run_files nd huge order fuel o d s file = (Panic, d) /\ load_ast_and_draw huge o d = (Panic, d) /\ gen_lexer huge o d = (Panic, d).
Proof. exact (c79_unreadable nd huge order fuel o d s file). Qed.
Print Assumptions C79_unreadable.

Example C79_unreadable_example : forall bs t j r, (∅ : disk) !! lit "src/tool/syntaxis/syntaxis2.json" = Some bs -> text_bytes t bs ->
  document (fun _ => false) 127 j t -> ~ describes j r.
Proof. intros bs t j r H. by rewrite lookup_empty in H. Qed.

Example C79_example : healthy (Os true true true Some) /\ (exists bs, text_bytes syntaxis2_text bs) /\ (exists bs, text_bytes parser2_html bs) /\ exists bs, text_bytes lexer_rs bs.
Proof. exact ex_files. Qed.

(** C80: from_reader accepts the bytes of the texts from_str accepts, *)
Theorem C80_accepts huge bs r : from_reader huge bs = Ret (Some r) <-> exists s j, text_bytes s bs /\ document huge 127 j s /\ describes j r.
Proof. exact (c80_accepts huge bs r). Qed.
Print Assumptions C80_accepts.

(** C80: gives Err for all other bytes, *)
Theorem C80_rejects huge bs : from_reader huge bs = Ret None <-> forall s j r, text_bytes s bs -> document huge 127 j s -> ~ describes j r.
Proof. exact (c80_rejects huge bs). Qed.
Print Assumptions C80_rejects.

(** C80: and never panics. *)
Theorem C80_total huge bs : from_reader huge bs = Ret None \/ exists r, from_reader huge bs = Ret (Some r).
Proof. exact (c80_total huge bs). Qed.
Print Assumptions C80_total.

(** C80: from_reader and from_str agree. *)
Theorem C80_agrees huge s bs : text_bytes s bs -> from_reader huge bs = from_str huge s.
Proof. exact (c80_agrees huge s bs). Qed.
Print Assumptions C80_agrees.

(** C80: a file cut short is not read as another tree: of two accepted files one of which begins with the other, the rest is blank. *)
Theorem C80_cut huge b1 b2 r r' : from_reader huge b1 = Ret (Some r) -> from_reader huge (b1 ++ b2) = Ret (Some r') -> blanks b2 /\ r' = r.
Proof. exact (c80_cut_bytes huge b1 b2 r r'). Qed.
Print Assumptions C80_cut.

(** C80: a file with a byte order mark is refused. *)
Theorem C80_byte_order_mark huge bs : from_reader huge (239 :: 187 :: 191 :: bs)%N = Ret None.
Proof. exact (c80_mark huge bs). Qed.
Print Assumptions C80_byte_order_mark.

Example C80_example : from_reader (fun _ => false) (as_bytes (lit "{""rule_index"":7,""rule_name"":""" ++ [949%N] ++ lit """,""children"":[]}")) = Ret (Some (RuleCtx [949%N] [] 7)) /\
  from_reader (fun _ => false) (as_bytes (lit "{""rule_index"":7,""rule_name"":""") ++ [206%N] ++ as_bytes (lit """,""children"":[]}")) = Ret None.
Proof. split; vm_compute; reflexivity. Qed.
