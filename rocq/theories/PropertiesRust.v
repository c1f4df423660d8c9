(** PropertiesRust.v -- C60, C61: the source text of generated lexers.
    Statement vocabulary: SpecRust.v; lexer_tera (LexerTera.v) is the template, lexer_rs (LexerRs.v) the file
    tests/lexer_generate/lexer.rs committed in /repo. *)
From Verif Require Import RustExact.

(** C60: for the committed grammar the generated source is, character by character, the committed lexer.rs. *)
Theorem C60_committed g d : load_ast syntaxis2_json = Ret (g, d) -> render lexer_tera (lit "Syntaxis") d = lexer_rs.
Proof. exact (c60_committed g d). Qed.
Print Assumptions C60_committed.

Example C60_committed_example : load_ast syntaxis2_json = Ret (shipped, rules_of shipped_tree).
Proof. exact shipped_load. Qed.

(** C60 full statement: for every grammar that loads, the generated source has a raw string denoting each token's regex.
    False: a regex with a quote followed by four hashes ends the raw string early. *)
Theorem C60_hashes_refuted : exists G r g data t, grammar_tree G r /\ load_tree r = Ret (g, data) /\ t ∈ data /\
  identifier (ld_name t) /\ forall ts, rust_tokens (render lexer_tera (lit "Syntaxis") data) = Some ts -> Raw (ld_regex t) ∉ ts.
Proof. exact (c60_refuted). Qed.
Print Assumptions C60_hashes_refuted.

(** C60, what is true: when names are identifiers and no regex has a quote followed by four hashes or a carriage return,
    the source reads as Rust tokens, and apart from fixed parts that depend on the lexer's name only, these are, for
    exactly the collected tokens in order: a constant with name and type, a Regex::new of a string denoting the regex,
    and the name as a string. *)
Theorem C60_source_partial : exists (a d : str -> list rust_token) (b c : list rust_token), forall name tokens,
  Forall (fun x => word_char x = true) name -> Forall writable tokens ->
  rust_tokens (render lexer_tera name tokens) =
    Some (a name ++ concat (map constant tokens) ++ b ++ concat (map regex_new tokens) ++ c ++ concat (map quoted_name tokens) ++ d name).
Proof. exact (c60_shape). Qed.
Print Assumptions C60_source_partial.

Example C60_example : grammar_tree ex_blank (build_grammar ex_blank) /\
  load_tree (build_grammar ex_blank) = Ret (grammar_of (build_grammar ex_blank), rules_of (build_grammar ex_blank)) /\
  rules_of (build_grammar ex_blank) <> [] /\ Forall writable (rules_of (build_grammar ex_blank)) /\
  Forall (fun x => word_char x = true) (lit "My") /\ lit "WHITE_SPACE" ∈ map ld_name (rules_of (build_grammar ex_blank)).
Proof. exact ex_rust. Qed.

(** C60, exactly when it holds (names being identifiers): the source reads as these tokens if and only if no regex has a
    quote followed by four hashes or a carriage return. *)
Theorem C60_source_iff_partial : exists (a d : str -> list rust_token) (b c : list rust_token), forall name tokens,
  Forall (fun x => word_char x = true) name -> Forall (fun t => identifier (ld_name t)) tokens ->
  rust_tokens (render lexer_tera name tokens) =
    Some (a name ++ concat (map constant tokens) ++ b ++ concat (map regex_new tokens) ++ c ++ concat (map quoted_name tokens) ++ d name) <->
  Forall (fun t => raw4 (ld_regex t)) tokens.
Proof. exact (c60_iff). Qed.
Print Assumptions C60_source_iff_partial.

Example C60_iff_example : identifier (lit "BAD") /\ ~ raw4 (lit "x""####") /\ raw4 (lit "x""###").
Proof.
  split; [split; [repeat constructor|done]|]. split; [intros [H _]; by apply (H (lit "x") [])|]. by apply hashes_free_raw4.
Qed.

(** C61: the constants the source declares are _START, _STOP and the collected names, in order. *)
Theorem C61_declared name tokens ts : Forall (fun x => word_char x = true) name -> Forall writable tokens ->
  rust_tokens (render lexer_tera name tokens) = Some ts -> declared ts = [lit "_START"; lit "_STOP"] ++ map ld_name tokens.
Proof. exact (c61_declared name tokens ts). Qed.
Print Assumptions C61_declared.

(** C61 full statement: every constant the source refers to through the lexer's own name is declared in it.  False for
    a grammar without WHITE_SPACE. *)
Theorem C61_white_space_refuted : exists G r g data ts, grammar_tree G r /\ load_tree r = Ret (g, data) /\ Forall writable data /\
  rust_tokens (render lexer_tera (lit "Syntaxis") data) = Some ts /\
  exists c, (lit "SyntaxisLexer", c) ∈ paths ts /\ c ∉ declared ts.
Proof. exact (c61_refuted). Qed.
Print Assumptions C61_white_space_refuted.

(** C61, exactly when it holds: if and only if the grammar has a token WHITE_SPACE. *)
Theorem C61_references_iff_partial name tokens ts : Forall (fun x => word_char x = true) name -> Forall writable tokens ->
  rust_tokens (render lexer_tera name tokens) = Some ts ->
  (forall c, (name ++ lit "Lexer", c) ∈ paths ts -> c ∈ declared ts) <-> lit "WHITE_SPACE" ∈ map ld_name tokens.
Proof. exact (c61_exact name tokens ts). Qed.
Print Assumptions C61_references_iff_partial.

Example C61_example : Forall writable (rules_of (build_grammar ex_blankless)) /\ Forall writable (rules_of (build_grammar ex_blank)).
Proof. exact (conj ex_blankless_writable ex_blank_writable). Qed.
