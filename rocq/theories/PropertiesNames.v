(** PropertiesNames.v -- C77: the names tokens carry.  Statement vocabulary: SpecNames.v, SpecLexer.v. *)
From Verif Require Import NamesProofs SpecShipped.

(** C77, generated lexer: every token (also _STOP) carries the name of the constant of its type. *)
Theorem C77_generated nd s c ts st t : v1_lexer nd s = Ret c -> scanned (scan c) lexer_init ts st -> t ∈ ts -> (token_name t, token_type t) ∈ v1_constants.
Proof. exact (c77_v1 nd s c ts st t). Qed.
Print Assumptions C77_generated.

Example C77_example : exists c st, v1_lexer ascii_digit ex_v1_text = Ret c /\
  exists t, scanned (scan c) lexer_init [t] st /\ token_name t = lit "RULE_REF".
Proof.
  eexists _, _. split; [apply v1_new|]. eexists. split; [econstructor; [vm_compute; reflexivity|constructor]|reflexivity].
Qed.

(** C77 full statement: the same for the hand-written lexer.  False: the token of a question mark is named QUEStION. *)
Theorem C77_hand_refuted : exists s t, forall nd, exists c ts st, hand_lexer nd s = Ret c /\ scanned (scan0 c) lexer_init ts st /\ t ∈ ts /\
  text t = lit "?" /\ (token_name t, token_type t) ∉ hand_constants.
Proof. exact (c77_refuted). Qed.
Print Assumptions C77_hand_refuted.

(** C77, hand-written lexer, exactly when it holds: for every token but the question mark. *)
Theorem C77_hand_iff_partial nd s c ts st t : hand_lexer nd s = Ret c -> scanned (scan0 c) lexer_init ts st -> t ∈ ts ->
  (token_name t, token_type t) ∈ hand_constants <-> token_type t <> 13.
Proof. exact (c77_hand nd s c ts st t). Qed.
Print Assumptions C77_hand_iff_partial.

Example C77_hand_example : exists c st, hand_lexer ascii_digit (lit "?") = Ret c /\ scanned (scan0 c) lexer_init [ex_question] st.
Proof. exact (ex_question_scanned ascii_digit). Qed.

(** C45, the numbers: the accessors of the hand-written contexts look for the types its lexer gives to tokens of that name, and hand_type,
    the renumbering of C45, takes a type of the generated lexer to the type of the same name. *)
Theorem C45_numbers : [(lit "TOKEN_REF", TOKEN_REF); (lit "RULE_REF", RULE_REF); (lit "COLON", COLON); (lit "OR", OR); (lit "SEMI", SEMI); (lit "STAR", STAR);
    (lit "PLUS", PLUS); (lit "QUESTION", QUESTION); (lit "LPAREN", LPAREN); (lit "RPAREN", RPAREN); (lit "STRING_LITERAL", STRING_LITERAL);
    (lit "REGULAR_LITERAL", REGULAR_LITERAL); (lit "EPSILON", EPSILON)] ⊆ hand_constants /\
  forall n ty, (n, ty) ∈ v1_constants -> 2 <= ty -> n <> lit "WHITE_SPACE" -> (n, hand_type ty) ∈ hand_constants.
Proof. exact c45_numbers. Qed.
Print Assumptions C45_numbers.

Example C45_numbers_example : (lit "QUESTION", 10) ∈ v1_constants /\ (lit "QUESTION", hand_type 10) ∈ hand_constants.
Proof. exact ex_numbers. Qed.
