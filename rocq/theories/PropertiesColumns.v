(** PropertiesColumns.v -- C12 sharpened: when offsets and columns are character counts. Vocabulary: SpecLexer.v. *)
From Verif Require Import ColumnProofs.

(** C12, exactly: offsets are character counts iff the text up to there is ASCII, and the column is iff the line up to
    there is. *)
Theorem C12_columns_iff c ts st a t b :
  lexer_ok c -> scanned (scan c) lexer_init ts st -> ts = a ++ t :: b -> token_type t <> 1 ->
  (char_start_index t = length (texts a) <-> ascii (texts a)) /\
  (char_stop_index t = length (texts (a ++ [t])) <-> ascii (texts (a ++ [t]))) /\
  exists l0 l, texts a = l0 ++ l /\ (l0 = [] \/ exists l1, l0 = l1 ++ [10%N]) /\ newlines l = 0 /\
    (char_position (start t) = length l <-> ascii l).
Proof. exact (c12_iff c ts st a t b). Qed.
Print Assumptions C12_columns_iff.

Example C12_iff_example : lexer_ok (ex_lexer [949%N; 32%N]) /\ exists t1 t2 st, scanned (scan (ex_lexer [949%N; 32%N])) lexer_init [t1; t2] st /\
  text t1 = [949%N] /\ char_start_index t1 = 0 /\ char_stop_index t1 = 2 /\ char_start_index t2 = 2 /\ char_position (start t2) = 2 /\ ~ ascii (text t1).
Proof. exact ex_columns. Qed.

(** C12, exactly, for the hand-written lexer. *)
Theorem C12_columns_iff_handwritten c ts st a t b :
  lexer_ok c -> scanned (scan0 c) lexer_init ts st -> ts = a ++ t :: b ->
  (char_start_index t = length (texts a) <-> ascii (texts a)) /\
  (char_stop_index t = length (texts (a ++ [t])) <-> ascii (texts (a ++ [t]))) /\
  exists l0 l, texts a = l0 ++ l /\ (l0 = [] \/ exists l1, l0 = l1 ++ [10%N]) /\ newlines l = 0 /\
    (char_position (start t) = length l <-> ascii l).
Proof. exact (c12_iff0 c ts st a t b). Qed.
Print Assumptions C12_columns_iff_handwritten.
