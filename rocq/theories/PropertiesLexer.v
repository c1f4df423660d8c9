(** PropertiesLexer.v -- C05-C12: the scanners, for every list of regexes. [scan] is the scanner of
    the generated lexers (v1, lexer.tera), [scan0] that of the hand-written one. Statement
    vocabulary: SpecLexer.v. *)
From Verif Require Import LexerMain.

(** C05: any number of scans of a generated lexer: texts concatenate to the consumed input, offsets are exact. *)
Theorem C05_no_input_lost c ts st :
  lexer_ok c -> scanned (scan c) lexer_init ts st ->
  exists ts0 rest,
    input c = texts ts0 ++ rest /\
    (ts = ts0 \/ (rest = [] /\ exists s, is_stop s /\ ts = ts0 ++ [s])) /\
    forall a t b, ts0 = a ++ t :: b ->
      char_start_index t = blen (texts a) /\ char_stop_index t = blen (texts (a ++ [t])) /\
      slice_bytes (char_start_index t) (char_stop_index t) (input c) = Some (text t).
Proof. exact (c05_scan c ts st). Qed.
Print Assumptions C05_no_input_lost.

Example C05_example : lexer_ok (ex_lexer ex_text) /\ exists toks, scan_all (ex_lexer ex_text) 4 0 10 lexer_init = Ret (toks, None) /\
  map token_type toks = [3; 3; 1] /\ map text toks = [lit "ab"; [949%N]; lit "_STOP"] /\ map token_index toks = [0; 2; 4].
Proof. exact (conj (ex_lexer_ok ex_text) ex_scan_all). Qed.

(** C05: the same for the hand-written lexer. *)
Theorem C05_no_input_lost_handwritten c ts st :
  lexer_ok c -> scanned (scan0 c) lexer_init ts st ->
  exists rest, input c = texts ts ++ rest /\
    forall a t b, ts = a ++ t :: b ->
      char_start_index t = blen (texts a) /\ char_stop_index t = blen (texts (a ++ [t])) /\
      slice_bytes (char_start_index t) (char_stop_index t) (input c) = Some (text t).
Proof. exact (c05_scan0 c ts st). Qed.
Print Assumptions C05_no_input_lost_handwritten.

(** C06: before the end of input, scan returns the first of the longest matches, or an error exactly
    when nothing nonempty matches. *)
Theorem C06_maximal_munch c ts st rest :
  lexer_ok c -> scanned (scan c) lexer_init ts st -> input c = texts ts ++ rest -> rest <> [] ->
  (exists t st', scan c st = Ret (STok t, st') /\
     exists i, token_type t = i + 2 /\ token_names c !! (i + 2) = Some (token_name t) /\
       wins (regex_list c) rest i (blen (text t)) /\ exists rest', rest = text t ++ rest') \/
  (scan c st = Ret (SErr, st) /\ stuck (regex_list c) rest).
Proof. exact (c06_munch c ts st rest). Qed.
Print Assumptions C06_maximal_munch.

Example C06_example : lexer_ok (ex_lexer ex_text) /\ exists toks, scan_all (ex_lexer ex_text) 4 0 10 lexer_init = Ret (toks, None) /\
  map token_type toks = [3; 3; 1] /\ map text toks = [lit "ab"; [949%N]; lit "_STOP"] /\ map token_index toks = [0; 2; 4].
Proof. exact (conj (ex_lexer_ok ex_text) ex_scan_all). Qed.

(** C06: the same for the hand-written lexer (also at the end of input). *)
Theorem C06_maximal_munch_handwritten c ts st rest :
  lexer_ok c -> scanned (scan0 c) lexer_init ts st -> input c = texts ts ++ rest ->
  (exists t st', scan0 c st = Ret (STok t, st') /\
     exists i, token_type t = i + 2 /\ token_names c !! (i + 2) = Some (token_name t) /\
       wins (regex_list c) rest i (blen (text t)) /\ exists rest', rest = text t ++ rest') \/
  (scan0 c st = Ret (SErr, st) /\ stuck (regex_list c) rest).
Proof. exact (c06_munch0 c ts st rest). Qed.
Print Assumptions C06_maximal_munch_handwritten.

(** C07: every token but _STOP is nonempty. *)
Theorem C07_tokens_nonempty c ts st t st' :
  lexer_ok c -> scanned (scan c) lexer_init ts st -> scan c st = Ret (STok t, st') ->
  token_type t = 1 \/ text t <> [].
Proof. exact (c07_progress c ts st t st'). Qed.
Print Assumptions C07_tokens_nonempty.

(** C07: scan_all_on_channel_tokens returns after at most length+2 scans. *)
Theorem C07_scan_all_terminates c ws chan fuel :
  lexer_ok c -> ws <> 1 -> length (input c) + 2 <= fuel ->
  exists out, scan_all c ws chan fuel lexer_init = Ret out.
Proof. exact (c07_terminates c ws chan fuel). Qed.
Print Assumptions C07_scan_all_terminates.

Example C07_example : lexer_ok (ex_lexer ex_text) /\ exists toks, scan_all (ex_lexer ex_text) 4 0 10 lexer_init = Ret (toks, None) /\
  map token_type toks = [3; 3; 1] /\ map text toks = [lit "ab"; [949%N]; lit "_STOP"] /\ map token_index toks = [0; 2; 4].
Proof. exact (conj (ex_lexer_ok ex_text) ex_scan_all). Qed.

(** C08: _STOP marks exactly a complete scan; otherwise the rest is printed. *)
Theorem C08_stop_iff_complete c ws fuel toks printed :
  lexer_ok c -> ws <> 1 -> length (input c) + 2 <= fuel ->
  scan_all c ws 0 fuel lexer_init = Ret (toks, printed) ->
  exists ts rest st, scanned (scan c) lexer_init ts st /\ input c = texts ts ++ rest /\
    Forall (fun t => token_type t <> 1) ts /\
    ((rest = [] /\ printed = None /\ exists s, is_stop s /\ toks = filter (fun t => token_type t <> ws) ts ++ [s]) \/
     (rest <> [] /\ stuck (regex_list c) rest /\ printed = Some rest /\
      toks = filter (fun t => token_type t <> ws) ts)).
Proof. exact (c08_stop c ws fuel toks printed). Qed.
Print Assumptions C08_stop_iff_complete.

Example C08_example : lexer_ok (ex_lexer ex_text) /\ exists toks, scan_all (ex_lexer ex_text) 4 0 10 lexer_init = Ret (toks, None) /\
  map token_type toks = [3; 3; 1] /\ map text toks = [lit "ab"; [949%N]; lit "_STOP"] /\ map token_index toks = [0; 2; 4].
Proof. exact (conj (ex_lexer_ok ex_text) ex_scan_all). Qed.

(** C08: after _STOP every scan is an error. *)
Theorem C08_error_after_stop c ts s st :
  lexer_ok c -> scanned (scan c) lexer_init (ts ++ [s]) st -> token_type s = 1 -> scan c st = Ret (SErr, st).
Proof. exact (c08_after_stop c ts s st). Qed.
Print Assumptions C08_error_after_stop.

Example C08_example_stop : exists t st, scanned (scan (ex_lexer [])) lexer_init [t] st /\ token_type t = 1.
Proof. exact ex_scanned. Qed.

(** C09: line and column of every token, in bytes. *)
Theorem C09_line_and_column c ts st a t b :
  lexer_ok c -> scanned (scan c) lexer_init ts st -> ts = a ++ t :: b ->
  position_after (texts a) (start t) /\
  (token_type t <> 1 -> position_after (texts (a ++ [t])) (stop t)) /\
  (token_type t = 1 -> texts a = input c /\ stop t = start t).
Proof. exact (c09_positions c ts st a t b). Qed.
Print Assumptions C09_line_and_column.

Example C09_example : position_after (lit "a" ++ [10%N] ++ lit "bc") (Position 1 2).
Proof. split; [done|]. by exists (lit "a" ++ [10%N]), (lit "bc"); split_and!; try done; right; exists (lit "a"). Qed.

(** C09, C10: the same for the hand-written lexer, with the token index. *)
Theorem C09_line_and_column_handwritten c ts st a t b :
  lexer_ok c -> scanned (scan0 c) lexer_init ts st -> ts = a ++ t :: b ->
  position_after (texts a) (start t) /\ position_after (texts (a ++ [t])) (stop t) /\ token_index t = length a.
Proof. exact (c09_positions0 c ts st a t b). Qed.
Print Assumptions C09_line_and_column_handwritten.

(** C09: the specification determines the position. *)
Theorem C09_position_determined pre p q : position_after pre p -> position_after pre q -> p = q.
Proof. exact (position_after_unique pre p q). Qed.
Print Assumptions C09_position_determined.

(** C10: scan_all_on_channel_tokens of a generated lexer: the scans up to the first error, minus
    whitespace; the k-th scanned token has index k. *)
Theorem C10_only_whitespace_dropped c ws chan fuel :
  lexer_ok c -> ws <> 1 -> length (input c) + 2 <= fuel ->
  exists ts st toks printed, scanned (scan c) lexer_init ts st /\
    scan c st = Ret (SErr, st) /\
    scan_all c ws chan fuel lexer_init = Ret (toks, printed) /\
    toks = (if chan =? 0 then filter (fun t => token_type t <> ws) ts else []) /\
    forall k t, ts !! k = Some t -> token_index t = k.
Proof. exact (c10_scan_all c ws chan fuel). Qed.
Print Assumptions C10_only_whitespace_dropped.

Example C10_example : lexer_ok (ex_lexer ex_text) /\ exists toks, scan_all (ex_lexer ex_text) 4 0 10 lexer_init = Ret (toks, None) /\
  map token_type toks = [3; 3; 1] /\ map text toks = [lit "ab"; [949%N]; lit "_STOP"] /\ map token_index toks = [0; 2; 4].
Proof. exact (conj (ex_lexer_ok ex_text) ex_scan_all). Qed.

(** C10: the hand-written lexer drops comments and white space (types 2, 3, 4). *)
Theorem C10_only_comments_dropped_handwritten c chan fuel :
  lexer_ok c -> length (input c) + 1 <= fuel ->
  exists ts rest st, scanned (scan0 c) lexer_init ts st /\ input c = texts ts ++ rest /\
    stuck (regex_list c) rest /\
    scan_all0 c chan fuel lexer_init =
      Ret (if chan =? 0 then filter (fun t => token_type t ∉ [2; 3; 4]) ts else [], Some rest).
Proof. exact (c10_scan_all0 c chan fuel). Qed.
Print Assumptions C10_only_comments_dropped_handwritten.

(** C11 is false: _STOP's offsets are beyond the input.
    Full statement: [t ∈ ts -> char_start_index t <= char_stop_index t <= blen (input c)]. *)
Theorem C11_offsets_in_input_refuted :
  exists c ts st t, lexer_ok c /\ scanned (scan c) lexer_init ts st /\ t ∈ ts /\ blen (input c) < char_stop_index t.
Proof. exact (c11_refuted). Qed.
Print Assumptions C11_offsets_in_input_refuted.

(** C11: what _STOP's offsets are, for every lexer and input: slicing with them panics. *)
Theorem C11_stop_offsets c ts st t :
  lexer_ok c -> scanned (scan c) lexer_init ts st -> t ∈ ts -> token_type t = 1 ->
  char_start_index t = blen (input c) + 10 /\ char_stop_index t = blen (input c) + 10 /\
  slice_bytes (char_start_index t) (char_stop_index t) (input c) = None.
Proof. exact (c11_stop c ts st t). Qed.
Print Assumptions C11_stop_offsets.

(** C11, what is true: every other token. *)
Theorem C11_offsets_in_input_partial c ts st t :
  lexer_ok c -> scanned (scan c) lexer_init ts st -> t ∈ ts -> token_type t <> 1 ->
  char_start_index t < char_stop_index t <= blen (input c).
Proof. exact (c11_ordinary c ts st t). Qed.
Print Assumptions C11_offsets_in_input_partial.

Example C11_example : lexer_ok (ex_lexer ex_text) /\ exists toks, scan_all (ex_lexer ex_text) 4 0 10 lexer_init = Ret (toks, None) /\
  map token_type toks = [3; 3; 1] /\ map text toks = [lit "ab"; [949%N]; lit "_STOP"] /\ map token_index toks = [0; 2; 4].
Proof. exact (conj (ex_lexer_ok ex_text) ex_scan_all). Qed.

(** C12 is false: a two-byte character counts twice.
    Full statement: the partial theorem below without [ascii]. *)
Theorem C12_columns_are_characters_refuted :
  exists c ts st a t b, lexer_ok c /\ scanned (scan c) lexer_init ts st /\ ts = a ++ t :: b /\
    token_type t <> 1 /\ newlines (texts a) = 0 /\
    char_start_index t <> length (texts a) /\ char_position (start t) <> length (texts a).
Proof. exact (c12_refuted). Qed.
Print Assumptions C12_columns_are_characters_refuted.

(** C12, what is true: for ASCII input (in general the counts are bytes, C05 and C09). *)
Theorem C12_columns_are_characters_partial c ts st a t b :
  lexer_ok c -> scanned (scan c) lexer_init ts st -> ts = a ++ t :: b -> token_type t <> 1 -> ascii (input c) ->
  char_start_index t = length (texts a) /\ char_stop_index t = length (texts (a ++ [t])) /\
  exists l, char_position (start t) = length l /\ newlines l = 0 /\
    exists l0, texts a = l0 ++ l /\ (l0 = [] \/ exists l1, l0 = l1 ++ [10%N]).
Proof. exact (c12_ascii c ts st a t b). Qed.
Print Assumptions C12_columns_are_characters_partial.

Example C12_example : ascii (lit "rule: TOKEN;").
Proof. by repeat constructor. Qed.
