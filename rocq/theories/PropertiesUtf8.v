(** PropertiesUtf8.v -- C11 in terms of the bytes of the input (UTF-8 as in RFC 3629, SpecUtf8.v). *)
From Verif Require Import Utf8Proofs.

(** C11: the offsets of every token but _STOP delimit the bytes of its text in the bytes of the input. *)
Theorem C11_offsets_are_bytes c ts st bytes t :
  lexer_ok c -> scanned (scan c) lexer_init ts st -> utf8_text (input c) bytes -> t ∈ ts -> token_type t <> 1 ->
  exists before here after, bytes = before ++ here ++ after /\ utf8_text (text t) here /\
    length before = char_start_index t /\ length (before ++ here) = char_stop_index t.
Proof. exact (c11_bytes c ts st bytes t). Qed.
Print Assumptions C11_offsets_are_bytes.

Example C11_bytes_example : lexer_ok (ex_lexer ex_text) /\ exists bytes, utf8_text ex_text bytes /\ length bytes <> length ex_text.
Proof. split; [exact (ex_lexer_ok ex_text)|exact ex_utf8]. Qed.

(** C11: the same for every token of the hand-written lexer. *)
Theorem C11_offsets_are_bytes_handwritten c ts st bytes t :
  lexer_ok c -> scanned (scan0 c) lexer_init ts st -> utf8_text (input c) bytes -> t ∈ ts ->
  exists before here after, bytes = before ++ here ++ after /\ utf8_text (text t) here /\
    length before = char_start_index t /\ length (before ++ here) = char_stop_index t.
Proof. exact (c11_bytes0 c ts st bytes t). Qed.
Print Assumptions C11_offsets_are_bytes_handwritten.

(** C11: the texts with UTF-8 bytes are those of code points, *)
Theorem C11_bytes_exist s : (forall c, c ∈ s -> (c <= 1114111)%N) <-> exists bs, utf8_text s bs.
Proof. exact (c11_utf8 s). Qed.
Print Assumptions C11_bytes_exist.

(** C11: and the bytes and the text determine each other. *)
Theorem C11_bytes_unique s s' bs bs' : utf8_text s bs -> utf8_text s' bs' -> bs = bs' <-> s = s'.
Proof. exact (c11_utf8_unique s s' bs bs'). Qed.
Print Assumptions C11_bytes_unique.
