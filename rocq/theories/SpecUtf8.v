(** SpecUtf8.v -- UTF-8 (RFC 3629, section 3) as a relation between texts and bytes. *)
From Verif Require Export SpecLexer.
Local Open Scope N_scope.

Inductive utf8_char : N -> list N -> Prop :=
| utf8_one c : c < 128 -> utf8_char c [c]
| utf8_two a b : a < 32 -> b < 64 -> 128 <= a * 64 + b -> utf8_char (a * 64 + b) [192 + a; 128 + b]
| utf8_three a b d : a < 16 -> b < 64 -> d < 64 -> 2048 <= (a * 64 + b) * 64 + d ->
    utf8_char ((a * 64 + b) * 64 + d) [224 + a; 128 + b; 128 + d]
| utf8_four a b d e : a < 8 -> b < 64 -> d < 64 -> e < 64 -> 65536 <= ((a * 64 + b) * 64 + d) * 64 + e <= 1114111 ->
    utf8_char (((a * 64 + b) * 64 + d) * 64 + e) [240 + a; 128 + b; 128 + d; 128 + e].
Inductive utf8_text : str -> list N -> Prop :=
| utf8_nil : utf8_text [] []
| utf8_cons c s bs bs' : utf8_char c bs -> utf8_text s bs' -> utf8_text (c :: s) (bs ++ bs').
