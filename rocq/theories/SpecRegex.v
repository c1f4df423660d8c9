(** SpecRegex.v -- the texts of the grammar language's tokens, without regexes. *)
From Verif Require Export LexerInst SpecLexer.

(** [\d] on ASCII is 0-9; nothing is assumed about other characters. *)
Definition digits_ok (nd : N -> bool) : Prop :=
  forall c, (c < 128)%N -> nd c = true <-> (48 <= c <= 57)%N.

Definition lower (c : N) : Prop := (97 <= c <= 122)%N.
Definition upper (c : N) : Prop := (65 <= c <= 90)%N.
Definition name_char (c : N) : Prop := lower c \/ upper c \/ (48 <= c <= 57)%N \/ c = 95%N.
Definition hex (c : N) : Prop := (97 <= c <= 102)%N \/ (48 <= c <= 57)%N.
(** space, \r, \n, \t, \f *)
Definition blank (c : N) : Prop := c = 32%N \/ c = 13%N \/ c = 10%N \/ c = 9%N \/ c = 12%N.

(** One item between the quotes of a string literal: an ordinary character, a one-letter escape, or
    a code point. *)
Inductive string_unit : str -> Prop :=
| su_plain c : c ∉ [7; 9; 10; 11; 12; 13; 39; 92]%N -> string_unit [c]
| su_escape c : c ∈ lit "\'adnrtfv" -> string_unit [92%N; c]
| su_code pre h : pre ∈ [[]; lit "0"; lit "0x"] -> h <> [] -> Forall hex h ->
    string_unit (lit "\u{" ++ pre ++ h ++ lit "}").

(** One item between the slashes of a regex: an escaped slash or any character but the slash. *)
Definition slash_unit (u : str) : Prop := u = [92; 47]%N \/ exists c, u = [c] /\ c <> 47%N.

(** The texts of each token type of v1/syntaxis_lexer.rs (constants :24-38). *)
Definition admissible (ty : nat) (x : str) : Prop :=
  match ty with
  | 2 => exists c w, x = c :: w /\ lower c /\ w <> [] /\ Forall name_char w        (* RULE_REF *)
  | 3 => exists c w, x = c :: w /\ upper c /\ w <> [] /\ Forall name_char w        (* TOKEN_REF *)
  | 4 => x ∈ [lit "::="; lit ":="; lit "->"; lit "=>"; lit ":"; lit "="]          (* COLON *)
  | 5 => x = lit ";"                                                              (* SEMI *)
  | 6 => x = lit "|"                                                              (* OR *)
  | 7 => x = [949%N]                                                              (* EPSILON *)
  | 8 => x = lit "*"                                                              (* STAR *)
  | 9 => x = lit "+"                                                              (* PLUS *)
  | 10 => x = lit "?"                                                             (* QUESTION *)
  | 11 => x = lit "("                                                             (* LPAREN *)
  | 12 => x = lit ")"                                                             (* RPAREN *)
  | 13 => exists us, x = 39%N :: concat us ++ [39%N] /\ Forall string_unit us     (* STRING_LITERAL *)
  | 14 => exists us, x = 47%N :: concat us ++ [47%N] /\ us <> [] /\ Forall slash_unit us (* REGULAR_LITERAL *)
  | _ => False
  end.

(** What may directly follow a token without changing it: a name must not be continued, [:] and [=]
    must not be continued to a longer token; a regex whose last character is a lone backslash would
    be continued to the next slash, so there must be none.  Everything else may follow directly. *)
Definition apart (ty : nat) (x rest : str) : Prop :=
  match ty with
  | 2 | 3 => forall c s, rest = c :: s -> ~ name_char c
  | 4 => (x = lit ":" -> forall s, rest <> lit "=" ++ s /\ rest <> lit ":=" ++ s) /\
         (x = lit "=" -> forall s, rest <> lit ">" ++ s)
  | 14 => forall us, x = 47%N :: concat us ++ [47%N] -> Forall slash_unit us ->
            last us = Some [92%N] -> 47%N ∉ rest
  | _ => True
  end.

(** [written ts s]: [s] is the tokens [ts] (types and texts) with blanks before, between and behind
    them; blanks are needed only where the tokens would otherwise not be apart. *)
Inductive written : list (nat * str) -> str -> Prop :=
| written_nil b : Forall blank b -> written [] b
| written_cons b ty x ts rest :
    Forall blank b -> admissible ty x -> apart ty x rest -> written ts rest ->
    written ((ty, x) :: ts) (b ++ x ++ rest).
