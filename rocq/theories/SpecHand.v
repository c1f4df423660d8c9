(** SpecHand.v -- what the hand-written lexer of the grammar language makes of every text, without
    regexes: tokens, and white space and comments between them. *)
From Verif Require Export SpecRegex.

(** The texts of each token type of syntaxis_lexer.rs (constants :21-41) that is not skipped. *)
Definition hand_text (ty : nat) (x : str) : Prop :=
  match ty with
  | 5 => x = lit "fragment"                                                      (* FRAGMENT *)
  | 6 => exists c w, x = c :: w /\ upper c /\ w <> [] /\ Forall name_char w       (* TOKEN_REF *)
  | 7 => x <> lit "fragment" /\
         exists c w, x = c :: w /\ lower c /\ w <> [] /\ Forall name_char w       (* RULE_REF *)
  | 8 => x ∈ [lit "::="; lit ":="; lit "->"; lit "=>"; lit ":"; lit "="]          (* COLON *)
  | 9 => x = lit "|"                                                              (* OR *)
  | 10 => x = lit ";"                                                             (* SEMI *)
  | 11 => x = lit "*"                                                             (* STAR *)
  | 12 => x = lit "+"                                                             (* PLUS *)
  | 13 => x = lit "?"                                                             (* QUESTION *)
  | 14 => x = lit "."                                                             (* DOT *)
  | 15 => x = lit "~"                                                             (* NOT *)
  | 16 => x = lit "("                                                             (* LPAREN *)
  | 17 => x = lit ")"                                                             (* RPAREN *)
  | 18 => x = lit "#"                                                             (* POUND *)
  | 19 => exists us, x = 39%N :: concat us ++ [39%N] /\ Forall string_unit us     (* STRING_LITERAL *)
  | 20 => x = lit ".."                                                            (* RANGE *)
  | 21 => exists us, x = 47%N :: concat us ++ [47%N] /\ us <> [] /\ Forall slash_unit us (* REGULAR_LITERAL *)
  | 22 => x = [949%N]                                                             (* EPSILON *)
  | _ => False
  end.

(** What may directly follow a token without changing it.  For names and the keyword, no further
    letter; for [:], [=] and [.], nothing that makes a longer token; a regex whose last character is
    a lone backslash would be continued to the next slash; a regex that begins with a star would be
    taken for a comment if the comment were closed anywhere behind it. *)
Definition hand_apart (ty : nat) (x rest : str) : Prop :=
  match ty with
  | 5 | 6 | 7 => forall c s, rest = c :: s -> ~ name_char c
  | 8 => (x = lit ":" -> forall s, rest <> lit "=" ++ s /\ rest <> lit ":=" ++ s) /\
         (x = lit "=" -> forall s, rest <> lit ">" ++ s)
  | 14 => forall s, rest <> lit "." ++ s
  | 21 => (forall us, x = 47%N :: concat us ++ [47%N] -> Forall slash_unit us ->
             last us = Some [92%N] -> 47%N ∉ rest) /\
          (forall u v, x ++ rest <> lit "/*" ++ u ++ lit "*/" ++ v)
  | _ => True
  end.

(** What is skipped: one blank, a comment up to the end of its line, a comment up to the first
    closing mark.  The form feed is no blank here. *)
Inductive skipped : str -> Prop :=
| skip_blank c : c ∈ [32; 9; 13; 10]%N -> skipped [c]
| skip_line l : 10%N ∉ l -> skipped (lit "//" ++ l ++ [10%N])
| skip_block u : (forall a b, u <> a ++ lit "*/" ++ b) -> skipped (lit "/*" ++ u ++ lit "*/").

(** Nothing can be read at the start of [s]. *)
Definition unreadable (s : str) : Prop :=
  forall x rest, s = x ++ rest ->
    ~ skipped x /\ forall ty, hand_text ty x -> ~ hand_apart ty x rest.

(** [hand_reads s ts rest]: reading [s] from the left gives the tokens [ts] (types and texts) and
    gets no further than [rest]. *)
Inductive hand_reads : str -> list (nat * str) -> str -> Prop :=
| reads_end rest : unreadable rest -> hand_reads rest [] rest
| reads_skip x s ts rest : skipped x -> hand_reads s ts rest -> hand_reads (x ++ s) ts rest
| reads_token ty x s ts rest : hand_text ty x -> hand_apart ty x s -> hand_reads s ts rest ->
    hand_reads (x ++ s) ((ty, x) :: ts) rest.
