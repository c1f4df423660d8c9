(** SpecReads.v -- what the generated lexer of the grammar language makes of every text, also of one that is not
    a text of the language; and string literals as their author means them. *)
From Verif Require Export SpecRegex.

(** No blank and no token of the language is at the start of [s]. *)
Definition nothing_read (s : str) : Prop :=
  forall x rest, s = x ++ rest -> (forall c, x = [c] -> ~ blank c) /\ forall ty, admissible ty x -> ~ apart ty x rest.

(** [reads s ts rest]: reading [s] from the left gives the tokens [ts] (types and texts) and gets no further than [rest]. *)
Inductive reads : str -> list (nat * str) -> str -> Prop :=
| read_end rest : nothing_read rest -> reads rest [] rest
| read_blank c s ts rest : blank c -> reads s ts rest -> reads (c :: s) ts rest
| read_token ty x s ts rest : admissible ty x -> apart ty x s -> reads s ts rest -> reads (x ++ s) ((ty, x) :: ts) rest.

(** A string literal as its author means it: between quotes, a backslash escapes the character behind it; any other character but
    the quote stands for itself. *)
Definition quote_unit (u : str) : Prop := (exists c, u = [92%N; c]) \/ (exists c, u = [c] /\ c ∉ [39; 92]%N).
Definition quoted (x : str) : Prop := exists us, x = 39%N :: concat us ++ [39%N] /\ Forall quote_unit us.

(** The string literals of the language: ordinary characters -- no control characters 7 and 9 to 13 --, the escapes of one letter,
    and code points ([string_unit], SpecRegex.v). *)
Definition known_literal (x : str) : Prop := exists us, x = 39%N :: concat us ++ [39%N] /\ Forall string_unit us.
