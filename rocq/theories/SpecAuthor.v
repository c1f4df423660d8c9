(** SpecAuthor.v -- how the author of a grammar means the text: a backslash in a regex escapes the
    character behind it, whatever it is, and names may be as short as one letter. *)
From Verif Require Export SpecRegex.

(** One item between the slashes of a regex: a backslash with the character it escapes, or any
    other character but the slash. *)
Definition escape_unit (u : str) : Prop := (exists c, u = [92%N; c]) \/ (exists c, u = [c] /\ c ∉ [47; 92]%N).
Definition regex_literal (x : str) : Prop :=
  exists us, x = 47%N :: concat us ++ [47%N] /\ us <> [] /\ Forall escape_unit us.

(** [authored ts s]: as [written] (SpecRegex.v), but a regex is a [regex_literal] and may be followed
    by anything. *)
Inductive authored : list (nat * str) -> str -> Prop :=
| authored_nil b : Forall blank b -> authored [] b
| authored_regex b x ts rest : Forall blank b -> regex_literal x -> authored ts rest ->
    authored ((14, x) :: ts) (b ++ x ++ rest)
| authored_cons b ty x ts rest : Forall blank b -> ty <> 14 -> admissible ty x -> apart ty x rest -> authored ts rest ->
    authored ((ty, x) :: ts) (b ++ x ++ rest).

(** No regex whose last character is a backslash has a slash in any token behind it. *)
Definition no_slash_behind_backslash (ts : list (nat * str)) : Prop :=
  forall before x behind, ts = before ++ (14, x) :: behind -> (exists y, x = y ++ [92; 47]%N) ->
  forall ty' x', (ty', x') ∈ behind -> 47%N ∉ x'.

(** Names: RULE_REF (2) starts with a small letter, TOKEN_REF (3) with a capital. *)
Definition a_name (ty : nat) (x : str) : Prop :=
  exists c w, x = c :: w /\ Forall name_char w /\ ((ty = 2 /\ lower c) \/ (ty = 3 /\ upper c)).
