(** SpecProgram.v -- vocabulary for the effects of main (C88). *)
From Verif Require Export SpecOutput SpecFiles SpecCrash Program.

(** A string literal outside of all groups. *)
Definition plain_literal (G : list rule) : Prop :=
  exists name alts es l s, ParserRule name alts ∈ G /\ Sequence es ∈ alts /\ Element (StringLiteral l) s ∈ es.

(** A message about an alternative. *)
Definition about_alternatives (line : str) : Prop := line = says_alternative \/ line = says_group.
