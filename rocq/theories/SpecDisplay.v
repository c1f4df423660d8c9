(** SpecDisplay.v -- when a printed grammar can be read back. *)
From Verif Require Export SpecGrammar.

(** A nonempty name without blank, semicolon, newline. *)
Definition name_char (c : N) : Prop := c <> 32%N /\ c <> 59%N /\ c <> 10%N.
Definition word (s : str) : Prop := s <> [] /\ Forall name_char s.
Definition digit (c : N) : Prop := (48 <= c <= 57)%N.

(** Names are words and no rule name is a number. *)
Definition readable_names (v : vocabulary) : Prop :=
  (forall id n, get_nonterminal_name_by_id v id = Some n -> word n /\ ~ Forall digit n) /\
  (forall id n, get_terminal_name_by_id v id = Some n -> word n).

(** Nonterminals stand only at the beginning of a right-hand side. *)
Definition nonterminal_only_first (p : production) : Prop :=
  forall b, NT b ∉ tail (right p).
