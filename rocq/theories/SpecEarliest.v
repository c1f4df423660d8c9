(** SpecEarliest.v -- beginnings of inputs. *)
From Verif Require Export SpecGrammar Parser SpecEbnf.

(** A sentence (of start rule 0) followed by the end of input begins with these tokens. *)
Definition begins_sentence (P : gset production) (ts : list token) : Prop :=
  exists s stop more, sentence P 0 s /\ token_type stop = 1 /\ types (s ++ [stop]) = types ts ++ more.

(** Every rule matches something. *)
Definition rules_match (G : list rule) : Prop := forall name alts, ParserRule name alts ∈ G -> exists w, matches_atom G (RuleRef name) w.
