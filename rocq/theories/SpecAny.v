(** SpecAny.v -- a text cut into tokens as far as the rules allow. *)
From Verif Require Export SpecChain SpecCrash SpecClash.

(** As [tokenized] of SpecChain.v, up to where no rule matches anything: what is left from there on, if anything. *)
Inductive cut_up (rules : list (str * matcher)) : str -> list (str * str) -> option str -> Prop :=
| cut_end : cut_up rules [] [] None
| cut_stuck s : s <> [] -> stuck (map snd rules) s -> cut_up rules s [] (Some s)
| cut_token i name m w rest ts left : rules !! i = Some (name, m) -> wins (map snd rules) (w ++ rest) i (blen w) ->
    cut_up rules rest ts left -> cut_up rules (w ++ rest) ((name, w) :: ts) left.

(** What the parser is given: the names of the visible tokens, and the end of the input where it was reached. *)
Definition parser_input (ts : list (str * str)) (left : option str) : list str :=
  map fst (visible ts) ++ match left with None => [lit "_STOP"] | Some _ => [] end.

(** A word of the language W followed by the end of the input begins with these names. *)
Definition begins (W : list str -> Prop) (l : list str) : Prop := exists word more, W word /\ word ++ [lit "_STOP"] = l ++ more.

(** Every rule can be read in some way, operands recognised by their number (compare [rules_match]). *)
Definition rules_read (number : atom -> nat) (G : list rule) : Prop :=
  forall name alts, ParserRule name alts ∈ G -> exists w, reads_atom G (first_operand number G) (RuleRef name) w.
