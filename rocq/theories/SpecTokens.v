(** SpecTokens.v -- lexer rules in another order. *)
From Verif Require Export SpecShuffle SpecReorder.

(** The same lexer rules in some other order, no two of a name; the same alternatives under the same names, and the same first rule name. *)
Definition reordered_tokens (G G' : list rule) : Prop :=
  (forall n alt, offers G n alt <-> offers G' n alt) /\ (forall n, n ∈ parser_rule_names G <-> n ∈ parser_rule_names G') /\
  lexer_rules_of G ≡ₚ lexer_rules_of G' /\ NoDup (lexer_rule_names G) /\ head (parser_rule_names G) = head (parser_rule_names G').

(** Trees that agree in everything but the rule numbers and the types of the tokens. *)
Inductive same_ast : ast -> ast -> Prop :=
| same_ast_token t t' : same_token t t' -> same_ast (Terminal t) (Terminal t')
| same_ast_rule n cs cs' i i' : Forall2 same_ast cs cs' -> same_ast (Rule (RuleCtx n cs i)) (Rule (RuleCtx n cs' i')).

(** Lines about the same token that name the same expected token. *)
Definition same_line (v v' : vocabulary) (l l' : mismatch) : Prop :=
  fst l = fst l' /\ exists n, get_terminal_name_by_id v (snd l) = Some n /\ get_terminal_name_by_id v' (snd l') = Some n.

(** Two runs of the tool chain without conflicts, alike but for the numbers of rules and tokens. *)
Definition alike (v v' : vocabulary) (x x' : res (list (production * production) * option str * logged rule_ctx)) : Prop :=
  match x, x' with
  | Ret (w, rest, (lines, o)), Ret (w', rest', (lines', o')) => w = [] /\ w' = [] /\ rest = rest' /\ Forall2 (same_line v v') lines lines' /\
      match o, o' with
      | inl t, inl t' => same_ast (Rule t) (Rule t')
      | inr e, inr e' => same_halt v v' e e'
      | _, _ => False
      end
  | Panic, Panic => True
  | OutOfFuel, OutOfFuel => True
  | _, _ => False
  end.
