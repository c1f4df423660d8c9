(** SpecShuffle.v -- parser rules and alternatives in another order. *)
From Verif Require Export SpecMixed SpecShapeOnly.

(** alt is one of the alternatives of a rule called n. *)
Definition offers (G : list rule) (n : str) (alt : alternative) : Prop := exists alts, ParserRule n alts ∈ G /\ alt ∈ alts.

(** The same alternatives under the same names: in whatever order, spread over however many rules of a name, however often.
    The first rule has the same name, and the lexer rules are the same in the same order. *)
Definition same_alternatives (G G' : list rule) : Prop :=
  (forall n alt, offers G n alt <-> offers G' n alt) /\ (forall n, n ∈ parser_rule_names G <-> n ∈ parser_rule_names G') /\
  lexer_rules_of G = lexer_rules_of G' /\ head (parser_rule_names G) = head (parser_rule_names G').

(** In particular: the same parser rules in some other order, the first one staying first. *)
Definition shuffled (G G' : list rule) : Prop :=
  parser_rules_of G ≡ₚ parser_rules_of G' /\ lexer_rules_of G = lexer_rules_of G' /\ head (parser_rule_names G) = head (parser_rule_names G').

(** A tree without its rule numbers: the names at the nodes, the tokens and the structure. *)
Fixpoint unnumbered_ast (a : ast) : ast :=
  match a with Rule r => Rule (unnumbered r) | Terminal t => Terminal t | Error t => Error t end
with unnumbered (r : rule_ctx) : rule_ctx :=
  let '(RuleCtx n cs _) := r in RuleCtx n (map unnumbered_ast cs) 0.

(** A panic at the same token, and in the rule of the same name (or in nameless rules). *)
Definition same_halt (v v' : vocabulary) (e e' : halt) : Prop :=
  match e, e' with
  | NoEntry c i, NoEntry c' i' => c = c' /\ get_nonterminal_name_by_id v i = get_nonterminal_name_by_id v' i'
  | _, _ => e = e'
  end.

(** Two runs of the tool chain without conflicts, alike but for the numbers of the rules. *)
Definition same_outcome (v v' : vocabulary) (x x' : res (list (production * production) * option str * logged rule_ctx)) : Prop :=
  match x, x' with
  | Ret (w, rest, (lines, o)), Ret (w', rest', (lines', o')) => w = [] /\ w' = [] /\ rest = rest' /\ lines = lines' /\
      match o, o' with
      | inl t, inl t' => unnumbered t = unnumbered t'
      | inr e, inr e' => same_halt v v' e e'
      | _, _ => False
      end
  | Panic, Panic => True
  | OutOfFuel, OutOfFuel => True
  | _, _ => False
  end.
