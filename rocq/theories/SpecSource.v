(** SpecSource.v -- LL(1) for a grammar as it is written, with groups and suffixes: which tokens can begin a
    construct, which can come after it, and when one token of lookahead settles every choice.  No productions
    and no generated nonterminals appear here; tokens are names. *)
From Verif Require Export SpecEbnf.

(** [begins_* G x n]: token n can begin x. *)
Inductive begins_element (G : list rule) : element -> str -> Prop :=
| begins_operand a s n : begins_atom G a n -> begins_element G (Element a s) n
with begins_atom (G : list rule) : atom -> str -> Prop :=
| begins_token n : begins_atom G (TokenRef n) n
| begins_literal l : begins_atom G (StringLiteral l) l
| begins_rule name alts alt n : ParserRule name alts ∈ G -> alt ∈ alts -> begins_alternative G alt n -> begins_atom G (RuleRef name) n
| begins_group alts alt n : alt ∈ alts -> begins_alternative G alt n -> begins_atom G (Group alts) n
with begins_alternative (G : list rule) : alternative -> str -> Prop :=
| begins_sequence es n : begins_elements G es n -> begins_alternative G (Sequence es) n
with begins_elements (G : list rule) : list element -> str -> Prop :=
| begins_here e es n : begins_element G e n -> begins_elements G (e :: es) n
| begins_later e es n : matches_element G e [] -> begins_elements G es n -> begins_elements G (e :: es) n.

(** alt is an alternative of a rule or of a group of G. *)
Definition alternative_of (G : list rule) (alt : alternative) : Prop :=
  (exists name alts, ParserRule name alts ∈ G /\ alt ∈ alts) \/
  (exists alts s, occurs (Element (Group alts) s) G /\ alt ∈ alts).

(** [after_* G x n]: token n can come after x at some place where x occurs in G.  _STOP comes after the first
    rule; as in follow_set the place need not be reachable from the first rule. *)
Inductive after_element (G : list rule) : element -> str -> Prop :=
| after_next es1 e es2 n : alternative_of G (Sequence (es1 ++ e :: es2)) -> begins_elements G es2 n -> after_element G e n
| after_last es1 e es2 n : matches_elements G es2 [] -> after_alternative G (Sequence (es1 ++ e :: es2)) n -> after_element G e n
with after_alternative (G : list rule) : alternative -> str -> Prop :=
| after_rule name alts alt n : ParserRule name alts ∈ G -> alt ∈ alts -> after_atom G (RuleRef name) n -> after_alternative G alt n
| after_group alts alt n : alt ∈ alts -> after_atom G (Group alts) n -> after_alternative G alt n
with after_atom (G : list rule) : atom -> str -> Prop :=
| after_end name : head (parser_rule_names G) = Some name -> after_atom G (RuleRef name) (lit "_STOP")
| after_operand a s n : after_element G (Element a s) n -> after_atom G a n
| after_repeat a k b n : occurs (Element a (Some (k, b))) G -> k = Star \/ k = Plus -> begins_atom G a n -> after_atom G a n.

(** Token n is a reason to choose alternative alt of a (a group or a rule reference). *)
Definition chooses (G : list rule) (a : atom) (alt : alternative) (n : str) : Prop :=
  begins_alternative G alt n \/ (matches_alternative G alt [] /\ after_atom G a n).

(** Alternatives without their lazy marks, ε written as the empty sequence. *)
Fixpoint plain_element (e : element) : element :=
  match e with
  | Element a s => Element (plain_atom a) (match s with Some (k, _) => Some (k, false) | None => None end)
  end
with plain_atom (a : atom) : atom :=
  match a with Group alts => Group (map plain_alternative alts) | _ => a end
with plain_alternative (a : alternative) : alternative :=
  match a with Epsilon => Sequence [] | Sequence es => Sequence (map plain_element es) end.

(** One token of lookahead settles every choice: *)
Record source_ll1 (G : list rule) : Prop := {
  (** between the alternatives of a rule (also when the rule is given in several pieces), *)
  sl_rule : forall name alts1 alts2 alt1 alt2 n,
    ParserRule name alts1 ∈ G -> alt1 ∈ alts1 -> ParserRule name alts2 ∈ G -> alt2 ∈ alts2 ->
    chooses G (RuleRef name) alt1 n -> chooses G (RuleRef name) alt2 n -> plain_alternative alt1 = plain_alternative alt2;
  (** between the alternatives of a group, *)
  sl_group : forall alts s alt1 alt2 n,
    occurs (Element (Group alts) s) G -> alt1 ∈ alts -> alt2 ∈ alts ->
    chooses G (Group alts) alt1 n -> chooses G (Group alts) alt2 n -> plain_alternative alt1 = plain_alternative alt2;
  (** and whether to go on with x in x* and x?. *)
  sl_optional : forall a k b n,
    occurs (Element a (Some (k, b))) G -> k = Star \/ k = Question -> after_element G (Element a (Some (k, b))) n ->
    ~ begins_atom G a n /\ ~ matches_atom G a [];
}.

(** What the textbook asks of x+: whether to go on with x. *)
Definition plus_ll1 (G : list rule) : Prop := forall a b n,
  occurs (Element a (Some (Plus, b))) G -> after_element G (Element a (Some (Plus, b))) n ->
  ~ begins_atom G a n /\ ~ matches_atom G a [].
(** What the tool asks of x+: that x can begin with no token at all. *)
Definition plus_void (G : list rule) : Prop := forall a b n,
  occurs (Element a (Some (Plus, b))) G ->
  ~ begins_atom G a n /\ (matches_atom G a [] -> ~ after_element G (Element a (Some (Plus, b))) n).

(** Everything in G matches something. *)
Definition productive (G : list rule) : Prop := forall e, occurs e G -> exists w, matches_element G e w.

(** Each x+ written out as (x x* ). *)
Fixpoint spell_element (e : element) : element :=
  match e with
  | Element a (Some (Plus, b)) =>
      Element (Group [Sequence [Element (spell_atom a) None; Element (spell_atom a) (Some (Star, b))]]) None
  | Element a s => Element (spell_atom a) s
  end
with spell_atom (a : atom) : atom :=
  match a with Group alts => Group (map spell_alternative alts) | _ => a end
with spell_alternative (a : alternative) : alternative :=
  match a with Epsilon => Epsilon | Sequence es => Sequence (map spell_element es) end.
Definition spell_rule (r : rule) : rule :=
  match r with ParserRule name alts => ParserRule name (map spell_alternative alts) | LexerRule _ _ => r end.
Definition spell_plus (G : list rule) : list rule := map spell_rule G.
