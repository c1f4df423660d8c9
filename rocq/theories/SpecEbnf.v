(** SpecEbnf.v -- the grammar language: its abstract syntax, which syntax trees represent it, and the
    token sequences a rule matches. *)
From Verif Require Export SpecGrammar Context.

(** Abstract syntax.  A suffix may carry a second question mark (lazy), which has no effect here. *)
Inductive suffix := Star | Plus | Question.
Inductive element := Element (a : atom) (s : option (suffix * bool))
with atom :=
| TokenRef (name : str)
| StringLiteral (literal : str)
| RuleRef (name : str)
| Group (alternatives : list alternative)
with alternative := Epsilon | Sequence (es : list element).
Inductive rule :=
| ParserRule (name : str) (alternatives : list alternative)
| LexerRule (name regex : str).

(** The tree of a grammar, as described by the rules in the comment of main.rs:48-66; token positions and
    names, and the rule_name of nodes, are arbitrary. *)
Definition tok (ty : nat) (txt : str) (a : ast) : Prop := exists t, a = Terminal t /\ token_type t = ty /\ text t = txt.
Definition any_tok (ty : nat) (a : ast) : Prop := exists t, a = Terminal t /\ token_type t = ty.
Definition suffix_type (s : suffix) : nat := match s with Star => STAR | Plus => PLUS | Question => QUESTION end.
Inductive suffix_tree : option (suffix * bool) -> list ast -> Prop :=
| suffix_none : suffix_tree None []
| suffix_greedy s a n : any_tok (suffix_type s) a -> suffix_tree (Some (s, false)) [Rule (RuleCtx n [a] EBNF_SUFFIX)]
| suffix_lazy s a q n : any_tok (suffix_type s) a -> any_tok QUESTION q ->
    suffix_tree (Some (s, true)) [Rule (RuleCtx n [a; q] EBNF_SUFFIX)].
Inductive element_tree : element -> rule_ctx -> Prop :=
| element_tree_intro a s n cs ss :
    atom_trees a cs -> suffix_tree s ss -> element_tree (Element a s) (RuleCtx n (cs ++ ss) ELEMENT)
with atom_trees : atom -> list ast -> Prop :=
| atom_token name a : tok TOKEN_REF name a -> atom_trees (TokenRef name) [a]
| atom_literal lit a : tok STRING_LITERAL lit a -> atom_trees (StringLiteral lit) [a]
| atom_rule name a : tok RULE_REF name a -> atom_trees (RuleRef name) [a]
| atom_group alts l b r : any_tok LPAREN l -> any_tok RPAREN r -> block_tree alts b ->
    atom_trees (Group alts) [l; Rule b; r]
with block_tree : list alternative -> rule_ctx -> Prop :=
| block_tree_intro alts n cs : alternatives_trees alts cs -> block_tree alts (RuleCtx n cs BLOCK)
with alternatives_trees : list alternative -> list ast -> Prop :=
| alternatives_one a c : alternative_tree a c -> alternatives_trees [a] [Rule c]
| alternatives_more a c o alts cs : alternative_tree a c -> any_tok OR o -> alternatives_trees alts cs ->
    alternatives_trees (a :: alts) (Rule c :: o :: cs)
with alternative_tree : alternative -> rule_ctx -> Prop :=
| alternative_epsilon_tree n m e : any_tok EPSILON e ->
    alternative_tree Epsilon (RuleCtx n [Rule (RuleCtx m [e] EPSILON_RULE)] ALTERNATIVE)
| alternative_sequence_tree n es cs : elements_trees es cs -> alternative_tree (Sequence es) (RuleCtx n cs ALTERNATIVE)
with elements_trees : list element -> list ast -> Prop :=
| elements_nil : elements_trees [] []
| elements_cons e c es cs : element_tree e c -> elements_trees es cs -> elements_trees (e :: es) (Rule c :: cs).
Inductive rule_tree : rule -> rule_ctx -> Prop :=
| parser_rule_tree name alts n a c b s : tok RULE_REF name a -> any_tok COLON c -> block_tree alts b -> any_tok SEMI s ->
    rule_tree (ParserRule name alts) (RuleCtx n [a; c; Rule b; s] PARSER_RULE)
| lexer_rule_tree name regex n m a c r s : tok TOKEN_REF name a -> any_tok COLON c -> tok REGULAR_LITERAL regex r -> any_tok SEMI s ->
    rule_tree (LexerRule name regex) (RuleCtx n [a; c; Rule (RuleCtx m [r] REGULAR); s] LEXER_RULE).
Definition grammar_tree (G : list rule) (r : rule_ctx) : Prop :=
  exists n cs, r = RuleCtx n (map Rule cs) RULE_LIST /\ Forall2 rule_tree G cs.

(** The sequences of token names that a construct of grammar G matches. *)
Inductive matches_element (G : list rule) : element -> list str -> Prop :=
| matches_plain a w : matches_atom G a w -> matches_element G (Element a None) w
| matches_star_nil a b : matches_element G (Element a (Some (Star, b))) []
| matches_star_cons a b w1 w2 : matches_atom G a w1 -> matches_element G (Element a (Some (Star, b))) w2 ->
    matches_element G (Element a (Some (Star, b))) (w1 ++ w2)
| matches_plus_one a b w : matches_atom G a w -> matches_element G (Element a (Some (Plus, b))) w
| matches_plus_more a b w1 w2 : matches_atom G a w1 -> matches_element G (Element a (Some (Plus, b))) w2 ->
    matches_element G (Element a (Some (Plus, b))) (w1 ++ w2)
| matches_question_no a b : matches_element G (Element a (Some (Question, b))) []
| matches_question_yes a b w : matches_atom G a w -> matches_element G (Element a (Some (Question, b))) w
with matches_atom (G : list rule) : atom -> list str -> Prop :=
| matches_token name : matches_atom G (TokenRef name) [name]
| matches_literal l : matches_atom G (StringLiteral l) [l]
| matches_rule name alts alt w : ParserRule name alts ∈ G -> alt ∈ alts -> matches_alternative G alt w ->
    matches_atom G (RuleRef name) w
| matches_group alts alt w : alt ∈ alts -> matches_alternative G alt w -> matches_atom G (Group alts) w
with matches_alternative (G : list rule) : alternative -> list str -> Prop :=
| matches_epsilon : matches_alternative G Epsilon []
| matches_sequence es w : matches_elements G es w -> matches_alternative G (Sequence es) w
with matches_elements (G : list rule) : list element -> list str -> Prop :=
| matches_nil : matches_elements G [] []
| matches_cons e es w1 w2 : matches_element G e w1 -> matches_elements G es w2 -> matches_elements G (e :: es) (w1 ++ w2).

(** [occurs x G]: the element x occurs somewhere (at any depth) in a parser rule of G. *)
Inductive within_element (x : element) : element -> Prop :=
| within_self : within_element x x
| within_group alts alt e s : alt ∈ alts -> within_alternative x alt -> e = Element (Group alts) s -> within_element x e
with within_alternative (x : element) : alternative -> Prop :=
| within_sequence es e : e ∈ es -> within_element x e -> within_alternative x (Sequence es).
Definition occurs (x : element) (G : list rule) : Prop :=
  exists name alts alt, ParserRule name alts ∈ G /\ alt ∈ alts /\ within_alternative x alt.

Definition parser_rule_names (G : list rule) : list str :=
  omap (fun r => match r with ParserRule n _ => Some n | LexerRule _ _ => None end) G.
Definition lexer_rule_names (G : list rule) : list str :=
  omap (fun r => match r with LexerRule n _ => Some n | ParserRule _ _ => None end) G.

(** Token names, rule names and string literals are kept apart (in the grammar language by their first
    character), rules are not called _START or _STOP, and regex literals are enclosed in slashes. *)
Definition terminal_names (G : list rule) : list str := lit "_START" :: lit "_STOP" :: lexer_rule_names G.
Definition proper (G : list rule) : Prop :=
  (forall n, n ∈ parser_rule_names G -> n ∉ terminal_names G) /\
  (forall l s, occurs (Element (StringLiteral l) s) G -> l ∉ terminal_names G) /\
  (forall n r, LexerRule n r ∈ G -> exists body, r = lit "/" ++ body ++ lit "/").

(** Every reference is defined (_START and _STOP always are), and there is no string literal. *)
Definition references_defined (G : list rule) : Prop :=
  (forall n s, occurs (Element (TokenRef n) s) G -> n ∈ terminal_names G) /\
  (forall n s, occurs (Element (RuleRef n) s) G -> n ∈ parser_rule_names G) /\
  (forall l s, ~ occurs (Element (StringLiteral l) s) G).

(** Under each suffix operator, no token has the number of a rule or of a generated nonterminal. *)
Definition no_collision (v : vocabulary) (G : list rule) : Prop :=
  forall k b n t, occurs (Element (TokenRef n) (Some (k, b))) G -> get_terminal_id_by_name v n = Some t ->
    (forall m b', occurs (Element (RuleRef m) (Some (k, b'))) G -> get_nonterminal_id_by_name v m <> Some t) /\
    (forall alts b', occurs (Element (Group alts) (Some (k, b'))) G ->
       is_nonterminal_id v t = true -> is_Some (get_nonterminal_name_by_id v t)).
