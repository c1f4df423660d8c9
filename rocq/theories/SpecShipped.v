(** SpecShipped.v -- the concrete syntax of the grammar language: which token sequences (types numbered as in
    v1/syntaxis_lexer.rs:24-38, and texts) write down a grammar; and renumbering of the tokens of a tree. *)
From Verif Require Export SpecEbnf SpecRegex.

Definition V1_RULE_REF := 2.
Definition V1_TOKEN_REF := 3.
Definition V1_COLON := 4.
Definition V1_SEMI := 5.
Definition V1_OR := 6.
Definition V1_EPSILON := 7.
Definition V1_STAR := 8.
Definition V1_PLUS := 9.
Definition V1_QUESTION := 10.
Definition V1_LPAREN := 11.
Definition V1_RPAREN := 12.
Definition V1_STRING_LITERAL := 13.
Definition V1_REGULAR_LITERAL := 14.

(** The rules written in the comment of main.rs:45-66.  The texts of punctuation tokens are left open here;
    [written] (SpecRegex.v) restricts them to the admissible ones. *)
Definition v1_suffix_type (s : SpecEbnf.suffix) : nat :=
  match s with Star => V1_STAR | Plus => V1_PLUS | Question => V1_QUESTION end.
Inductive suffix_tokens : option (SpecEbnf.suffix * bool) -> list (nat * str) -> Prop :=
| suffix_tokens_none : suffix_tokens None []
| suffix_tokens_greedy s x : suffix_tokens (Some (s, false)) [(v1_suffix_type s, x)]
| suffix_tokens_lazy s x y : suffix_tokens (Some (s, true)) [(v1_suffix_type s, x); (V1_QUESTION, y)].
Inductive element_tokens : element -> list (nat * str) -> Prop :=
| element_tokens_intro a s ts ss : atom_tokens a ts -> suffix_tokens s ss -> element_tokens (Element a s) (ts ++ ss)
with atom_tokens : atom -> list (nat * str) -> Prop :=
| atom_tokens_token n : atom_tokens (TokenRef n) [(V1_TOKEN_REF, n)]
| atom_tokens_literal l : atom_tokens (StringLiteral l) [(V1_STRING_LITERAL, l)]
| atom_tokens_rule n : atom_tokens (RuleRef n) [(V1_RULE_REF, n)]
| atom_tokens_group alts x ts y : alternatives_tokens alts ts ->
    atom_tokens (Group alts) ((V1_LPAREN, x) :: ts ++ [(V1_RPAREN, y)])
with alternatives_tokens : list alternative -> list (nat * str) -> Prop :=
| alternatives_tokens_one a ts : alternative_tokens a ts -> alternatives_tokens [a] ts
| alternatives_tokens_more a ts x alts ts' : alternative_tokens a ts -> alternatives_tokens alts ts' ->
    alternatives_tokens (a :: alts) (ts ++ (V1_OR, x) :: ts')
with alternative_tokens : alternative -> list (nat * str) -> Prop :=
| alternative_tokens_epsilon x : alternative_tokens Epsilon [(V1_EPSILON, x)]
| alternative_tokens_sequence es ts : elements_tokens es ts -> alternative_tokens (Sequence es) ts
with elements_tokens : list element -> list (nat * str) -> Prop :=
| elements_tokens_one e ts : element_tokens e ts -> elements_tokens [e] ts
| elements_tokens_more e ts es ts' : element_tokens e ts -> elements_tokens es ts' ->
    elements_tokens (e :: es) (ts ++ ts').
Inductive rule_tokens : rule -> list (nat * str) -> Prop :=
| rule_tokens_parser name alts x ts y : alternatives_tokens alts ts ->
    rule_tokens (ParserRule name alts) ((V1_RULE_REF, name) :: (V1_COLON, x) :: ts ++ [(V1_SEMI, y)])
| rule_tokens_lexer name regex x y :
    rule_tokens (LexerRule name regex) [(V1_TOKEN_REF, name); (V1_COLON, x); (V1_REGULAR_LITERAL, regex); (V1_SEMI, y)].
Definition grammar_tokens (G : list rule) (ts : list (nat * str)) : Prop :=
  exists tss, Forall2 rule_tokens G tss /\ ts = concat tss.

(** The same tree with its token types changed by [f]. *)
Definition retype (f : nat -> nat) (t : token) : token :=
  {| token_type := f (token_type t); token_name := token_name t; start := start t; stop := stop t;
     channel := channel t; text := text t; token_index := token_index t;
     char_start_index := char_start_index t; char_stop_index := char_stop_index t |}.
Fixpoint retype_ast (f : nat -> nat) (a : ast) : ast :=
  match a with
  | Terminal t => Terminal (retype f t)
  | Rule r => Rule (retype_rule f r)
  | Error t => Error (retype f t)
  end
with retype_rule (f : nat -> nat) (r : rule_ctx) : rule_ctx :=
  match r with RuleCtx n cs i => RuleCtx n (map (retype_ast f) cs) i end.

(** From the numbers of the generated lexer to those of the hand-written one (syntaxis/syntaxis_lexer.rs:28-44);
    everything else goes to unused numbers. *)
Definition hand_type (ty : nat) : nat :=
  match ty with
  | 2 => RULE_REF | 3 => TOKEN_REF | 4 => COLON | 5 => SEMI | 6 => OR | 7 => EPSILON | 8 => STAR | 9 => PLUS
  | 10 => QUESTION | 11 => LPAREN | 12 => RPAREN | 13 => STRING_LITERAL | 14 => REGULAR_LITERAL
  | n => 100 + n
  end.
