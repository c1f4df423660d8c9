(** ExampleTree.v -- a tree for every grammar, used by the examples. *)
From Verif Require Export SpecEbnf.

Definition tk (ty : nat) (txt : str) : ast := Terminal (token_new ty [] txt).
Fixpoint separate (sep : ast) (l : list ast) : list ast :=
  match l with [] => [] | [x] => [x] | x :: l' => x :: sep :: separate sep l' end.
Definition build_suffix (s : option (suffix * bool)) : list ast :=
  match s with
  | None => []
  | Some (k, b) => [Rule (RuleCtx [] (tk (suffix_type k) [] :: if b then [tk QUESTION []] else []) EBNF_SUFFIX)]
  end.
Fixpoint build_element (e : element) : rule_ctx :=
  match e with Element a s => RuleCtx [] (build_atom a ++ build_suffix s) ELEMENT end
with build_atom (a : atom) : list ast :=
  match a with
  | TokenRef n => [tk TOKEN_REF n]
  | StringLiteral l => [tk STRING_LITERAL l]
  | RuleRef n => [tk RULE_REF n]
  | Group alts => [tk LPAREN []; Rule (RuleCtx [] (separate (tk OR []) (map (fun a => Rule (build_alternative a)) alts)) BLOCK); tk RPAREN []]
  end
with build_alternative (a : alternative) : rule_ctx :=
  match a with
  | Epsilon => RuleCtx [] [Rule (RuleCtx [] [tk EPSILON []] EPSILON_RULE)] ALTERNATIVE
  | Sequence es => RuleCtx [] (map (fun e => Rule (build_element e)) es) ALTERNATIVE
  end.
Definition build_rule (r : rule) : rule_ctx :=
  match r with
  | ParserRule n alts => RuleCtx [] [tk RULE_REF n; tk COLON [];
      Rule (RuleCtx [] (separate (tk OR []) (map (fun a => Rule (build_alternative a)) alts)) BLOCK); tk SEMI []] PARSER_RULE
  | LexerRule n r => RuleCtx [] [tk TOKEN_REF n; tk COLON []; Rule (RuleCtx [] [tk REGULAR_LITERAL r] REGULAR); tk SEMI []] LEXER_RULE
  end.
Definition build_grammar (G : list rule) : rule_ctx := RuleCtx [] (map Rule (map build_rule G)) RULE_LIST.

(** Groups have at least one alternative. *)
Fixpoint wf_element (e : element) : bool := match e with Element a _ => wf_atom a end
with wf_atom (a : atom) : bool := match a with Group alts => negb (length alts =? 0) && forallb wf_alternative alts | _ => true end
with wf_alternative (a : alternative) : bool := match a with Epsilon => true | Sequence es => forallb wf_element es end.
Definition wf_rule (r : rule) : bool :=
  match r with ParserRule _ alts => negb (length alts =? 0) && forallb wf_alternative alts | LexerRule _ _ => true end.

Lemma any_tk ty txt : any_tok ty (tk ty txt).
Proof. by eexists. Qed.
Lemma tok_tk ty txt : tok ty txt (tk ty txt).
Proof. by eexists. Qed.
Lemma build_suffix_tree s : suffix_tree s (build_suffix s).
Proof. destruct s as [[k []]|]; simpl; constructor; apply any_tk. Qed.

Lemma build_alternatives alts (H : forall a, a ∈ alts -> alternative_tree a (build_alternative a)) : alts <> [] ->
  alternatives_trees alts (separate (tk OR []) (map (fun a => Rule (build_alternative a)) alts)).
Proof.
  induction alts as [|a [|a' alts] IH]; intros Hne; [done|..].
  - constructor. apply H, elem_of_list_here.
  - change (alternatives_trees (a :: a' :: alts) (Rule (build_alternative a) :: tk OR [] :: separate (tk OR []) (map (fun a => Rule (build_alternative a)) (a' :: alts)))).
    constructor; [apply H, elem_of_list_here|apply any_tk|]. apply IH; [|done]. intros x Hx. apply H. by apply elem_of_list_further.
Qed.
Lemma build_elements es (H : forall e, e ∈ es -> element_tree e (build_element e)) : elements_trees es (map (fun e => Rule (build_element e)) es).
Proof.
  induction es as [|e es IH]; [constructor|]. simpl. constructor; [apply H, elem_of_list_here|]. apply IH. intros x Hx. apply H. by apply elem_of_list_further.
Qed.
Fixpoint build_element_tree e : wf_element e = true -> element_tree e (build_element e)
with build_atom_tree a : wf_atom a = true -> atom_trees a (build_atom a)
with build_alternative_tree a : wf_alternative a = true -> alternative_tree a (build_alternative a).
Proof.
  - destruct e as [a s]. simpl. intros H. constructor; [by apply build_atom_tree|apply build_suffix_tree].
  - destruct a as [n|l|n|alts]; simpl; [intros _; constructor; apply tok_tk..|].
    intros [Hne Hall]%andb_prop. constructor; [apply any_tk..|]. constructor. apply build_alternatives; [|by destruct alts].
    clear Hne. induction alts as [|a alts IH]; intros x Hx; [by apply elem_of_nil in Hx|]. simpl in Hall. apply andb_prop in Hall as [H1 H2].
    apply elem_of_cons in Hx as [->|Hx]; [by apply build_alternative_tree|by apply IH].
  - destruct a as [|es]; simpl; [intros _; constructor; apply any_tk|].
    intros Hall. constructor. apply build_elements.
    induction es as [|e es IH]; intros x Hx; [by apply elem_of_nil in Hx|]. simpl in Hall. apply andb_prop in Hall as [H1 H2].
    apply elem_of_cons in Hx as [->|Hx]; [by apply build_element_tree|by apply IH].
Qed.
Lemma build_grammar_tree G : forallb wf_rule G = true -> grammar_tree G (build_grammar G).
Proof.
  intros H. exists [], (map build_rule G). split; [done|]. induction G as [|g G IH]; [constructor|]. simpl in H. apply andb_prop in H as [Hg H].
  constructor; [|by apply IH]. destruct g as [n alts|n r]; simpl in *; [|constructor; (apply tok_tk || apply any_tk)].
  apply andb_prop in Hg as [Hne Hall]. constructor; [apply tok_tk|apply any_tk| |apply any_tk]. constructor. apply build_alternatives; [|by destruct alts].
  clear Hne H IH. intros a Ha. apply build_alternative_tree. rewrite forallb_forall in Hall. apply Hall. by apply elem_of_list_In.
Qed.

(** s: (ID s)* t? | epsilon;  t: ID+ | NUM;  ID: /[a-z]+/;  NUM: /[0-9]\/[0-9]/;  ID: /x/; *)
Definition ex_grammar : list rule :=
  [ParserRule (lit "s") [Sequence [Element (Group [Sequence [Element (TokenRef (lit "ID")) None; Element (RuleRef (lit "s")) None]]) (Some (Star, false));
                                   Element (RuleRef (lit "t")) (Some (Question, true))]; Epsilon];
   ParserRule (lit "t") [Sequence [Element (TokenRef (lit "ID")) (Some (Plus, false))]; Sequence [Element (TokenRef (lit "NUM")) None]];
   LexerRule (lit "ID") (lit "/[a-z]+/"); LexerRule (lit "NUM") (lit "/[0-9]\/[0-9]/"); LexerRule (lit "ID") (lit "/x/")].
Definition ex_tree : rule_ctx := build_grammar ex_grammar.
