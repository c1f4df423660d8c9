(** SpecGrammar.v -- specification: context-free derivations, FIRST/FOLLOW, LL(1), parse trees.
    Textbook definitions; nothing here refers to the algorithms of the model, only to its data
    types (items, productions, tokens, syntax trees). *)
From Verif Require Export Base Ast Vocab Grammar.

(** One rewriting step: replace one occurrence of a nonterminal by a right-hand side. *)
Inductive rewrites (P : gset production) : list item -> list item -> Prop :=
| rewrites_intro α p β :
    p ∈ P -> rewrites P (α ++ NT (left p) :: β) (α ++ right p ++ β).

(** α ⇒* β *)
Definition derives (P : gset production) : list item -> list item -> Prop := rtc (rewrites P).

(** α derives the empty string. *)
Definition nullable (P : gset production) (α : list item) : Prop := derives P α [].

(** t begins a sentential form derivable from α: the textbook FIRST(α). *)
Definition starts (P : gset production) (α : list item) (t : nat) : Prop :=
  exists β, derives P α (T t :: β).

(** t can stand directly behind A in a sentential form derived from X. *)
Definition follows_in (P : gset production) (X A t : nat) : Prop :=
  exists α β, derives P [NT X] (α ++ NT A :: T t :: β).

(** A can end a sentential form derived from X. *)
Definition ends_in (P : gset production) (X A : nat) : Prop :=
  exists α, derives P [NT X] (α ++ [NT A]).

(** What follow_set computes: t follows A in a form derived from *some* nonterminal, or t is the
    end marker (token 1) and A can end a form derived from the start rule (nonterminal 0). *)
Definition follows (P : gset production) (A t : nat) : Prop :=
  (exists X, follows_in P X A t) \/ (t = 1 /\ ends_in P 0 A).

(** The textbook FOLLOW(A): contexts derived from the start rule only. *)
Definition textbook_follow (P : gset production) (A t : nat) : Prop :=
  follows_in P 0 A t \/ (t = 1 /\ ends_in P 0 A).

(** A occurs in a sentential form of the start rule. *)
Definition reachable (P : gset production) (A : nat) : Prop :=
  exists α β, derives P [NT 0] (α ++ NT A :: β).

(** t predicts production p. *)
Definition predicts (P : gset production) (p : production) (t : nat) : Prop :=
  starts P (right p) t \/ (nullable P (right p) /\ follows P (left p) t).

(** LL(1): no token predicts two different productions of one nonterminal. *)
Definition ll1 (P : gset production) : Prop :=
  forall p q t, p ∈ P -> q ∈ P -> left p = left q -> predicts P p t -> predicts P q t -> p = q.

(** All nonterminals of the productions are among [nts]. *)
Definition closed (nts : gset nat) (P : gset production) : Prop :=
  forall p, p ∈ P -> left p ∈ nts /\ forall b, NT b ∈ right p -> b ∈ nts.

(** The tree node(s) contributed by an occurrence of nonterminal A whose subtree has children cs:
    a named rule is a node, an unnamed (generated) one is flattened into its parent. *)
Definition node (v : vocabulary) (A : nat) (cs : list ast) : list ast :=
  match get_nonterminal_name_by_id v A with
  | Some n => [Rule (RuleCtx n cs A)]
  | None => cs
  end.

(** [parses P v α w cs]: the symbol string α derives the token sequence w with (flattened) parse
    forest cs. *)
Inductive parses (P : gset production) (v : vocabulary) : list item -> list token -> list ast -> Prop :=
| parses_nil : parses P v [] [] []
| parses_T t α tok w cs :
    token_type tok = t -> parses P v α w cs ->
    parses P v (T t :: α) (tok :: w) (Terminal tok :: cs)
| parses_NT p α w1 w2 cs1 cs2 :
    p ∈ P -> parses P v (right p) w1 cs1 -> parses P v α w2 cs2 ->
    parses P v (NT (left p) :: α) (w1 ++ w2) (node v (left p) cs1 ++ cs2).

(** The terminal string of a token sequence. *)
Definition types (w : list token) : list item := map (fun t => T (token_type t)) w.

(** A token sequence is a sentence of nonterminal A. *)
Definition sentence (P : gset production) (A : nat) (w : list token) : Prop :=
  derives P [NT A] (types w).

(** The tokens at the leaves of a tree, left to right. *)
Fixpoint ast_leaves (a : ast) : list token :=
  match a with
  | Terminal t => [t]
  | Error t => [t]
  | Rule r => rule_leaves r
  end
with rule_leaves (r : rule_ctx) : list token :=
  match r with
  | RuleCtx _ cs _ =>
      (fix go (cs : list ast) : list token :=
         match cs with [] => [] | c :: cs' => ast_leaves c ++ go cs' end) cs
  end.
Fixpoint leaves (cs : list ast) : list token :=
  match cs with [] => [] | c :: cs' => ast_leaves c ++ leaves cs' end.

(** Inner nodes are named nonterminals carrying their name; there is no error node. *)
Inductive named_tree (v : vocabulary) : ast -> Prop :=
| named_terminal t : named_tree v (Terminal t)
| named_rule n cs i :
    get_nonterminal_name_by_id v i = Some n -> Forall (named_tree v) cs ->
    named_tree v (Rule (RuleCtx n cs i)).

(** The tokens i, .., j-1. *)
Definition segment (toks : list token) (i j : nat) : list token := take (j - i) (drop i toks).
