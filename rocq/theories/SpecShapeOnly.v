(** SpecShapeOnly.v -- trees of the same shape. *)
From Verif Require Export Crash.

(** Trees with the same structure and the same rule numbers, whose names are related by [N] and whose tokens by [R]. *)
Inductive ast_alike (N : nat -> str -> str -> Prop) (R : token -> token -> Prop) : ast -> ast -> Prop :=
| alike_terminal t t' : R t t' -> ast_alike N R (Terminal t) (Terminal t')
| alike_error t t' : R t t' -> ast_alike N R (Error t) (Error t')
| alike_rule r r' : ctx_alike N R r r' -> ast_alike N R (Rule r) (Rule r')
with ctx_alike (N : nat -> str -> str -> Prop) (R : token -> token -> Prop) : rule_ctx -> rule_ctx -> Prop :=
| alike_ctx n n' cs cs' i : N i n n' -> asts_alike N R cs cs' -> ctx_alike N R (RuleCtx n cs i) (RuleCtx n' cs' i)
with asts_alike (N : nat -> str -> str -> Prop) (R : token -> token -> Prop) : list ast -> list ast -> Prop :=
| alike_nil : asts_alike N R [] []
| alike_cons a a' l l' : ast_alike N R a a' -> asts_alike N R l l' -> asts_alike N R (a :: l) (a' :: l').

(** Vocabularies that give names to the same rules; the names themselves may differ. *)
Definition named_alike (voc voc' : vocabulary) : Prop :=
  forall i, get_nonterminal_name_by_id voc i = None <-> get_nonterminal_name_by_id voc' i = None.
(** The names in the tree: those of the vocabularies. *)
Definition own_names (voc voc' : vocabulary) (i : nat) (n n' : str) : Prop :=
  n = get_nonterminal_name_with_default voc i /\ n' = get_nonterminal_name_with_default voc' i.

(** A tree with another token at each leaf. *)
Fixpoint map_ast (f : token -> token) (a : ast) : ast :=
  match a with
  | Terminal t => Terminal (f t)
  | Error t => Error (f t)
  | Rule r => Rule (map_ctx f r)
  end
with map_ctx (f : token -> token) (r : rule_ctx) : rule_ctx :=
  let '(RuleCtx n cs i) := r in RuleCtx n (map (map_ast f) cs) i.
