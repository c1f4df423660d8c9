(** SpecTreeDisplay.v -- what a displayed tree or token should show. *)
From Verif Require Export Ast TokenDisplay.

(** What is left of a tree when only names and nesting are kept. *)
Inductive shape := Leaf (name : str) | Node (name : str) (below : list shape).
Fixpoint shape_of (a : ast) : shape :=
  match a with
  | Terminal t => Leaf (token_name t)
  | Error t => Leaf (token_name t)
  | Rule r => rule_shape r
  end
with rule_shape (r : rule_ctx) : shape :=
  match r with RuleCtx n cs _ => Node n (map shape_of cs) end.

(** Names without blank and parentheses. *)
Definition plain (s : str) : Prop := Forall (fun c => c <> 32%N /\ c <> 40%N /\ c <> 41%N) s.
Inductive plain_names : shape -> Prop :=
| plain_leaf n : plain n -> plain_names (Leaf n)
| plain_node n l : plain n -> Forall plain_names l -> plain_names (Node n l).

(** The leaf one reaches from r by always following the first (last) child. *)
Inductive first_leaf : rule_ctx -> ast -> Prop :=
| first_leaf_terminal n t cs i : first_leaf (RuleCtx n (Terminal t :: cs) i) (Terminal t)
| first_leaf_error n t cs i : first_leaf (RuleCtx n (Error t :: cs) i) (Error t)
| first_leaf_rule n r cs i a : first_leaf r a -> first_leaf (RuleCtx n (Rule r :: cs) i) a.
Inductive last_leaf : rule_ctx -> ast -> Prop :=
| last_leaf_terminal n t cs i : last_leaf (RuleCtx n (cs ++ [Terminal t]) i) (Terminal t)
| last_leaf_error n t cs i : last_leaf (RuleCtx n (cs ++ [Error t]) i) (Error t)
| last_leaf_rule n r cs i a : last_leaf r a -> last_leaf (RuleCtx n (cs ++ [Rule r]) i) a.

(** Two tokens that agree except for the channel, which is not displayed. *)
Definition same_but_channel (t u : token) : Prop :=
  token_type t = token_type u /\ token_name t = token_name u /\ start t = start u /\ stop t = stop u /\
  text t = text u /\ token_index t = token_index u /\ char_start_index t = char_start_index u /\ char_stop_index t = char_stop_index u.
