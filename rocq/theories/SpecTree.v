(** SpecTree.v -- specification vocabulary for trees, walking and visiting. *)
From Verif Require Export SpecGrammar SpecLexer Walker.

(** ** Accessors: the direct children of one kind. *)
Definition is_terminal_child (ty : nat) (c : ast) : Prop := exists t, c = Terminal t /\ token_type t = ty.
Definition is_error_child (ty : nat) (c : ast) : Prop := exists t, c = Error t /\ token_type t = ty.
Definition is_rule_child (ty : nat) (c : ast) : Prop := exists r, c = Rule r /\ rule_index r = ty.
Global Instance is_terminal_child_dec ty c : Decision (is_terminal_child ty c).
Proof.
  refine (match c with Terminal t => cast_if (decide (token_type t = ty)) | _ => Specif.right _ end).
  - by exists t.
  - by intros (? & [= <-] & ?).
  - by intros (? & ? & ?).
  - by intros (? & ? & ?).
Defined.
Global Instance is_error_child_dec ty c : Decision (is_error_child ty c).
Proof.
  refine (match c with Error t => cast_if (decide (token_type t = ty)) | _ => Specif.right _ end).
  - by intros (? & ? & ?).
  - by intros (? & ? & ?).
  - by exists t.
  - by intros (? & [= <-] & ?).
Defined.
Global Instance is_rule_child_dec ty c : Decision (is_rule_child ty c).
Proof.
  refine (match c with Rule r => cast_if (decide (rule_index r = ty)) | _ => Specif.right _ end).
  - by intros (? & ? & ?).
  - by exists r.
  - by intros (? & [= <-] & ?).
  - by intros (? & ? & ?).
Defined.

(** ** Nodes *)
(** [node_of n r]: the rule node n occurs in the tree r (or is r). *)
Inductive node_of : rule_ctx -> rule_ctx -> Prop :=
| node_self r : node_of r r
| node_child n c r : Rule c ∈ children r -> node_of n c -> node_of n r.

(** Following first (last) children from r down, one arrives at a token, not at an empty node. *)
Inductive left_edge : rule_ctx -> Prop :=
| left_terminal n t cs i : left_edge (RuleCtx n (Terminal t :: cs) i)
| left_error n t cs i : left_edge (RuleCtx n (Error t :: cs) i)
| left_rule n r cs i : left_edge r -> left_edge (RuleCtx n (Rule r :: cs) i).
Inductive right_edge : rule_ctx -> Prop :=
| right_terminal n t cs i : right_edge (RuleCtx n (cs ++ [Terminal t]) i)
| right_error n t cs i : right_edge (RuleCtx n (cs ++ [Error t]) i)
| right_rule n r cs i : right_edge r -> right_edge (RuleCtx n (cs ++ [Rule r]) i).

(** ** Walking: the calls a listener receives. *)
Inductive call :=
| EnterEvery (r : rule_ctx) | ExitEvery (r : rule_ctx)
| EnterRule (handler : nat) (r : rule_ctx) | ExitRule (handler : nat) (r : rule_ctx)
| EnterTerminal (t : token) | ExitTerminal (t : token)
| EnterError (t : token) | ExitError (t : token).

(** The listener that writes down its calls; handler number k is the k-th of rule_list,
    parser_rule, block, alternative, epsilon, element, ebnf_suffix, lexer_rule, regular. *)
Definition recorder : listener (list call) :=
  let enter k := fun r s => s ++ [EnterRule k r] in
  let exit k := fun r s => s ++ [ExitRule k r] in
  Listener (list call)
    (enter 0) (exit 0) (enter 1) (exit 1) (enter 2) (exit 2) (enter 3) (exit 3) (enter 4) (exit 4)
    (enter 5) (exit 5) (enter 6) (exit 6) (enter 7) (exit 7) (enter 8) (exit 8)
    (fun r s => s ++ [EnterEvery r]) (fun r s => s ++ [ExitEvery r])
    (fun t s => s ++ [EnterTerminal t]) (fun t s => s ++ [ExitTerminal t])
    (fun t s => s ++ [EnterError t]) (fun t s => s ++ [ExitError t]).

(** Carrying out a call on a listener. *)
Definition enter_handler {S} (l : listener S) (k : nat) : rule_ctx -> S -> S :=
  match k with
  | 0 => enter_rule_list l | 1 => enter_parser_rule l | 2 => enter_block l | 3 => enter_alternative l
  | 4 => enter_epsilon l | 5 => enter_element l | 6 => enter_ebnf_suffix l | 7 => enter_lexer_rule l
  | _ => enter_regular l
  end.
Definition exit_handler {S} (l : listener S) (k : nat) : rule_ctx -> S -> S :=
  match k with
  | 0 => exit_rule_list l | 1 => exit_parser_rule l | 2 => exit_block l | 3 => exit_alternative l
  | 4 => exit_epsilon l | 5 => exit_element l | 6 => exit_ebnf_suffix l | 7 => exit_lexer_rule l
  | _ => exit_regular l
  end.
Definition perform {S} (l : listener S) (s : S) (c : call) : S :=
  match c with
  | EnterEvery r => enter_every_rule l r s
  | ExitEvery r => exit_every_rule l r s
  | EnterRule k r => enter_handler l k r s
  | ExitRule k r => exit_handler l k r s
  | EnterTerminal t => enter_terminal l t s
  | ExitTerminal t => exit_terminal l t s
  | EnterError t => enter_errornode l t s
  | ExitError t => exit_errornode l t s
  end.

(** [nested calls r]: the call sequence is that of tree r, properly nested. *)
Inductive nested_node : rule_ctx -> list call -> Prop :=
| nested_known r body :
    rule_index r <= 8 -> nested_children (children r) body ->
    nested_node r ([EnterEvery r; EnterRule (rule_index r) r] ++ body ++ [ExitRule (rule_index r) r; ExitEvery r])
| nested_unknown r body :
    8 < rule_index r -> nested_children (children r) body ->
    nested_node r ([EnterEvery r] ++ body ++ [ExitEvery r])
with nested_children : list ast -> list call -> Prop :=
| nested_nil : nested_children [] []
| nested_terminal t cs calls :
    nested_children cs calls -> nested_children (Terminal t :: cs) (EnterTerminal t :: ExitTerminal t :: calls)
| nested_error t cs calls :
    nested_children cs calls -> nested_children (Error t :: cs) (EnterError t :: ExitError t :: calls)
| nested_rule r cs calls1 calls2 :
    nested_node r calls1 -> nested_children cs calls2 -> nested_children (Rule r :: cs) (calls1 ++ calls2).

(** The rule nodes of a tree in document order and in closing order. *)
Fixpoint opening_order (r : rule_ctx) : list rule_ctx :=
  match r with
  | RuleCtx n cs i =>
      RuleCtx n cs i ::
      (fix go (cs : list ast) : list rule_ctx :=
         match cs with
         | [] => []
         | Rule c :: cs' => opening_order c ++ go cs'
         | _ :: cs' => go cs'
         end) cs
  end.
Fixpoint closing_order (r : rule_ctx) : list rule_ctx :=
  match r with
  | RuleCtx n cs i =>
      (fix go (cs : list ast) : list rule_ctx :=
         match cs with
         | [] => []
         | Rule c :: cs' => closing_order c ++ go cs'
         | _ :: cs' => go cs'
         end) cs ++ [RuleCtx n cs i]
  end.

(** The leaves with their kind, in document order. *)
Fixpoint leaf_nodes (r : rule_ctx) : list ast :=
  match r with
  | RuleCtx n cs i =>
      (fix go (cs : list ast) : list ast :=
         match cs with
         | [] => []
         | Rule c :: cs' => leaf_nodes c ++ go cs'
         | c :: cs' => c :: go cs'
         end) cs
  end.

(** [x] is the text of [input] covered by the node n: from the start of its first token to the end
    of its last token; empty if it has no token. *)
Definition covers (input : str) (n : rule_ctx) (x : str) : Prop :=
  (rule_leaves n = [] /\ x = []) \/
  exists a b, head (rule_leaves n) = Some a /\ last (rule_leaves n) = Some b /\
    slice_bytes (char_start_index a) (char_stop_index b) input = Some x.

(** ** Visiting *)
Definition no_overrides {S R} (v : visitor S R) : Prop := forall i, v_override v i = None.
(** What a visitor does at a leaf. *)
Definition visit_leaf {S R} (v : visitor S R) (s : S) (a : ast) : res S :=
  match a with
  | Terminal t => let! (_, s') := v_terminal v t s in Ret s'
  | Error t => let! (_, s') := v_errornode v t s in Ret s'
  | Rule _ => Ret s
  end.
(** The result of folding the results of the given children. *)
Definition folded {R} (agg : R -> R -> R) (d : R) (val : ast -> R) (cs : list ast) : R :=
  fold_left agg (map val cs) d.
