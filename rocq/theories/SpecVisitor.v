(** SpecVisitor.v -- words for the statements about the collecting visitors. *)
From Verif Require Export Visitors SpecTree.

(** The outermost nodes, in document order, below (or at) a node whose rule index satisfies p. *)
Fixpoint outermost (p : nat -> bool) (r : rule_ctx) : list rule_ctx :=
  match r with
  | RuleCtx _ cs i =>
      if p i then [r] else
      (fix go (cs : list ast) : list rule_ctx :=
         match cs with
         | [] => []
         | Rule c :: cs' => outermost p c ++ go cs'
         | _ :: cs' => go cs'
         end) cs
  end.
Definition outermost_below (p : nat -> bool) (r : rule_ctx) : list rule_ctx :=
  concat (map (fun a => match a with Rule c => outermost p c | _ => [] end) (children r)).

(** [unescaped s s']: s' is s with every \/ replaced by /, reading from left to right. *)
Inductive unescaped : str -> str -> Prop :=
| unescaped_nil : unescaped [] []
| unescaped_slash s s' : unescaped s s' -> unescaped (lit "\/" ++ s) (lit "/" ++ s')
| unescaped_other c s s' : (forall s0, c :: s <> lit "\/" ++ s0) -> unescaped s s' -> unescaped (c :: s) (c :: s').

(** The literal r is body between two one-byte characters. *)
Definition delimited (r body : str) : Prop := exists a b, r = a :: body ++ [b] /\ utf8_len a = 1 /\ utf8_len b = 1.

(** The leaves of a given token type, and the nodes with a given rule index, directly below n. *)
Definition leaves_of (ty : nat) (n : rule_ctx) : list token :=
  omap (fun a => match a with Terminal t => if token_type t =? ty then Some t else None | _ => None end) (children n).
Definition nodes_of (i : nat) (n : rule_ctx) : list rule_ctx :=
  omap (fun a => match a with Rule c => if rule_index c =? i then Some c else None | _ => None end) (children n).

(** [defines n name regular]: the first token_ref of n and the regular literal of its first regular have these texts. *)
Definition defines (n : rule_ctx) (name regular : str) : Prop :=
  exists t reg rl, head (leaves_of TOKEN_REF n) = Some t /\ head (nodes_of REGULAR n) = Some reg /\
    head (leaves_of REGULAR_LITERAL reg) = Some rl /\ text t = name /\ text rl = regular.

(** The (name, regular literal) pairs of the nodes, those with a literal of at least two bytes. *)
Definition definition_of (n : rule_ctx) : option (str * str) :=
  match leaves_of TOKEN_REF n, nodes_of REGULAR n with
  | t :: _, reg :: _ =>
      match leaves_of REGULAR_LITERAL reg with
      | rl :: _ => if blen (text rl) <? 2 then None else Some (text t, text rl)
      | [] => None
      end
  | _, _ => None
  end.

(** The elements of l whose key is neither among [seen] nor the key of an earlier element. *)
Fixpoint first_occurrences {A} (key : A -> str) (seen : list str) (l : list A) : list A :=
  match l with
  | [] => []
  | x :: l' => if bool_decide (key x ∈ seen) then first_occurrences key seen l'
               else x :: first_occurrences key (key x :: seen) l'
  end.

(** The texts of the string literals of a tree, in document order. *)
Definition literal_texts (r : rule_ctx) : list str :=
  omap (fun a => match a with Terminal t => if token_type t =? STRING_LITERAL then Some (text t) else None | _ => None end) (leaf_nodes r).

(** The regex that a regular literal stands for. *)
Definition regex_of (regular regex : str) : Prop :=
  exists body body', delimited regular body /\ unescaped body body' /\ regex = lit "^(" ++ body' ++ lit ")".

(** Parser and lexer rules. *)
Definition is_rule_index (i : nat) : bool := (i =? PARSER_RULE) || (i =? LEXER_RULE).
