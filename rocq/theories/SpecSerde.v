(** SpecSerde.v -- which JSON values describe which trees. *)
From Verif Require Export SerdeAst.

(** Member k of an object; Null when absent (or not an object). *)
Definition member (j : json) (k : str) (v : json) : Prop :=
  match j with
  | JObject fields =>
      (exists a b, fields = a ++ (k, v) :: b /\ forall x, (k, x) ∉ a) \/ (v = JNull /\ forall x, (k, x) ∉ fields)
  | _ => v = JNull
  end.

(** The token with this type, name and text, and zero everywhere else. *)
Definition bare_token (ty : nat) (name txt : str) : token := Token ty name (Position 0 0) (Position 0 0) 0 txt 0 0 0.

(** The token a leaf object describes. *)
Definition describes_token (j : json) (t : token) : Prop :=
  exists ty name txt, member j (lit "token_type") (JU64 ty) /\ member j (lit "token_name") (JString name) /\
    ((member j (lit "text") (JString txt)) \/
     ((forall s, ~ member j (lit "text") (JString s)) /\ txt = lit "<no text>")) /\
    t = bare_token ty name txt.

Inductive describes : json -> rule_ctx -> Prop :=
| describes_rule j cs i n kids :
    member j (lit "children") (JArray cs) -> member j (lit "rule_index") (JU64 i) ->
    member j (lit "rule_name") (JString n) -> describes_all cs kids ->
    describes j (RuleCtx n kids i)
with describes_all : list json -> list ast -> Prop :=
| describes_nil : describes_all [] []
| describes_leaf j t js kids :
    member j (lit "children") JNull -> describes_token j t -> describes_all js kids ->
    describes_all (j :: js) (Terminal t :: kids)
| describes_inner j r js kids :
    ~ member j (lit "children") JNull -> describes j r -> describes_all js kids ->
    describes_all (j :: js) (Rule r :: kids).

(** The JSON description of a tree in the format of the comment at serde_ast/mod.rs:8-10, and what it keeps
    of the tree: an error leaf becomes an ordinary leaf, positions become zero. *)
Definition token_json (t : token) : json :=
  JObject [(lit "token_type", JU64 (token_type t)); (lit "token_name", JString (token_name t));
           (lit "text", JString (text t))].
Fixpoint tree_json (r : rule_ctx) : json :=
  match r with
  | RuleCtx n cs i =>
      JObject [(lit "rule_index", JU64 i); (lit "rule_name", JString n);
        (lit "children", JArray ((fix go (cs : list ast) : list json :=
           match cs with
           | [] => []
           | Rule c :: cs' => tree_json c :: go cs'
           | Terminal t :: cs' => token_json t :: go cs'
           | Error t :: cs' => token_json t :: go cs'
           end) cs))]
  end.
Definition forget_position (t : token) : token := bare_token (token_type t) (token_name t) (text t).
Fixpoint forget (r : rule_ctx) : rule_ctx :=
  match r with
  | RuleCtx n cs i =>
      RuleCtx n ((fix go (cs : list ast) : list ast :=
           match cs with
           | [] => []
           | Rule c :: cs' => Rule (forget c) :: go cs'
           | Terminal t :: cs' => Terminal (forget_position t) :: go cs'
           | Error t :: cs' => Terminal (forget_position t) :: go cs'
           end) cs) i
  end.

(** Trees that the format can express need no forgetting: ordinary leaves without position. *)
Definition plain_token (t : token) : Prop := t = bare_token (token_type t) (token_name t) (text t).
Inductive plain_tree : ast -> Prop :=
| plain_terminal t : plain_token t -> plain_tree (Terminal t)
| plain_rule n cs i : Forall plain_tree cs -> plain_tree (Rule (RuleCtx n cs i)).
