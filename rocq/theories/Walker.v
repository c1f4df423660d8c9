(** Walker.v -- model of src/tool/syntaxis/syntaxis_walker.rs, syntaxis_listener.rs and
    syntaxis_visitor.rs *)
From Verif Require Export Base Ast.

(** Rule indices -- syntaxis_parser.rs:6-14 *)
Definition RULE_LIST := 0.
Definition PARSER_RULE := 1.
Definition BLOCK := 2.
Definition ALTERNATIVE := 3.
Definition EPSILON_RULE := 4.
Definition ELEMENT := 5.
Definition EBNF_SUFFIX := 6.
Definition LEXER_RULE := 7.
Definition REGULAR := 8.

(** trait SyntaxisListener -- syntaxis_listener.rs:6-40, 70-80: the handlers an implementation may override.
    [&mut self] is the state S; a handler may update it.  (enter/exit are modelled with their default bodies.) *)
Record listener (S : Type) := Listener {
  enter_rule_list : rule_ctx -> S -> S;    exit_rule_list : rule_ctx -> S -> S;
  enter_parser_rule : rule_ctx -> S -> S;  exit_parser_rule : rule_ctx -> S -> S;
  enter_block : rule_ctx -> S -> S;        exit_block : rule_ctx -> S -> S;
  enter_alternative : rule_ctx -> S -> S;  exit_alternative : rule_ctx -> S -> S;
  enter_epsilon : rule_ctx -> S -> S;      exit_epsilon : rule_ctx -> S -> S;
  enter_element : rule_ctx -> S -> S;      exit_element : rule_ctx -> S -> S;
  enter_ebnf_suffix : rule_ctx -> S -> S;  exit_ebnf_suffix : rule_ctx -> S -> S;
  enter_lexer_rule : rule_ctx -> S -> S;   exit_lexer_rule : rule_ctx -> S -> S;
  enter_regular : rule_ctx -> S -> S;      exit_regular : rule_ctx -> S -> S;
  enter_every_rule : rule_ctx -> S -> S;   exit_every_rule : rule_ctx -> S -> S;
  enter_terminal : token -> S -> S;        exit_terminal : token -> S -> S;
  enter_errornode : token -> S -> S;       exit_errornode : token -> S -> S;
}.
Arguments enter_rule_list {S}. Arguments exit_rule_list {S}.
Arguments enter_parser_rule {S}. Arguments exit_parser_rule {S}.
Arguments enter_block {S}. Arguments exit_block {S}.
Arguments enter_alternative {S}. Arguments exit_alternative {S}.
Arguments enter_epsilon {S}. Arguments exit_epsilon {S}.
Arguments enter_element {S}. Arguments exit_element {S}.
Arguments enter_ebnf_suffix {S}. Arguments exit_ebnf_suffix {S}.
Arguments enter_lexer_rule {S}. Arguments exit_lexer_rule {S}.
Arguments enter_regular {S}. Arguments exit_regular {S}.
Arguments enter_every_rule {S}. Arguments exit_every_rule {S}.
Arguments enter_terminal {S}. Arguments exit_terminal {S}.
Arguments enter_errornode {S}. Arguments exit_errornode {S}.

(** enter -- syntaxis_listener.rs:42-57 *)
Definition l_enter {S} (l : listener S) (ctx : rule_ctx) (s : S) : S :=
  match rule_index ctx with
  | 0 => enter_rule_list l ctx s
  | 1 => enter_parser_rule l ctx s
  | 2 => enter_block l ctx s
  | 3 => enter_alternative l ctx s
  | 4 => enter_epsilon l ctx s
  | 5 => enter_element l ctx s
  | 6 => enter_ebnf_suffix l ctx s
  | 7 => enter_lexer_rule l ctx s
  | 8 => enter_regular l ctx s
  | _ => s
  end.

(** exit -- syntaxis_listener.rs:59-73 *)
Definition l_exit {S} (l : listener S) (ctx : rule_ctx) (s : S) : S :=
  match rule_index ctx with
  | 0 => exit_rule_list l ctx s
  | 1 => exit_parser_rule l ctx s
  | 2 => exit_block l ctx s
  | 3 => exit_alternative l ctx s
  | 4 => exit_epsilon l ctx s
  | 5 => exit_element l ctx s
  | 6 => exit_ebnf_suffix l ctx s
  | 7 => exit_lexer_rule l ctx s
  | 8 => exit_regular l ctx s
  | _ => s
  end.

(** walk -- syntaxis_walker.rs:8-29 *)
Fixpoint walk {S} (l : listener S) (ast : rule_ctx) (s : S) {struct ast} : S :=
  let s := enter_every_rule l ast s in
  let s := l_enter l ast s in
  let s :=
    match ast with
    | RuleCtx _ children _ =>
        (fix go (cs : list Ast.ast) (s : S) : S :=
           match cs with
           | [] => s
           | child :: cs' =>
               let s := match child with
                        | Terminal t => exit_terminal l t (enter_terminal l t s)
                        | Rule ctx => walk l ctx s
                        | Error t => exit_errornode l t (enter_errornode l t s)
                        end in
               go cs' s
           end) children s
    end in
  let s := l_exit l ast s in
  exit_every_rule l ast s.

(** trait SyntaxisVisitor -- syntaxis_visitor.rs:8-94.  [R] stands for Box<dyn Any>, [S] for &mut self.
    The nine visit_* functions are [None] when not overridden (then they are visit_children, lines
    9-43) and otherwise arbitrary functions of the node; an override that calls back into [visit] is
    not covered by this record. Hooks may panic. *)
Record visitor (S R : Type) := Visitor {
  v_rule_list : option (rule_ctx -> S -> res (R * S));
  v_parser_rule : option (rule_ctx -> S -> res (R * S));
  v_block : option (rule_ctx -> S -> res (R * S));
  v_alternative : option (rule_ctx -> S -> res (R * S));
  v_epsilon : option (rule_ctx -> S -> res (R * S));
  v_element : option (rule_ctx -> S -> res (R * S));
  v_ebnf_suffix : option (rule_ctx -> S -> res (R * S));
  v_lexer_rule : option (rule_ctx -> S -> res (R * S));
  v_regular : option (rule_ctx -> S -> res (R * S));
  v_terminal : token -> S -> res (R * S);                        (* visit_terminal, 68 *)
  v_errornode : token -> S -> res (R * S);                       (* visit_errornode, 70 *)
  v_default_result : S -> res (R * S);                           (* default_result, 88 *)
  v_aggregate_result : R -> R -> S -> res (R * S);               (* aggregate_result, 90 *)
  v_should_visit_next_child : rule_ctx -> R -> S -> res (bool * S); (* should_visit_next_child, 92 *)
}.
Arguments v_rule_list {S R}. Arguments v_parser_rule {S R}. Arguments v_block {S R}.
Arguments v_alternative {S R}. Arguments v_epsilon {S R}. Arguments v_element {S R}.
Arguments v_ebnf_suffix {S R}. Arguments v_lexer_rule {S R}. Arguments v_regular {S R}.
Arguments v_terminal {S R}. Arguments v_errornode {S R}. Arguments v_default_result {S R}.
Arguments v_aggregate_result {S R}. Arguments v_should_visit_next_child {S R}.

(** The dispatch of visit -- syntaxis_visitor.rs:52-66 *)
Definition v_override {S R} (v : visitor S R) (index : nat) : option (rule_ctx -> S -> res (R * S)) :=
  match index with
  | 0 => v_rule_list v
  | 1 => v_parser_rule v
  | 2 => v_block v
  | 3 => v_alternative v
  | 4 => v_epsilon v
  | 5 => v_element v
  | 6 => v_ebnf_suffix v
  | 7 => v_lexer_rule v
  | 8 => v_regular v
  | _ => None
  end.

(** The loop of visit_children -- syntaxis_visitor.rs:72-86, with [rec] for self.visit *)
Fixpoint visit_loop {S R} (v : visitor S R) (rec : rule_ctx -> S -> res (R * S)) (ctx : rule_ctx)
    (cs : list ast) (result : R) (s : S) : res (R * S) :=
  match cs with
  | [] => Ret (result, s)
  | child :: cs' =>
      let! (b, s1) := v_should_visit_next_child v ctx result s in
      if b then
        let! (child_result, s2) := match child with
                       | Terminal t => v_terminal v t s1
                       | Rule c => rec c s1
                       | Error t => v_errornode v t s1
                       end in
        let! (result', s3) := v_aggregate_result v result child_result s2 in
        visit_loop v rec ctx cs' result' s3
      else Ret (result, s1)
  end.

(** visit -- syntaxis_visitor.rs:52-66; the loop is [visit_loop] (repeated inline for the
    termination checker; see visit_unfold in WalkerProofs.v). *)
Fixpoint visit {S R} (v : visitor S R) (ast : rule_ctx) (s : S) {struct ast} : res (R * S) :=
  match v_override v (rule_index ast) with
  | Some f => f ast s
  | None =>
      let! (result, s0) := v_default_result v s in
      match ast with
      | RuleCtx _ children _ =>
          (fix go (cs : list Ast.ast) (result : R) (s : S) : res (R * S) :=
             match cs with
             | [] => Ret (result, s)
             | child :: cs' =>
                 let! (b, s1) := v_should_visit_next_child v ast result s in
                 if b then
                   let! (child_result, s2) := match child with
                                  | Terminal t => v_terminal v t s1
                                  | Rule c => visit v c s1
                                  | Error t => v_errornode v t s1
                                  end in
                   let! (result', s3) := v_aggregate_result v result child_result s2 in
                   go cs' result' s3
                 else Ret (result, s1)
             end) children result s0
      end
  end.

(** visit_children -- syntaxis_visitor.rs:72-86 *)
Definition visit_children {S R} (v : visitor S R) (ctx : rule_ctx) (s : S) : res (R * S) :=
  let! (result, s0) := v_default_result v s in
  visit_loop v (visit v) ctx (children ctx) result s0.

(** A visitor with every method at its default body: results are unit-like [tt], aggregate keeps
    the next result -- syntaxis_visitor.rs:68-70, 88-92 *)
Definition default_visitor (S : Type) : visitor S unit :=
  Visitor S unit None None None None None None None None None
    (fun _ s => Ret (tt, s)) (fun _ s => Ret (tt, s)) (fun s => Ret (tt, s))
    (fun _ next s => Ret (next, s)) (fun _ _ s => Ret (true, s)).
