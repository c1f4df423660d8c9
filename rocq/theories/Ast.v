(** Ast.v -- model of src/runtime/token.rs and src/runtime/ast/*.rs *)
From Verif Require Export Base.

(** src/runtime/token.rs:3-7 *)
Record position := Position { line : nat; char_position : nat }.

(** src/runtime/token.rs:15-36 *)
Record token := Token {
  token_type : nat;
  token_name : str;
  start : position;
  stop : position;
  channel : nat;
  text : str;
  token_index : nat;
  char_start_index : nat;
  char_stop_index : nat;
}.

(** src/runtime/token.rs:56-68 *)
Definition token_new (ty : nat) (name txt : str) : token :=
  {| token_type := ty; token_name := name;
     start := Position 0 0; stop := Position 0 0;
     channel := 0; text := txt; token_index := 0;
     char_start_index := 0; char_stop_index := 0 |}.

(** src/runtime/ast/ast_context.rs:7-11, rule_context.rs:9-15, terminal_context.rs:7-9,
    error_context.rs:7-11.  A TerminalContext / ErrorContext is its token ([symbol]). *)
Inductive ast :=
| Terminal (symbol : token)
| Rule (ctx : rule_ctx)
| Error (symbol : token)
with rule_ctx :=
| RuleCtx (rule_name : str) (children : list ast) (rule_index : nat).

Definition rule_name (r : rule_ctx) : str := let '(RuleCtx n _ _) := r in n.
Definition children (r : rule_ctx) : list ast := let '(RuleCtx _ c _) := r in c.
Definition rule_index (r : rule_ctx) : nat := let '(RuleCtx _ _ i) := r in i.

(** rule_context.rs:33 *)
Definition get_child_count (r : rule_ctx) : nat := length (children r).

(** rule_context.rs:37-45 (structural recursion through the first child) *)
Fixpoint get_first_terminal (r : rule_ctx) : option token :=
  match r with
  | RuleCtx _ [] _ => None
  | RuleCtx _ (Terminal t :: _) _ => Some t
  | RuleCtx _ (Rule c :: _) _ => get_first_terminal c
  | RuleCtx _ (Error _ :: _) _ => None
  end.

(** rule_context.rs:56-64 *)
Fixpoint get_start_token (r : rule_ctx) : option token :=
  match r with
  | RuleCtx _ [] _ => None
  | RuleCtx _ (Terminal t :: _) _ => Some t
  | RuleCtx _ (Rule c :: _) _ => get_start_token c
  | RuleCtx _ (Error t :: _) _ => Some t
  end.

(** rule_context.rs:47-54: dispatch on [children.last()]; the inner [fix] walks to the last child. *)
Fixpoint get_last_terminal (r : rule_ctx) : option token :=
  match r with
  | RuleCtx _ cs _ =>
      (fix last_of (cs : list ast) : option token :=
         match cs with
         | [] => None
         | [Terminal t] => Some t
         | [Rule c] => get_last_terminal c
         | [Error _] => None
         | _ :: cs' => last_of cs'
         end) cs
  end.

(** rule_context.rs:66-73 *)
Fixpoint get_stop_token (r : rule_ctx) : option token :=
  match r with
  | RuleCtx _ cs _ =>
      (fix last_of (cs : list ast) : option token :=
         match cs with
         | [] => None
         | [Terminal t] => Some t
         | [Rule c] => get_stop_token c
         | [Error t] => Some t
         | _ :: cs' => last_of cs'
         end) cs
  end.

(** rule_context.rs:80-88: a loop pushing the matching children. *)
Definition get_terminals (r : rule_ctx) (ty : nat) : list token :=
  fold_left (fun acc child =>
    match child with
    | Terminal t => if token_type t =? ty then acc ++ [t] else acc
    | _ => acc
    end) (children r) [].

(** rule_context.rs:75-78 *)
Definition get_terminal (r : rule_ctx) (ty i : nat) : option token :=
  let tokens := get_terminals r ty in
  if i <? length tokens then tokens !! i else None.

(** rule_context.rs:95-103 *)
Definition get_errornodes (r : rule_ctx) (ty : nat) : list token :=
  fold_left (fun acc child =>
    match child with
    | Error t => if token_type t =? ty then acc ++ [t] else acc
    | _ => acc
    end) (children r) [].

(** rule_context.rs:90-93 *)
Definition get_errornode (r : rule_ctx) (ty i : nat) : option token :=
  let errors := get_errornodes r ty in
  if i <? length errors then errors !! i else None.

(** rule_context.rs:110-118 *)
Definition get_rule_contexts (r : rule_ctx) (ty : nat) : list rule_ctx :=
  fold_left (fun acc child =>
    match child with
    | Rule c => if rule_index c =? ty then acc ++ [c] else acc
    | _ => acc
    end) (children r) [].

(** rule_context.rs:105-108 *)
Definition get_rule_context (r : rule_ctx) (ty i : nat) : option rule_ctx :=
  let rules := get_rule_contexts r ty in
  if i <? length rules then rules !! i else None.

(** rule_context.rs:121-129 ([&input[0..0]] is the empty string; the final slice may panic) *)
Definition get_text (r : rule_ctx) (input : str) : res str :=
  match get_start_token r with
  | None => Ret []
  | Some a =>
      match get_stop_token r with
      | None => Ret []
      | Some b => unwrap (slice_bytes (char_start_index a) (char_stop_index b) input)
      end
  end.

(** Display for ASTContext / RuleContext / TerminalContext / ErrorContext --
    ast_context.rs:24-32, rule_context.rs:132-142, terminal_context.rs:18-22, error_context.rs:20-24 *)
Fixpoint ast_display (a : ast) : str :=
  match a with
  | Terminal t => token_name t
  | Error t => token_name t
  | Rule r => rule_display r
  end
with rule_display (r : rule_ctx) : str :=
  match r with
  | RuleCtx n cs _ =>
      n ++ lit " (" ++
      (fix go (cs : list ast) : str :=
         match cs with [] => [] | c :: cs' => ast_display c ++ lit " " ++ go cs' end) cs
      ++ lit ")"
  end.

(** Induction principle for the nested tree type (not part of the model). *)
Section ast_induction.
  Context (P : ast -> Prop) (Q : rule_ctx -> Prop).
  Context (HT : forall t, P (Terminal t)) (HE : forall t, P (Error t))
          (HR : forall r, Q r -> P (Rule r))
          (HC : forall n cs i, Forall P cs -> Q (RuleCtx n cs i)).
  Fixpoint ast_rect' (a : ast) : P a :=
    match a with
    | Terminal t => HT t
    | Error t => HE t
    | Rule r => HR r (rule_ctx_rect' r)
    end
  with rule_ctx_rect' (r : rule_ctx) : Q r :=
    match r with
    | RuleCtx n cs i =>
        HC n cs i ((fix go (cs : list ast) : Forall P cs :=
           match cs with
           | [] => @Forall_nil_2 _ P
           | c :: cs' => @Forall_cons_2 _ P c cs' (ast_rect' c) (go cs')
           end) cs)
    end.
End ast_induction.
