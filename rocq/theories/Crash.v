(** Crash.v -- the parsers once more, with what is printed before a panic and the place of the panic: src/tool/parser/ll1_parser.rs,
    src/tool/v1/syntaxis_parser.rs:90-131.  Parser.v drops both. *)
From Verif Require Export Parser Chain Main.

(** Why a run does not return: the [unwrap] of [table.get] on None (ll1_parser.rs:31, v1/syntaxis_parser.rs:100), an index past the end of
    [tokens] (ll1_parser.rs:30, 52, v1/syntaxis_parser.rs:99, 122), or the model's fuel. *)
Inductive halt : Type :=
| NoEntry (cursor rule : nat)
| NoToken (cursor : nat)
| NoFuel.

(** The lines printed, and the value returned or the reason that there is none. *)
Definition logged (A : Type) : Type := list mismatch * (A + halt).
Definition lret {A} (a : A) : logged A := ([], inl a).
Definition lfail {A} (e : halt) : logged A := ([], inr e).
Definition lbind {A B} (m : logged A) (f : A -> logged B) : logged B :=
  match m with
  | (l, inl a) => let '(l', x) := f a in (l ++ l', x)
  | (l, inr e) => (l, inr e)
  end.
Definition lor {A} (o : option A) (e : halt) : logged A := match o with Some a => lret a | None => lfail e end.

(** The loop of parse_ast -- ll1_parser.rs:35-59, v1/syntaxis_parser.rs:105-129. *)
Fixpoint log_items (voc : vocabulary) (toks : list token) (rec : nat -> nat -> logged (rule_ctx * nat))
    (rhs : list item) (cursor : nat) (kids : list ast) : logged (nat * list ast) :=
  match rhs with
  | [] => lret (cursor, kids)
  | NT rule_id :: rhs' =>
      lbind (rec cursor rule_id) (fun '(rule, new_cursor) =>
      let kids' := match get_nonterminal_name_by_id voc rule_id with
                   | Some _ => kids ++ [Rule rule]
                   | None => kids ++ children rule
                   end in
      log_items voc toks rec rhs' new_cursor kids')
  | T ty :: rhs' =>
      lbind (lor (toks !! cursor) (NoToken cursor)) (fun tok =>
      lbind (if negb (ty =? token_type tok) then [(cursor, ty)] else [], inl tt) (fun _ =>
      log_items voc toks rec rhs' (cursor + 1) (kids ++ [Terminal tok])))
  end.

(** parse_ast -- ll1_parser.rs:27-61, v1/syntaxis_parser.rs:96-131. *)
Fixpoint log_ast (voc : vocabulary) (tab : table) (toks : list token) (fuel cursor rule_idx : nat) : logged (rule_ctx * nat) :=
  match fuel with
  | 0 => lfail NoFuel
  | S fuel' =>
      lbind (lor (toks !! cursor) (NoToken cursor)) (fun tok =>
      lbind (lor (tab !! (rule_idx, token_type tok)) (NoEntry cursor rule_idx)) (fun p =>
      let name := get_nonterminal_name_with_default voc rule_idx in
      lbind (log_items voc toks (log_ast voc tab toks fuel') (right p) cursor []) (fun '(cursor', kids) =>
      lret (RuleCtx name kids rule_idx, cursor'))))
  end.

(** parse -- ll1_parser.rs:22-24, v1/syntaxis_parser.rs:90-92. *)
Definition log_parse (voc : vocabulary) (tab : table) (toks : list token) (fuel : nat) : logged rule_ctx :=
  lbind (log_ast voc tab toks fuel 0 0) (fun '(r, _) => lret r).

(** Chain.v with the log of the parser -- main.rs:32-38, 77-82. *)
Definition chain_log (compile : str -> matcher) (order : list production) (fuel : nat) (g : grammar) (data : list lexer_rule_data) (ws : nat) (input : str)
    : res (list (production * production) * option str * logged rule_ctx) :=
  let! (tab, w) := build_table fuel order g in
  let! (toks, rest) := scan_all (generated_lexer compile data input) ws 0 fuel lexer_init in
  Ret (w, rest, log_parse (g_vocabulary g) tab toks fuel).

(** main with the log of the parser -- main.rs:32-88; compare Main.v. *)
Definition main_log (nd : N -> bool) (order : list production) (fuel : nat) (file : json) (input : str)
    : res (list (production * production) * option str * logged rule_ctx) :=
  let! (g, _) := load_ast file in
  let! (tab, w) := build_table fuel order g in
  let! c := v1_lexer nd input in
  let! (toks, rest) := scan_all c 15 0 fuel lexer_init in
  Ret (w, rest, log_parse (g_vocabulary g) tab toks fuel).
