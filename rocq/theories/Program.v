(** Program.v -- main.rs as a whole: what a run prints, how it ends and what it leaves on the disk, also when it panics.  Output.v drops the
    lines printed before a panic, Files.v drops all lines. *)
From Verif Require Export Files Output Crash.

(** The lines printed so far, and the value or the panic. *)
Definition printed (A : Type) : Type := list str * res A.
Definition pret {A} (a : A) : printed A := ([], Ret a).
Definition pres {A} (x : res A) : printed A := ([], x).
Definition pbind {A B} (m : printed A) (f : A -> printed B) : printed B :=
  match m with
  | (l, Ret a) => let '(l', x) := f a in (l ++ l', x)
  | (l, Panic) => (l, Panic)
  | (l, OutOfFuel) => (l, OutOfFuel)
  end.
Fixpoint pfold {A S} (f : S -> A -> printed S) (l : list A) (s : S) : printed S :=
  match l with [] => pret s | a :: l' => pbind (f s a) (pfold f l') end.

(** *** SymbolVisitor -- grammar_visitor.rs:56-105.  The state is the lines and, as long as there was no panic, the visitor's state; after a
    panic nothing happens any more.  A call prints at most one line, and returns right after it (grammar_visitor.rs:76-77, 82-83, 97-98). *)
Definition print_call {S R} (f : rule_ctx -> S * list str -> res (R * (S * list str))) (ctx : rule_ctx) (s : S) : printed S :=
  match f ctx (s, []) with
  | Ret (_, (s', o)) => (o, Ret s')
  | Panic => ([], Panic)
  | OutOfFuel => ([], OutOfFuel)
  end.
Definition print_symbol_visitor : visitor (printed symbol_state) unit :=
  Visitor (printed symbol_state) unit None (Some (fun ctx st => Ret (tt, pbind st (print_call out_symbol_parser_rule ctx)))) None None None None None
    (Some (fun ctx st => Ret (tt, pbind st (print_call out_symbol_lexer_rule ctx)))) None
    (fun _ s => Ret (tt, s)) (fun _ s => Ret (tt, s)) (fun s => Ret (tt, s))
    (fun _ next s => Ret (next, s)) (fun _ _ s => Ret (true, s)).

(** *** ProductionVisitor -- grammar_visitor.rs:128-300 *)
Definition print_make_block (rights : list (list item)) (s : production_state) : printed (nat * production_state) :=
  let '(id, (s', o)) := out_make_block rights (s, []) in (o, Ret (id, s')).
Fixpoint print_elements (rec : rule_ctx -> production_state -> printed (item * production_state))
    (es : list rule_ctx) (s : production_state) : printed (list item * production_state) :=
  match es with
  | [] => pret ([], s)
  | e :: es' =>
      pbind (rec e s) (fun '(it, s1) =>
      pbind (print_elements rec es' s1) (fun '(its, s2) =>
      pret (it :: its, s2)))
  end.
Definition print_alternative (rec : rule_ctx -> production_state -> printed (item * production_state))
    (ctx : rule_ctx) (s : production_state) : printed (list item * production_state) :=
  match alternative_epsilon ctx with
  | Some _ => pret ([], s)
  | None => print_elements rec (element_list ctx) s
  end.
Fixpoint print_alternatives (rec : rule_ctx -> production_state -> printed (item * production_state))
    (alts : list rule_ctx) (s : production_state) : printed (list (list item) * production_state) :=
  match alts with
  | [] => pret ([], s)
  | a :: alts' =>
      pbind (print_alternative rec a s) (fun '(r, s1) =>
      pbind (print_alternatives rec alts' s1) (fun '(rs, s2) =>
      pret (r :: rs, s2)))
  end.
(** visit_block -- grammar_visitor.rs:269-298 *)
Definition print_block (rec : rule_ctx -> production_state -> printed (item * production_state))
    (ctx : rule_ctx) (s : production_state) : printed (nat * production_state) :=
  pbind (print_alternatives rec (alternative_list ctx) s) (fun '(rights, s1) => print_make_block rights s1).
(** visit_element -- grammar_visitor.rs:172-266 *)
Fixpoint print_element (fuel : nat) (ctx : rule_ctx) (s : production_state) : printed (item * production_state) :=
  match fuel with
  | 0 => pres OutOfFuel
  | S fuel' =>
      match element_token_ref ctx with
      | Some tok =>
          pbind (pres (unwrap (get_terminal_id_by_name (ps_vocabulary s) (text tok)))) (fun id =>
          pret (apply_suffix ctx id (T id) s))
      | None =>
      match element_string_literal ctx with
      | Some literal =>
          pbind (pres (unwrap (get_terminal_id_by_name (ps_vocabulary s) (text literal)))) (fun id =>
          pret (apply_suffix ctx id (T id) s))
      | None =>
      match element_rule_ref ctx with
      | Some rule =>
          pbind (pres (unwrap (get_nonterminal_id_by_name (ps_vocabulary s) (text rule)))) (fun id =>
          pret (apply_suffix ctx id (NT id) s))
      | None =>
      match element_block ctx with
      | Some block =>
          pbind (print_block (print_element fuel') block s) (fun '(id, s1) =>
          pret (apply_suffix ctx id (NT id) s1))
      | None => pres Panic
      end end end end
  end.
(** visit_parser_rule, visit_rule_list -- grammar_visitor.rs:130-153 *)
Definition print_rule_alternative (fuel id : nat) (s : production_state) (alternative : rule_ctx) : printed production_state :=
  pbind (print_alternative (print_element fuel) alternative s) (fun '(r, s1) =>
  (if bool_decide (Production id r ∈ ps_productions s1) then [line_alternative] else [],
   Ret {| ps_vocabulary := ps_vocabulary s1;
          ps_productions := {[ Production id r ]} ∪ ps_productions s1;
          ps_next_rule_id := ps_next_rule_id s1;
          block_cache := block_cache s1;
          star_cache := star_cache s1;
          plus_cache := plus_cache s1;
          question_cache := question_cache s1 |})).
Definition print_parser_rule (fuel : nat) (s : production_state) (ctx : rule_ctx) : printed production_state :=
  pbind (pres (unwrap (parser_rule_rule_ref ctx))) (fun tok =>
  pbind (pres (unwrap (get_nonterminal_id_by_name (ps_vocabulary s) (text tok)))) (fun id =>
  pbind (pres (unwrap (parser_rule_block ctx))) (fun block =>
  pfold (print_rule_alternative fuel id) (alternative_list block) s))).

(** load_ast behind from_reader -- main.rs:96-122; the first visitor prints nothing. *)
Definition print_load_tree (ast : rule_ctx) : printed (grammar * list lexer_rule_data) :=
  let g := grammar_new [25105; 30340; 25991; 27861]%N in
  pbind (pres (visit_children literal_visitor ast (LiteralState (g_vocabulary g) 2 []))) (fun '(_, s1) =>
  pbind (pres (visit_children print_symbol_visitor ast
               (pret (SymbolState (lt_vocabulary s1) (lt_data s1) (lt_next_token_id s1) 0)))) (fun '(_, st) =>
  pbind st (fun s2 =>
  pbind (pfold (print_parser_rule (height ast)) (parser_rule_list ast)
               (production_visitor_new (sy_vocabulary s2) (productions g) (sy_next_rule_id s2))) (fun s3 =>
  pret (Grammar (g_name g) (ps_vocabulary s3) (ps_productions s3), sy_data s2))))).

(** The lines of a run of the parser -- ll1_parser.rs:52, v1/syntaxis_parser.rs:122 *)
Definition print_parse {A} (o : logged A) : printed A :=
  (map (fun _ => line_mismatch) (fst o), match snd o with inl a => Ret a | inr NoFuel => OutOfFuel | inr _ => Panic end).

(** main -- main.rs:32-123, up to the drawing.  The conflicts are printed in the loop of ll1_table, in which nothing panics for a
    loaded grammar (C43_analyses_return), the rest of the input at the end of the lexer's loop. *)
Definition print_main (nd : N -> bool) (huge : str -> bool) (order : list production) (fuel : nat) (o : os) (d : disk) (input : str) : printed rule_ctx :=
  pbind (pres (read_tree huge o d (lit "src/tool/syntaxis/syntaxis2.json"))) (fun ast =>
  pbind (print_load_tree ast) (fun '(g, _) =>
  pbind (pres (build_table fuel order g)) (fun '(tab, w) =>
  pbind (map line_conflict w, v1_lexer nd input) (fun c =>
  pbind (pres (scan_all c 15 0 fuel lexer_init)) (fun '(toks, rest) =>
  pbind (match rest with Some s => [s] | None => [] end, Ret tt) (fun _ =>
  print_parse (log_parse (g_vocabulary g) tab toks fuel))))))).
(** The standard output, how the program ended, and the disk it leaves behind -- main.rs:32-88. *)
Definition main_effect (nd : N -> bool) (huge : str -> bool) (order : list production) (fuel : nat) (o : os) (d : disk) (input : str) : str * res unit * disk :=
  let '(lines, x) := print_main nd huge order fuel o d input in
  let out := concat (map println lines) in
  match x with
  | Ret r => let '(e, d') := draw o d r (lit "parser") (lit "parser2.html") in (out, e, d')
  | Panic => (out, Panic, d)
  | OutOfFuel => (out, OutOfFuel, d)
  end.
