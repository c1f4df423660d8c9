(** Visitors.v -- model of src/tool/visitor/grammar_visitor.rs, src/tool/visitor/lexer_rule_visitor.rs and
    of load_ast in src/main.rs.  println! diagnostics are recorded in Output.v. *)
From Verif Require Export Context Grammar.

(** struct LexerRuleData -- lexer_rule_visitor.rs:20-25 *)
Record lexer_rule_data := LexerRuleData { ld_type : nat; ld_name : str; ld_regex : str }.

(** [regular[1..regular.len()-1].replace("\\/", "/")] and [format!("^({})", ..)] --
    grammar_visitor.rs:86-87, lexer_rule_visitor.rs:50-51.  The slice may panic. *)
Definition unwrap_regular (regular : str) : res str :=
  let! inner := unwrap (slice_bytes 1 (blen regular - 1) regular) in
  Ret (lit "^(" ++ replace (lit "\/") (lit "/") inner ++ lit ")").

(** *** StringLiteralToTokenVisitor -- grammar_visitor.rs:15-52.
    [escape] is todo!(): whenever an element has a string literal the visit panics before anything else
    happens, so grammar, next_token_id and data never change; elements are not descended into. *)
Record literal_state := LiteralState { lt_vocabulary : vocabulary; lt_next_token_id : nat; lt_data : list lexer_rule_data }.
Definition literal_visit_element (ctx : rule_ctx) (s : literal_state) : res (unit * literal_state) :=
  match element_string_literal ctx with
  | Some _ => Panic
  | None => Ret (tt, s)
  end.
Definition literal_visitor : visitor literal_state unit :=
  Visitor literal_state unit None None None None None (Some literal_visit_element) None None None
    (fun _ s => Ret (tt, s)) (fun _ s => Ret (tt, s)) (fun s => Ret (tt, s))
    (fun _ next s => Ret (next, s)) (fun _ _ s => Ret (true, s)).

(** *** SymbolVisitor -- grammar_visitor.rs:56-105 *)
Record symbol_state := SymbolState {
  sy_vocabulary : vocabulary;
  sy_data : list lexer_rule_data;
  sy_next_token_id : nat;
  sy_next_rule_id : nat;
}.

(** visit_lexer_rule -- grammar_visitor.rs:72-92 *)
Definition symbol_visit_lexer_rule (ctx : rule_ctx) (s : symbol_state) : res (unit * symbol_state) :=
  let! tok := unwrap (lexer_rule_token_ref ctx) in
  let name := text tok in
  if is_terminal_name_defined (sy_vocabulary s) name then Ret (tt, s)
  else
    let! reg := unwrap (lexer_rule_regular ctx) in
    let! rl := unwrap (regular_regular_literal reg) in
    let regular := text rl in
    if blen regular <? 2 then Ret (tt, s)
    else
      let! regex := unwrap_regular regular in
      Ret (tt, {| sy_vocabulary := fst (add_terminal (sy_vocabulary s) (sy_next_token_id s) name);
                  sy_data := sy_data s ++ [LexerRuleData (sy_next_token_id s) name regex];
                  sy_next_token_id := S (sy_next_token_id s);
                  sy_next_rule_id := sy_next_rule_id s |}).

(** visit_parser_rule -- grammar_visitor.rs:94-104 (the result of add_named_nonterminal is ignored) *)
Definition symbol_visit_parser_rule (ctx : rule_ctx) (s : symbol_state) : res (unit * symbol_state) :=
  let! tok := unwrap (parser_rule_rule_ref ctx) in
  let name := text tok in
  if is_terminal_name_defined (sy_vocabulary s) name then Ret (tt, s)
  else Ret (tt, {| sy_vocabulary := fst (add_named_nonterminal (sy_vocabulary s) (sy_next_rule_id s) name);
                   sy_data := sy_data s;
                   sy_next_token_id := sy_next_token_id s;
                   sy_next_rule_id := S (sy_next_rule_id s) |}).
Definition symbol_visitor : visitor symbol_state unit :=
  Visitor symbol_state unit None (Some symbol_visit_parser_rule) None None None None None
    (Some symbol_visit_lexer_rule) None
    (fun _ s => Ret (tt, s)) (fun _ s => Ret (tt, s)) (fun s => Ret (tt, s))
    (fun _ next s => Ret (next, s)) (fun _ _ s => Ret (true, s)).

(** *** ProductionVisitor -- grammar_visitor.rs:109-300 *)
Record production_state := ProductionState {
  ps_vocabulary : vocabulary;
  ps_productions : gset production;
  ps_next_rule_id : nat;
  block_cache : gmap (list (list item)) nat;
  star_cache : gmap nat nat;
  plus_cache : gmap nat nat;
  question_cache : gmap nat nat;
}.
Definition production_visitor_new (v : vocabulary) (P : gset production) (first_rule_id : nat) : production_state :=
  ProductionState v P first_rule_id ∅ ∅ ∅ ∅.

(** The three suffix branches -- grammar_visitor.rs:195-219 (star), 220-241 (plus), 242-260 (else).
    Each looks up its cache by the bare id, otherwise makes nonterminal next_rule_id with two productions. *)
Definition apply_star (id : nat) (it : item) (s : production_state) : item * production_state :=
  match star_cache s !! id with
  | Some item_id => (NT item_id, s)
  | None =>
      let n := ps_next_rule_id s in
      (NT n, {| ps_vocabulary := fst (add_unnamed_nonterminal (ps_vocabulary s) n);
                ps_productions := {[ Production n [it; NT n] ]} ∪ ({[ Production n [] ]} ∪ ps_productions s);
                ps_next_rule_id := S n;
                block_cache := block_cache s;
                star_cache := <[id := n]> (star_cache s);
                plus_cache := plus_cache s;
                question_cache := question_cache s |})
  end.
Definition apply_plus (id : nat) (it : item) (s : production_state) : item * production_state :=
  match plus_cache s !! id with
  | Some item_id => (NT item_id, s)
  | None =>
      let n := ps_next_rule_id s in
      (NT n, {| ps_vocabulary := fst (add_unnamed_nonterminal (ps_vocabulary s) n);
                ps_productions := {[ Production n [it; NT n] ]} ∪ ({[ Production n [it] ]} ∪ ps_productions s);
                ps_next_rule_id := S n;
                block_cache := block_cache s;
                star_cache := star_cache s;
                plus_cache := <[id := n]> (plus_cache s);
                question_cache := question_cache s |})
  end.
Definition apply_question (id : nat) (it : item) (s : production_state) : item * production_state :=
  match question_cache s !! id with
  | Some item_id => (NT item_id, s)
  | None =>
      let n := ps_next_rule_id s in
      (NT n, {| ps_vocabulary := fst (add_unnamed_nonterminal (ps_vocabulary s) n);
                ps_productions := {[ Production n [it] ]} ∪ ({[ Production n [] ]} ∪ ps_productions s);
                ps_next_rule_id := S n;
                block_cache := block_cache s;
                star_cache := star_cache s;
                plus_cache := plus_cache s;
                question_cache := <[id := n]> (question_cache s) |})
  end.

(** The part of visit_element behind the item -- grammar_visitor.rs:194-265 *)
Definition apply_suffix (ctx : rule_ctx) (id : nat) (it : item) (s : production_state) : item * production_state :=
  match element_ebnf_suffix ctx with
  | None => (it, s)
  | Some suffix =>
      match suffix_star suffix with
      | Some _ => apply_star id it s
      | None => match suffix_plus suffix with
                | Some _ => apply_plus id it s
                | None => apply_question id it s
                end
      end
  end.

(** [for right in rights.iter() { productions.insert(Production::new(id, right)) }] --
    grammar_visitor.rs:288-293 *)
Definition insert_productions (id : nat) (rights : list (list item)) (P : gset production) : gset production :=
  fold_left (fun P r => {[ Production id r ]} ∪ P) rights P.

(** The part of visit_block behind the loop -- grammar_visitor.rs:277-297 *)
Definition make_block (rights : list (list item)) (s : production_state) : nat * production_state :=
  match block_cache s !! rights with
  | Some id => (id, s)
  | None =>
      let id := ps_next_rule_id s in
      (id, {| ps_vocabulary := fst (add_unnamed_nonterminal (ps_vocabulary s) id);
              ps_productions := insert_productions id rights (ps_productions s);
              ps_next_rule_id := S id;
              block_cache := <[rights := id]> (block_cache s);
              star_cache := star_cache s;
              plus_cache := plus_cache s;
              question_cache := question_cache s |})
  end.

(** visit_alternative -- grammar_visitor.rs:156-169, with [rec] for element.accept *)
Fixpoint visit_elements (rec : rule_ctx -> production_state -> res (item * production_state))
    (es : list rule_ctx) (s : production_state) : res (list item * production_state) :=
  match es with
  | [] => Ret ([], s)
  | e :: es' =>
      let! (it, s1) := rec e s in
      let! (its, s2) := visit_elements rec es' s1 in
      Ret (it :: its, s2)
  end.
Definition visit_alternative (rec : rule_ctx -> production_state -> res (item * production_state))
    (ctx : rule_ctx) (s : production_state) : res (list item * production_state) :=
  match alternative_epsilon ctx with
  | Some _ => Ret ([], s)
  | None => visit_elements rec (element_list ctx) s
  end.
(** the loop over the alternatives -- grammar_visitor.rs:271-275 *)
Fixpoint visit_alternatives (rec : rule_ctx -> production_state -> res (item * production_state))
    (alts : list rule_ctx) (s : production_state) : res (list (list item) * production_state) :=
  match alts with
  | [] => Ret ([], s)
  | a :: alts' =>
      let! (r, s1) := visit_alternative rec a s in
      let! (rs, s2) := visit_alternatives rec alts' s1 in
      Ret (r :: rs, s2)
  end.
(** visit_block -- grammar_visitor.rs:269-298 *)
Definition visit_block (rec : rule_ctx -> production_state -> res (item * production_state))
    (ctx : rule_ctx) (s : production_state) : res (nat * production_state) :=
  let! (rights, s1) := visit_alternatives rec (alternative_list ctx) s in
  Ret (make_block rights s1).

(** visit_element -- grammar_visitor.rs:172-266; fuel bounds the nesting of blocks *)
Fixpoint visit_element (fuel : nat) (ctx : rule_ctx) (s : production_state) : res (item * production_state) :=
  match fuel with
  | 0 => OutOfFuel
  | S fuel' =>
      match element_token_ref ctx with
      | Some tok =>
          let! id := unwrap (get_terminal_id_by_name (ps_vocabulary s) (text tok)) in
          Ret (apply_suffix ctx id (T id) s)
      | None =>
      match element_string_literal ctx with
      | Some literal =>
          let! id := unwrap (get_terminal_id_by_name (ps_vocabulary s) (text literal)) in
          Ret (apply_suffix ctx id (T id) s)
      | None =>
      match element_rule_ref ctx with
      | Some rule =>
          let! id := unwrap (get_nonterminal_id_by_name (ps_vocabulary s) (text rule)) in
          Ret (apply_suffix ctx id (NT id) s)
      | None =>
      match element_block ctx with
      | Some block =>
          let! (id, s1) := visit_block (visit_element fuel') block s in
          Ret (apply_suffix ctx id (NT id) s1)
      | None => Panic
      end end end end
  end.

(** visit_parser_rule -- grammar_visitor.rs:138-153 *)
Definition visit_rule_alternative (fuel id : nat) (s : production_state) (alternative : rule_ctx) : res production_state :=
  let! (r, s1) := visit_alternative (visit_element fuel) alternative s in
  Ret {| ps_vocabulary := ps_vocabulary s1;
         ps_productions := {[ Production id r ]} ∪ ps_productions s1;
         ps_next_rule_id := ps_next_rule_id s1;
         block_cache := block_cache s1;
         star_cache := star_cache s1;
         plus_cache := plus_cache s1;
         question_cache := question_cache s1 |}.
Definition production_visit_parser_rule (fuel : nat) (s : production_state) (ctx : rule_ctx) : res production_state :=
  let! tok := unwrap (parser_rule_rule_ref ctx) in
  let! id := unwrap (get_nonterminal_id_by_name (ps_vocabulary s) (text tok)) in
  let! block := unwrap (parser_rule_block ctx) in
  rfold (visit_rule_alternative fuel id) (alternative_list block) s.

(** visit_rule_list -- grammar_visitor.rs:130-135 *)
Definition production_visit_rule_list (fuel : nat) (ctx : rule_ctx) (s : production_state) : res production_state :=
  rfold (production_visit_parser_rule fuel) (parser_rule_list ctx) s.

(** Height of a tree: enough fuel (rule_list_fuel, ProductionProofs.v). *)
Fixpoint height (r : rule_ctx) : nat :=
  match r with
  | RuleCtx _ cs _ =>
      S ((fix go (cs : list ast) : nat :=
            match cs with
            | [] => 0
            | Rule c :: cs' => height c `max` go cs'
            | _ :: cs' => go cs'
            end) cs)
  end.

(** load_ast behind from_reader -- main.rs:96-122 ([ast.accept] of RuleListContext is visit_rule_list,
    which is visit_children for the first two visitors). *)
Definition load_tree (ast : rule_ctx) : res (grammar * list lexer_rule_data) :=
  let g := grammar_new [25105; 30340; 25991; 27861]%N in
  let! (_, s1) := visit_children literal_visitor ast (LiteralState (g_vocabulary g) 2 []) in
  let! (_, s2) := visit_children symbol_visitor ast
                    (SymbolState (lt_vocabulary s1) (lt_data s1) (lt_next_token_id s1) 0) in
  let! s3 := production_visit_rule_list (height ast) ast
               (production_visitor_new (sy_vocabulary s2) (productions g) (sy_next_rule_id s2)) in
  Ret (Grammar (g_name g) (ps_vocabulary s3) (ps_productions s3), sy_data s2).

(** *** LexerRuleVisitor -- lexer_rule_visitor.rs:28-65 *)
Record lexer_state := LexerState { le_data : list lexer_rule_data; le_next_token_type : nat }.
Definition lexer_visit_lexer_rule (ctx : rule_ctx) (s : lexer_state) : res (unit * lexer_state) :=
  let! tok := unwrap (lexer_rule_token_ref ctx) in
  let name := text tok in
  if existsb (fun d => bool_decide (ld_name d = name)) (le_data s) then Ret (tt, s)
  else
    let! reg := unwrap (lexer_rule_regular ctx) in
    let! rl := unwrap (regular_regular_literal reg) in
    let regular := text rl in
    if blen regular <? 2 then Ret (tt, s)
    else
      let! regex := unwrap_regular regular in
      Ret (tt, LexerState (le_data s ++ [LexerRuleData (le_next_token_type s) name regex]) (S (le_next_token_type s))).
Definition lexer_visitor : visitor lexer_state unit :=
  Visitor lexer_state unit None None None None None None None (Some lexer_visit_lexer_rule) None
    (fun _ s => Ret (tt, s)) (fun _ s => Ret (tt, s)) (fun s => Ret (tt, s))
    (fun _ next s => Ret (next, s)) (fun _ _ s => Ret (true, s)).

(** *** StringLiteralVisitor -- lexer_rule_visitor.rs:68-110 *)
Record strings_state := StringsState { st_data : list lexer_rule_data; st_next_token_type : nat; st_cache : gset str }.
Definition strings_new : strings_state := StringsState [] 2 ∅.
(** the chain of replace calls -- lexer_rule_visitor.rs:85-89 *)
Definition literal_regex (s : str) : str :=
  replace (lit "*") (lit "\*") (
  replace (lit "+") (lit "\+") (
  replace (lit "\'") (lit "'") (
  replace (lit "\r") [13%N] (
  replace (lit "\\") (lit "\") (
  replace (lit "\t") [9%N] (
  replace (lit "\n") [10%N] s)))))).
Definition strings_visit_terminal (t : token) (s : strings_state) : res (unit * strings_state) :=
  if token_type t =? STRING_LITERAL then
    let name := text t in
    if bool_decide (name ∈ st_cache s) then Ret (tt, s)
    else
      let! inner := unwrap (if blen name =? 0 then None else slice_bytes 1 (blen name - 1) name) in
      Ret (tt, StringsState (st_data s ++ [LexerRuleData (st_next_token_type s)
                                  (lit "T_" ++ usize_to_string (st_next_token_type s))
                                  (lit "^(" ++ literal_regex inner ++ lit ")")])
                 (S (st_next_token_type s)) ({[name]} ∪ st_cache s))
  else Ret (tt, s).
Definition strings_visitor : visitor strings_state unit :=
  Visitor strings_state unit None None None None None None None None None
    strings_visit_terminal (fun _ s => Ret (tt, s)) (fun s => Ret (tt, s))
    (fun _ next s => Ret (next, s)) (fun _ _ s => Ret (true, s)).
