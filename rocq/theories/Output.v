(** Output.v -- model of the println! calls of src/tool/visitor/grammar_visitor.rs, src/tool/visitor/lexer_rule_visitor.rs,
    src/tool/grammar/mod.rs, src/tool/v1/syntaxis_lexer.rs and src/tool/v1/syntaxis_parser.rs: the visitors of Visitors.v once
    more, with the lines they print.  Lines are kept in the order of printing and without the newline that println! adds; the
    lines printed before a panic are not kept (for these see Program.v). *)
From Verif Require Export Main.

(** println!("重复定义 token: {}", name) -- grammar_visitor.rs:76 *)
Definition line_token (name : str) : str := [37325; 22797; 23450; 20041]%N ++ lit " token: " ++ name.
(** println!("非法正则表达式") -- grammar_visitor.rs:82, lexer_rule_visitor.rs:44 *)
Definition line_regex : str := [38750; 27861; 27491; 21017; 34920; 36798; 24335]%N.
(** println!("重复定义 rule: {}", name) -- grammar_visitor.rs:97 *)
Definition line_rule (name : str) : str := [37325; 22797; 23450; 20041]%N ++ lit " rule: " ++ name.
(** println!("产生式重复") -- grammar_visitor.rs:149 *)
Definition line_alternative : str := [20135; 29983; 24335; 37325; 22797]%N.
(** println!("重复产生式") -- grammar_visitor.rs:291 *)
Definition line_block : str := [37325; 22797; 20135; 29983; 24335]%N.
(** println!("{} 重复定义", name) -- lexer_rule_visitor.rs:37 *)
Definition line_again (name : str) : str := name ++ lit " " ++ [37325; 22797; 23450; 20041]%N.
(** println!("符号不匹配") -- ll1_parser.rs:52, v1/syntaxis_parser.rs:122 *)
Definition line_mismatch : str := [31526; 21495; 19981; 21305; 37197]%N.

(** *** SymbolVisitor -- grammar_visitor.rs:72-104 *)
Definition out_symbol_lexer_rule (ctx : rule_ctx) (so : symbol_state * list str) : res (unit * (symbol_state * list str)) :=
  let '(s, o) := so in
  let! tok := unwrap (lexer_rule_token_ref ctx) in
  let name := text tok in
  if is_terminal_name_defined (sy_vocabulary s) name then Ret (tt, (s, o ++ [line_token name]))
  else
    let! reg := unwrap (lexer_rule_regular ctx) in
    let! rl := unwrap (regular_regular_literal reg) in
    let regular := text rl in
    if blen regular <? 2 then Ret (tt, (s, o ++ [line_regex]))
    else
      let! regex := unwrap_regular regular in
      Ret (tt, ({| sy_vocabulary := fst (add_terminal (sy_vocabulary s) (sy_next_token_id s) name);
                   sy_data := sy_data s ++ [LexerRuleData (sy_next_token_id s) name regex];
                   sy_next_token_id := S (sy_next_token_id s);
                   sy_next_rule_id := sy_next_rule_id s |}, o)).
Definition out_symbol_parser_rule (ctx : rule_ctx) (so : symbol_state * list str) : res (unit * (symbol_state * list str)) :=
  let '(s, o) := so in
  let! tok := unwrap (parser_rule_rule_ref ctx) in
  let name := text tok in
  if is_terminal_name_defined (sy_vocabulary s) name then Ret (tt, (s, o ++ [line_rule name]))
  else Ret (tt, ({| sy_vocabulary := fst (add_named_nonterminal (sy_vocabulary s) (sy_next_rule_id s) name);
                    sy_data := sy_data s;
                    sy_next_token_id := sy_next_token_id s;
                    sy_next_rule_id := S (sy_next_rule_id s) |}, o)).
Definition out_symbol_visitor : visitor (symbol_state * list str) unit :=
  Visitor (symbol_state * list str) unit None (Some out_symbol_parser_rule) None None None None None
    (Some out_symbol_lexer_rule) None
    (fun _ s => Ret (tt, s)) (fun _ s => Ret (tt, s)) (fun s => Ret (tt, s))
    (fun _ next s => Ret (next, s)) (fun _ _ s => Ret (true, s)).

(** *** ProductionVisitor -- grammar_visitor.rs:128-300.  The loop of visit_block, with the line printed when insert returns
    false -- grammar_visitor.rs:288-293 *)
Fixpoint out_insert (id : nat) (rights : list (list item)) (P : gset production) : gset production * list str :=
  match rights with
  | [] => (P, [])
  | r :: rights' =>
      let '(P', o) := out_insert id rights' ({[ Production id r ]} ∪ P) in
      (P', (if bool_decide (Production id r ∈ P) then [line_block] else []) ++ o)
  end.
Definition out_make_block (rights : list (list item)) (so : production_state * list str) : nat * (production_state * list str) :=
  let '(s, o) := so in
  match block_cache s !! rights with
  | Some id => (id, (s, o))
  | None =>
      let id := ps_next_rule_id s in
      let '(P, o') := out_insert id rights (ps_productions s) in
      (id, ({| ps_vocabulary := fst (add_unnamed_nonterminal (ps_vocabulary s) id);
               ps_productions := P;
               ps_next_rule_id := S id;
               block_cache := <[rights := id]> (block_cache s);
               star_cache := star_cache s;
               plus_cache := plus_cache s;
               question_cache := question_cache s |}, o ++ o'))
  end.
(** the suffix branches print nothing -- grammar_visitor.rs:194-265 *)
Definition out_apply_suffix (ctx : rule_ctx) (id : nat) (it : item) (so : production_state * list str) : item * (production_state * list str) :=
  let '(s, o) := so in let '(it', s') := apply_suffix ctx id it s in (it', (s', o)).

(** visit_alternative, the loop over the alternatives, visit_block -- grammar_visitor.rs:156-169, 269-298 *)
Fixpoint out_visit_elements (rec : rule_ctx -> production_state * list str -> res (item * (production_state * list str)))
    (es : list rule_ctx) (so : production_state * list str) : res (list item * (production_state * list str)) :=
  match es with
  | [] => Ret ([], so)
  | e :: es' =>
      let! (it, s1) := rec e so in
      let! (its, s2) := out_visit_elements rec es' s1 in
      Ret (it :: its, s2)
  end.
Definition out_visit_alternative (rec : rule_ctx -> production_state * list str -> res (item * (production_state * list str)))
    (ctx : rule_ctx) (so : production_state * list str) : res (list item * (production_state * list str)) :=
  match alternative_epsilon ctx with
  | Some _ => Ret ([], so)
  | None => out_visit_elements rec (element_list ctx) so
  end.
Fixpoint out_visit_alternatives (rec : rule_ctx -> production_state * list str -> res (item * (production_state * list str)))
    (alts : list rule_ctx) (so : production_state * list str) : res (list (list item) * (production_state * list str)) :=
  match alts with
  | [] => Ret ([], so)
  | a :: alts' =>
      let! (r, s1) := out_visit_alternative rec a so in
      let! (rs, s2) := out_visit_alternatives rec alts' s1 in
      Ret (r :: rs, s2)
  end.
Definition out_visit_block (rec : rule_ctx -> production_state * list str -> res (item * (production_state * list str)))
    (ctx : rule_ctx) (so : production_state * list str) : res (nat * (production_state * list str)) :=
  let! (rights, s1) := out_visit_alternatives rec (alternative_list ctx) so in
  Ret (out_make_block rights s1).
(** visit_element -- grammar_visitor.rs:172-266 *)
Fixpoint out_visit_element (fuel : nat) (ctx : rule_ctx) (so : production_state * list str) : res (item * (production_state * list str)) :=
  match fuel with
  | 0 => OutOfFuel
  | S fuel' =>
      match element_token_ref ctx with
      | Some tok =>
          let! id := unwrap (get_terminal_id_by_name (ps_vocabulary (fst so)) (text tok)) in
          Ret (out_apply_suffix ctx id (T id) so)
      | None =>
      match element_string_literal ctx with
      | Some literal =>
          let! id := unwrap (get_terminal_id_by_name (ps_vocabulary (fst so)) (text literal)) in
          Ret (out_apply_suffix ctx id (T id) so)
      | None =>
      match element_rule_ref ctx with
      | Some rule =>
          let! id := unwrap (get_nonterminal_id_by_name (ps_vocabulary (fst so)) (text rule)) in
          Ret (out_apply_suffix ctx id (NT id) so)
      | None =>
      match element_block ctx with
      | Some block =>
          let! (id, s1) := out_visit_block (out_visit_element fuel') block so in
          Ret (out_apply_suffix ctx id (NT id) s1)
      | None => Panic
      end end end end
  end.
(** visit_parser_rule, visit_rule_list -- grammar_visitor.rs:130-153 *)
Definition out_rule_alternative (fuel id : nat) (so : production_state * list str) (alternative : rule_ctx) : res (production_state * list str) :=
  let! (r, (s1, o)) := out_visit_alternative (out_visit_element fuel) alternative so in
  Ret ({| ps_vocabulary := ps_vocabulary s1;
          ps_productions := {[ Production id r ]} ∪ ps_productions s1;
          ps_next_rule_id := ps_next_rule_id s1;
          block_cache := block_cache s1;
          star_cache := star_cache s1;
          plus_cache := plus_cache s1;
          question_cache := question_cache s1 |},
       o ++ if bool_decide (Production id r ∈ ps_productions s1) then [line_alternative] else []).
Definition out_parser_rule (fuel : nat) (so : production_state * list str) (ctx : rule_ctx) : res (production_state * list str) :=
  let! tok := unwrap (parser_rule_rule_ref ctx) in
  let! id := unwrap (get_nonterminal_id_by_name (ps_vocabulary (fst so)) (text tok)) in
  let! block := unwrap (parser_rule_block ctx) in
  rfold (out_rule_alternative fuel id) (alternative_list block) so.
Definition out_rule_list (fuel : nat) (ctx : rule_ctx) (so : production_state * list str) : res (production_state * list str) :=
  rfold (out_parser_rule fuel) (parser_rule_list ctx) so.

(** load_ast behind from_reader -- main.rs:96-122; the first visitor prints nothing. *)
Definition out_load_tree (ast : rule_ctx) : res (grammar * list lexer_rule_data * list str) :=
  let g := grammar_new [25105; 30340; 25991; 27861]%N in
  let! (_, s1) := visit_children literal_visitor ast (LiteralState (g_vocabulary g) 2 []) in
  let! (_, (s2, o2)) := visit_children out_symbol_visitor ast
                    (SymbolState (lt_vocabulary s1) (lt_data s1) (lt_next_token_id s1) 0, []) in
  let! (s3, o3) := out_rule_list (height ast) ast
               (production_visitor_new (sy_vocabulary s2) (productions g) (sy_next_rule_id s2), o2) in
  Ret (Grammar (g_name g) (ps_vocabulary s3) (ps_productions s3), sy_data s2, o3).

(** *** LexerRuleVisitor -- lexer_rule_visitor.rs:32-54 *)
Definition out_lexer_rule (ctx : rule_ctx) (so : lexer_state * list str) : res (unit * (lexer_state * list str)) :=
  let '(s, o) := so in
  let! tok := unwrap (lexer_rule_token_ref ctx) in
  let name := text tok in
  if existsb (fun d => bool_decide (ld_name d = name)) (le_data s) then Ret (tt, (s, o ++ [line_again name]))
  else
    let! reg := unwrap (lexer_rule_regular ctx) in
    let! rl := unwrap (regular_regular_literal reg) in
    let regular := text rl in
    if blen regular <? 2 then Ret (tt, (s, o ++ [line_regex]))
    else
      let! regex := unwrap_regular regular in
      Ret (tt, (LexerState (le_data s ++ [LexerRuleData (le_next_token_type s) name regex]) (S (le_next_token_type s)), o)).
Definition out_lexer_visitor : visitor (lexer_state * list str) unit :=
  Visitor (lexer_state * list str) unit None None None None None None None (Some out_lexer_rule) None
    (fun _ s => Ret (tt, s)) (fun _ s => Ret (tt, s)) (fun s => Ret (tt, s))
    (fun _ next s => Ret (next, s)) (fun _ _ s => Ret (true, s)).

(** *** derive(Debug) of ProductionItem and Production -- grammar/mod.rs:256-266.  {:?} is not the pretty form: a tuple variant
    is written Name(field), a struct Name { field: value, .. }, a Vec [a, b]. *)
Definition debug_item (it : item) : str :=
  match it with
  | NT n => lit "NonTerminal(" ++ usize_to_string n ++ lit ")"
  | T n => lit "Terminal(" ++ usize_to_string n ++ lit ")"
  end.
Fixpoint debug_items (its : list item) : str :=
  match its with
  | [] => []
  | [it] => debug_item it
  | it :: its' => debug_item it ++ lit ", " ++ debug_items its'
  end.
Definition debug_production (p : production) : str :=
  lit "Production { left: " ++ usize_to_string (left p) ++ lit ", right: [" ++ debug_items (right p) ++ lit "] }".
(** println!("{:?}, {:?}", production, p) -- grammar/mod.rs:204, 212 *)
Definition line_conflict (c : production * production) : str := debug_production (fst c) ++ lit ", " ++ debug_production (snd c).

(** *** main -- main.rs:32-88: what the whole run writes to standard output.  The drawer prints nothing.  [{}] of the rest of the
    input (v1/syntaxis_lexer.rs:162) is the text itself. *)
Definition println (line : str) : str := line ++ [10%N].
Definition main_stdout (nd : N -> bool) (order : list production) (fuel : nat) (file : json) (input : str) : res str :=
  let! o := from_value file in
  let! ast := unwrap o in
  let! (g, _, lines) := out_load_tree ast in
  let! (tab, w) := build_table fuel order g in
  let! c := v1_lexer nd input in
  let! (toks, rest) := scan_all c 15 0 fuel lexer_init in
  let! (r, mm) := parse (g_vocabulary g) tab toks fuel in
  Ret (concat (map println (lines ++ map line_conflict w ++ match rest with Some s => [s] | None => [] end ++ map (fun _ => line_mismatch) mm))).
