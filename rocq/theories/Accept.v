(** Accept.v -- model of accept, enter and exit of the nine context traits: src/tool/syntaxis/syntaxis_context.rs:116-370
    (src/tool/v1/syntaxis_context.rs has the same accept functions and neither enter nor exit). *)
From Verif Require Export Walker Visitors.

(** A method visit_* of the trait: the override, or the default body self.visit_children(ctx.as_rule()) --
    syntaxis_visitor.rs:9-43 *)
Definition method {S R} (v : visitor S R) (m : visitor S R -> option (rule_ctx -> S -> res (R * S))) (ctx : rule_ctx) (s : S) : res (R * S) :=
  match m v with Some f => f ctx s | None => visit_children v ctx s end.

(** syntaxis_context.rs:133-135, v1:128-130 *)
Definition rule_list_accept {S R} (ctx : rule_ctx) (v : visitor S R) : S -> res (R * S) := method v v_rule_list ctx.
(** syntaxis_context.rs:165-167, v1:154-156 *)
Definition parser_rule_accept {S R} (ctx : rule_ctx) (v : visitor S R) : S -> res (R * S) := method v v_parser_rule ctx.
(** syntaxis_context.rs:197-199, v1:180-182 *)
Definition lexer_rule_accept {S R} (ctx : rule_ctx) (v : visitor S R) : S -> res (R * S) := method v v_lexer_rule ctx.
(** syntaxis_context.rs:223-225, v1:200-202 *)
Definition block_accept {S R} (ctx : rule_ctx) (v : visitor S R) : S -> res (R * S) := method v v_block ctx.
(** syntaxis_context.rs:251-253, v1:221-223 *)
Definition alternative_accept {S R} (ctx : rule_ctx) (v : visitor S R) : S -> res (R * S) := method v v_alternative ctx.
(** syntaxis_context.rs:269-271, v1:232-234 *)
Definition epsilon_accept {S R} (ctx : rule_ctx) (v : visitor S R) : S -> res (R * S) := method v v_epsilon ctx.
(** syntaxis_context.rs:315-317, v1:272-274 *)
Definition element_accept {S R} (ctx : rule_ctx) (v : visitor S R) : S -> res (R * S) := method v v_element ctx.
(** syntaxis_context.rs:341-343, v1:292-294 *)
Definition ebnf_suffix_accept {S R} (ctx : rule_ctx) (v : visitor S R) : S -> res (R * S) := method v v_ebnf_suffix ctx.
(** syntaxis_context.rs:359-361, v1:304-306 *)
Definition regular_accept {S R} (ctx : rule_ctx) (v : visitor S R) : S -> res (R * S) := method v v_regular ctx.

(** enter and exit -- syntaxis_context.rs:137-143 *)
Definition rule_list_enter {S} (ctx : rule_ctx) (l : listener S) : S -> S := enter_rule_list l ctx.
Definition rule_list_exit {S} (ctx : rule_ctx) (l : listener S) : S -> S := exit_rule_list l ctx.
(** :169-175 *)
Definition parser_rule_enter {S} (ctx : rule_ctx) (l : listener S) : S -> S := enter_parser_rule l ctx.
Definition parser_rule_exit {S} (ctx : rule_ctx) (l : listener S) : S -> S := exit_parser_rule l ctx.
(** :201-207 *)
Definition lexer_rule_enter {S} (ctx : rule_ctx) (l : listener S) : S -> S := enter_lexer_rule l ctx.
Definition lexer_rule_exit {S} (ctx : rule_ctx) (l : listener S) : S -> S := exit_lexer_rule l ctx.
(** :227-233 *)
Definition block_enter {S} (ctx : rule_ctx) (l : listener S) : S -> S := enter_block l ctx.
Definition block_exit {S} (ctx : rule_ctx) (l : listener S) : S -> S := exit_block l ctx.
(** :255-261 *)
Definition alternative_enter {S} (ctx : rule_ctx) (l : listener S) : S -> S := enter_alternative l ctx.
Definition alternative_exit {S} (ctx : rule_ctx) (l : listener S) : S -> S := exit_alternative l ctx.
(** :273-279 *)
Definition epsilon_enter {S} (ctx : rule_ctx) (l : listener S) : S -> S := enter_epsilon l ctx.
Definition epsilon_exit {S} (ctx : rule_ctx) (l : listener S) : S -> S := exit_epsilon l ctx.
(** :319-325 *)
Definition element_enter {S} (ctx : rule_ctx) (l : listener S) : S -> S := enter_element l ctx.
Definition element_exit {S} (ctx : rule_ctx) (l : listener S) : S -> S := exit_element l ctx.
(** :345-351 *)
Definition ebnf_suffix_enter {S} (ctx : rule_ctx) (l : listener S) : S -> S := enter_ebnf_suffix l ctx.
Definition ebnf_suffix_exit {S} (ctx : rule_ctx) (l : listener S) : S -> S := exit_ebnf_suffix l ctx.
(** :363-369 *)
Definition regular_enter {S} (ctx : rule_ctx) (l : listener S) : S -> S := enter_regular l ctx.
Definition regular_exit {S} (ctx : rule_ctx) (l : listener S) : S -> S := exit_regular l ctx.

(** load_ast behind from_reader with its calls of accept -- main.rs:96-122 ([load_tree] of Visitors.v has them unfolded).
    The last one is visit_rule_list of the production visitor. *)
Definition load_tree_accept (ast : rule_ctx) : res (grammar * list lexer_rule_data) :=
  let g := grammar_new [25105; 30340; 25991; 27861]%N in
  let! (_, s1) := rule_list_accept ast literal_visitor (LiteralState (g_vocabulary g) 2 []) in
  let! (_, s2) := rule_list_accept ast symbol_visitor
                    (SymbolState (lt_vocabulary s1) (lt_data s1) (lt_next_token_id s1) 0) in
  let! s3 := production_visit_rule_list (height ast) ast
               (production_visitor_new (sy_vocabulary s2) (productions g) (sy_next_rule_id s2)) in
  Ret (Grammar (g_name g) (ps_vocabulary s3) (ps_productions s3), sy_data s2).
