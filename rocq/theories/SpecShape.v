(** SpecShape.v -- what it means that the typed accessors of a node describe all of its children. *)
From Verif Require Export SpecTree SpecEbnf V1Context.

(** The accessors of one syntaxis_context.rs, by the trait they belong to. *)
Record accessors := Accessors {
  of_list_parser_rules : rule_ctx -> list rule_ctx;  of_list_lexer_rules : rule_ctx -> list rule_ctx;
  of_parser_rule_name : rule_ctx -> option token;    of_parser_rule_colon : rule_ctx -> option token;
  of_parser_rule_block : rule_ctx -> option rule_ctx; of_parser_rule_semi : rule_ctx -> option token;
  of_lexer_rule_name : rule_ctx -> option token;     of_lexer_rule_colon : rule_ctx -> option token;
  of_lexer_rule_regular : rule_ctx -> option rule_ctx; of_lexer_rule_semi : rule_ctx -> option token;
  of_block_alternatives : rule_ctx -> list rule_ctx; of_block_ors : rule_ctx -> list token;
  of_alternative_elements : rule_ctx -> list rule_ctx; of_alternative_epsilon : rule_ctx -> option rule_ctx;
  of_epsilon_token : rule_ctx -> option token;
  of_element_token_ref : rule_ctx -> option token;   of_element_string_literal : rule_ctx -> option token;
  of_element_rule_ref : rule_ctx -> option token;    of_element_lparen : rule_ctx -> option token;
  of_element_block : rule_ctx -> option rule_ctx;    of_element_rparen : rule_ctx -> option token;
  of_element_suffix : rule_ctx -> option rule_ctx;
  of_suffix_star : rule_ctx -> option token;         of_suffix_plus : rule_ctx -> option token;
  of_suffix_questions : rule_ctx -> list token;
  of_regular_literal : rule_ctx -> option token;
}.
Definition hand_accessors : accessors :=
  Accessors parser_rule_list lexer_rule_list parser_rule_rule_ref ctx_colon parser_rule_block ctx_semi
    lexer_rule_token_ref ctx_colon lexer_rule_regular ctx_semi alternative_list or_list element_list alternative_epsilon
    epsilon_epsilon element_token_ref element_string_literal element_rule_ref element_lparen element_block element_rparen
    element_ebnf_suffix suffix_star suffix_plus question_list regular_regular_literal.
Definition v1_accessors : accessors :=
  Accessors v1_parser_rule_list v1_lexer_rule_list v1_parser_rule_rule_ref v1_parser_rule_colon v1_parser_rule_block v1_parser_rule_semi
    v1_lexer_rule_token_ref v1_lexer_rule_colon v1_lexer_rule_regular v1_lexer_rule_semi v1_alternative_list v1_or_list
    v1_element_list v1_alternative_epsilon v1_epsilon_epsilon v1_element_token_ref v1_element_string_literal v1_element_rule_ref
    v1_element_lparen v1_element_block v1_element_rparen v1_element_ebnf_suffix v1_suffix_star v1_suffix_plus v1_question_list
    v1_regular_regular_literal.

(** [merged xs ys zs]: zs consists of the elements of xs and of ys, each in their order. *)
Inductive merged {A} : list A -> list A -> list A -> Prop :=
| merged_nil : merged [] [] []
| merged_left x xs ys zs : merged xs ys zs -> merged (x :: xs) ys (x :: zs)
| merged_right y xs ys zs : merged xs ys zs -> merged xs (y :: ys) (y :: zs).
(** [separated xs os zs]: zs is x1 o1 x2 o2 ... xn. *)
Inductive separated {A} : list A -> list A -> list A -> Prop :=
| separated_one x : separated [x] [] [x]
| separated_more x o xs os zs : separated xs os zs -> separated (x :: xs) (o :: os) (x :: o :: zs).

(** What an element starts with. *)
Inductive operand (a : accessors) (r : rule_ctx) : list ast -> Prop :=
| operand_token t : of_element_token_ref a r = Some t -> of_element_string_literal a r = None -> of_element_rule_ref a r = None ->
    of_element_lparen a r = None -> of_element_block a r = None -> of_element_rparen a r = None -> operand a r [Terminal t]
| operand_literal t : of_element_token_ref a r = None -> of_element_string_literal a r = Some t -> of_element_rule_ref a r = None ->
    of_element_lparen a r = None -> of_element_block a r = None -> of_element_rparen a r = None -> operand a r [Terminal t]
| operand_rule t : of_element_token_ref a r = None -> of_element_string_literal a r = None -> of_element_rule_ref a r = Some t ->
    of_element_lparen a r = None -> of_element_block a r = None -> of_element_rparen a r = None -> operand a r [Terminal t]
| operand_group l b p : of_element_token_ref a r = None -> of_element_string_literal a r = None -> of_element_rule_ref a r = None ->
    of_element_lparen a r = Some l -> of_element_block a r = Some b -> of_element_rparen a r = Some p ->
    operand a r [Terminal l; Rule b; Terminal p].

(** The accessors that belong to the rule of node r return all its children, each once, in the positions the comment
    of main.rs:48-66 gives them. *)
Definition described (a : accessors) (r : rule_ctx) : Prop :=
  match rule_index r with
  | 0 (* rule_list *) => merged (map Rule (of_list_parser_rules a r)) (map Rule (of_list_lexer_rules a r)) (children r)
  | 1 (* parser_rule *) => exists n c b s, of_parser_rule_name a r = Some n /\ of_parser_rule_colon a r = Some c /\
      of_parser_rule_block a r = Some b /\ of_parser_rule_semi a r = Some s /\
      children r = [Terminal n; Terminal c; Rule b; Terminal s]
  | 2 (* block *) => separated (map Rule (of_block_alternatives a r)) (map Terminal (of_block_ors a r)) (children r)
  | 3 (* alternative *) =>
      (exists e, of_alternative_epsilon a r = Some e /\ of_alternative_elements a r = [] /\ children r = [Rule e]) \/
      (of_alternative_epsilon a r = None /\ children r = map Rule (of_alternative_elements a r))
  | 4 (* epsilon *) => exists t, of_epsilon_token a r = Some t /\ children r = [Terminal t]
  | 5 (* element *) => exists head, operand a r head /\
      children r = head ++ match of_element_suffix a r with Some s => [Rule s] | None => [] end
  | 6 (* ebnf_suffix *) =>
      (exists t, of_suffix_star a r = Some t /\ of_suffix_plus a r = None /\ length (of_suffix_questions a r) <= 1 /\
         children r = Terminal t :: map Terminal (of_suffix_questions a r)) \/
      (exists t, of_suffix_star a r = None /\ of_suffix_plus a r = Some t /\ length (of_suffix_questions a r) <= 1 /\
         children r = Terminal t :: map Terminal (of_suffix_questions a r)) \/
      (of_suffix_star a r = None /\ of_suffix_plus a r = None /\ 1 <= length (of_suffix_questions a r) <= 2 /\
         children r = map Terminal (of_suffix_questions a r))
  | 7 (* lexer_rule *) => exists n c b s, of_lexer_rule_name a r = Some n /\ of_lexer_rule_colon a r = Some c /\
      of_lexer_rule_regular a r = Some b /\ of_lexer_rule_semi a r = Some s /\
      children r = [Terminal n; Terminal c; Rule b; Terminal s]
  | 8 (* regular *) => exists t, of_regular_literal a r = Some t /\ children r = [Terminal t]
  | _ => False
  end.
