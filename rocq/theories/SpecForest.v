(** SpecForest.v -- the syntax trees that a grammar written in the grammar language prescribes. *)
From Verif Require Export SpecEbnf.

(** [forest_* v G x cs]: the list of trees cs spells the construct x of the grammar G: a token reference is
    one leaf, a rule reference one node that carries the name and the id of the rule and whose children spell
    one of its alternatives; groups and repetitions leave no node of their own. *)
Inductive forest_element (v : vocabulary) (G : list rule) : element -> list ast -> Prop :=
| forest_plain a cs : forest_atom v G a cs -> forest_element v G (Element a None) cs
| forest_star_nil a b : forest_element v G (Element a (Some (Star, b))) []
| forest_star_cons a b cs1 cs2 : forest_atom v G a cs1 -> forest_element v G (Element a (Some (Star, b))) cs2 ->
    forest_element v G (Element a (Some (Star, b))) (cs1 ++ cs2)
| forest_plus_one a b cs : forest_atom v G a cs -> forest_element v G (Element a (Some (Plus, b))) cs
| forest_plus_more a b cs1 cs2 : forest_atom v G a cs1 -> forest_element v G (Element a (Some (Plus, b))) cs2 ->
    forest_element v G (Element a (Some (Plus, b))) (cs1 ++ cs2)
| forest_question_no a b : forest_element v G (Element a (Some (Question, b))) []
| forest_question_yes a b cs : forest_atom v G a cs -> forest_element v G (Element a (Some (Question, b))) cs
with forest_atom (v : vocabulary) (G : list rule) : atom -> list ast -> Prop :=
| forest_token name t : get_terminal_id_by_name v name = Some (token_type t) -> forest_atom v G (TokenRef name) [Terminal t]
| forest_rule name id alts alt cs : get_nonterminal_id_by_name v name = Some id -> ParserRule name alts ∈ G -> alt ∈ alts ->
    forest_alternative v G alt cs -> forest_atom v G (RuleRef name) [Rule (RuleCtx name cs id)]
| forest_group alts alt cs : alt ∈ alts -> forest_alternative v G alt cs -> forest_atom v G (Group alts) cs
with forest_alternative (v : vocabulary) (G : list rule) : alternative -> list ast -> Prop :=
| forest_epsilon : forest_alternative v G Epsilon []
| forest_sequence es cs : forest_elements v G es cs -> forest_alternative v G (Sequence es) cs
with forest_elements (v : vocabulary) (G : list rule) : list element -> list ast -> Prop :=
| forest_nil : forest_elements v G [] []
| forest_cons e es cs1 cs2 : forest_element v G e cs1 -> forest_elements v G es cs2 -> forest_elements v G (e :: es) (cs1 ++ cs2).

(** The tree is one that rule [name] of G prescribes. *)
Definition tree_of (v : vocabulary) (G : list rule) (name : str) (r : rule_ctx) : Prop := forest_atom v G (RuleRef name) [Rule r].
