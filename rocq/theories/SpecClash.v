(** SpecClash.v -- what a grammar means when the operand of a suffix operator is recognised by its number alone:
    as the first operand of that operator having the number. *)
From Verif Require Export SpecEbnf.

(** The operands of suffix operators, in the order in which they are met: the ones inside a group before the group. *)
Fixpoint element_operands (e : element) : list (suffix * atom) :=
  match e with Element a s => atom_operands a ++ match s with Some (k, _) => [(k, a)] | None => [] end end
with atom_operands (a : atom) : list (suffix * atom) :=
  match a with Group alts => concat (map alternative_operands alts) | _ => [] end
with alternative_operands (a : alternative) : list (suffix * atom) :=
  match a with Epsilon => [] | Sequence es => concat (map element_operands es) end.
Definition operands (G : list rule) : list (suffix * atom) :=
  concat (map (fun r => match r with ParserRule _ alts => concat (map alternative_operands alts) | LexerRule _ _ => [] end) G).

Definition same_suffix (k k' : suffix) : bool :=
  match k, k' with Star, Star | Plus, Plus | Question, Question => true | _, _ => false end.
(** The first operand of k with the number of a. *)
Definition first_operand (number : atom -> nat) (G : list rule) (k : suffix) (a : atom) : atom :=
  match List.find (fun ka => same_suffix k ka.1 && (number ka.2 =? number a)) (operands G) with
  | Some ka => ka.2
  | None => a
  end.

(** As matches_element etc. of SpecEbnf.v, but an operand a of k stands for [as_read k a]. *)
Section reads.
  Context (G : list rule) (as_read : suffix -> atom -> atom).
  Inductive reads_element : element -> list str -> Prop :=
  | reads_plain a w : reads_atom a w -> reads_element (Element a None) w
  | reads_star_nil a b : reads_element (Element a (Some (Star, b))) []
  | reads_star_cons a b w1 w2 : reads_atom (as_read Star a) w1 -> reads_element (Element a (Some (Star, b))) w2 ->
      reads_element (Element a (Some (Star, b))) (w1 ++ w2)
  | reads_plus_one a b w : reads_atom (as_read Plus a) w -> reads_element (Element a (Some (Plus, b))) w
  | reads_plus_more a b w1 w2 : reads_atom (as_read Plus a) w1 -> reads_element (Element a (Some (Plus, b))) w2 ->
      reads_element (Element a (Some (Plus, b))) (w1 ++ w2)
  | reads_question_no a b : reads_element (Element a (Some (Question, b))) []
  | reads_question_yes a b w : reads_atom (as_read Question a) w -> reads_element (Element a (Some (Question, b))) w
  with reads_atom : atom -> list str -> Prop :=
  | reads_token name : reads_atom (TokenRef name) [name]
  | reads_literal l : reads_atom (StringLiteral l) [l]
  | reads_rule name alts alt w : ParserRule name alts ∈ G -> alt ∈ alts -> reads_alternative alt w ->
      reads_atom (RuleRef name) w
  | reads_group alts alt w : alt ∈ alts -> reads_alternative alt w -> reads_atom (Group alts) w
  with reads_alternative : alternative -> list str -> Prop :=
  | reads_epsilon : reads_alternative Epsilon []
  | reads_sequence es w : reads_elements es w -> reads_alternative (Sequence es) w
  with reads_elements : list element -> list str -> Prop :=
  | reads_nil : reads_elements [] []
  | reads_cons e es w1 w2 : reads_element e w1 -> reads_elements es w2 -> reads_elements (e :: es) (w1 ++ w2).
End reads.

(** An operator applied to a token is applied to tokens only. *)
Definition tokens_apart (G : list rule) : Prop :=
  forall k b b' n a, occurs (Element (TokenRef n) (Some (k, b))) G -> occurs (Element a (Some (k, b'))) G -> exists m, a = TokenRef m.
