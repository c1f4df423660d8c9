(** SpecNamed.v -- a group that gets a name. *)
From Verif Require Export SpecUnused.

(** The same construct with some of the groups (body) replaced by the rule name. *)
Inductive named_element (name : str) (body : list alternative) : element -> element -> Prop :=
| named_element_intro a a' s : named_atom name body a a' -> named_element name body (Element a s) (Element a' s)
with named_atom (name : str) (body : list alternative) : atom -> atom -> Prop :=
| named_same a : (forall alts, a <> Group alts) -> named_atom name body a a
| named_inside alts alts' : named_alternatives name body alts alts' -> named_atom name body (Group alts) (Group alts')
| named_here : named_atom name body (Group body) (RuleRef name)
with named_alternatives (name : str) (body : list alternative) : list alternative -> list alternative -> Prop :=
| named_alternatives_nil : named_alternatives name body [] []
| named_alternatives_cons a a' l l' : named_alternative name body a a' -> named_alternatives name body l l' -> named_alternatives name body (a :: l) (a' :: l')
with named_alternative (name : str) (body : list alternative) : alternative -> alternative -> Prop :=
| named_epsilon : named_alternative name body Epsilon Epsilon
| named_sequence es es' : named_elements name body es es' -> named_alternative name body (Sequence es) (Sequence es')
with named_elements (name : str) (body : list alternative) : list element -> list element -> Prop :=
| named_elements_nil : named_elements name body [] []
| named_elements_cons e e' es es' : named_element name body e e' -> named_elements name body es es' -> named_elements name body (e :: es) (e' :: es').

(** The rules of G' are those of G with some of the groups (body) replaced by a new name, in any order, and a rule of that name for the group. *)
Definition group_named (name : str) (body : list alternative) (G G' : list rule) : Prop :=
  name ∉ parser_rule_names G /\ (forall s, ~ occurs (Element (RuleRef name) s) G) /\
  (exists body', ParserRule name body' ∈ G' /\ named_alternatives name body body body') /\
  (forall n alts, ParserRule n alts ∈ G -> exists alts', ParserRule n alts' ∈ G' /\ named_alternatives name body alts alts') /\
  (forall n alts', ParserRule n alts' ∈ G' -> if decide (n = name) then named_alternatives name body body alts' else exists alts, ParserRule n alts ∈ G /\ named_alternatives name body alts alts').
