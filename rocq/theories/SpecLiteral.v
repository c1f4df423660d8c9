(** SpecLiteral.v -- the text that a string literal of the grammar language stands for. *)
From Verif Require Export Visitors Regex.

(** [denotes body w]: between quotes, [body] stands for the text w. *)
Inductive denotes : str -> str -> Prop :=
| denotes_nil : denotes [] []
| denotes_char c body w : c <> 92%N -> denotes body w -> denotes (c :: body) (c :: w)
| denotes_escape e v body w : (e, v) ∈ [(110%N, 10%N); (116%N, 9%N); (114%N, 13%N); (39%N, 39%N); (92%N, 92%N)] ->
    denotes body w -> denotes (92%N :: e :: body) (v :: w).

(** The characters with a meaning in regexes that the visitor does not escape. *)
Definition unescaped_meta : str := lit "\.?()|[]{}^$".

(** A matcher that recognises exactly w. *)
Definition matches_exactly (m : matcher) (w : str) : Prop :=
  forall s, (forall s', s = w ++ s' -> m s = Some (blen w)) /\ ((forall s', s <> w ++ s') -> m s = None).
