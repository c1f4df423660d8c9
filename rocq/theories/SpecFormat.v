(** SpecFormat.v -- the layout of displayed numbers, trees and grammars. *)
From Verif Require Export SpecTreeDisplay SpecGrammar.

(** [numeral n s]: s is the decimal numeral of n, without leading zeros. *)
Definition numeral (n : nat) (s : str) : Prop :=
  fold_left (fun v c => 10 * v + N.to_nat (c - 48)%N) s 0 = n /\
  Forall (fun c => (48 <= c <= 57)%N) s /\ s <> [] /\ (forall r, s = 48%N :: r -> r = []).

(** [shown sh s]: a leaf is shown by its name, a node as its name and, in parentheses, what is below, in order. *)
Inductive shown : shape -> str -> Prop :=
| shown_leaf n : shown (Leaf n) n
| shown_node n l ss : Forall2 shown l ss -> shown (Node n l) (n ++ lit " (" ++ concat (map (fun s => s ++ lit " ") ss) ++ lit ")").

(** How an item is printed: a nonterminal by its name, or its number if it has none, a terminal behind a blank. *)
Inductive printed_nonterminal (v : vocabulary) (id : nat) : str -> Prop :=
| printed_named n : get_nonterminal_name_by_id v id = Some n -> printed_nonterminal v id n
| printed_unnamed n : get_nonterminal_name_by_id v id = None -> numeral id n -> printed_nonterminal v id n.
Inductive printed_item (v : vocabulary) : item -> str -> Prop :=
| printed_nt id n : printed_nonterminal v id n -> printed_item v (NT id) n
| printed_t id n : get_terminal_name_by_id v id = Some n -> printed_item v (T id) (lit " " ++ n).
(** One line per production. *)
Inductive printed_production (v : vocabulary) (p : production) : str -> Prop :=
| printed_line n ss : printed_nonterminal v (left p) n -> Forall2 (printed_item v) (right p) ss ->
    printed_production v p (n ++ lit " ->" ++ concat ss ++ lit ";" ++ [10%N]).
