(** ProgramOrders.v -- main.rs:32-88 once more, with arbitrary iteration orders of the FIRST and FOLLOW sets in ll1_table (Orders.v). *)
From Verif Require Export Program Orders.

(** first_set, follow_set, ll1_table -- main.rs:34-38: every outcome some iteration orders of the sets lead to. *)
Definition any_build (fuel : nat) (order : list production) (g : grammar) (x : res table_st) : Prop :=
  match (let! (first, cache) := first_set fuel order g in let! follow := follow_set fuel order g first in Ret (cache, follow)) with
  | Ret (cache, follow) =>
      match x with
      | Ret st => any_table cache follow order (∅, []) st
      | Panic => ~ exists st, any_table cache follow order (∅, []) st
      | OutOfFuel => False
      end
  | Panic => x = Panic
  | OutOfFuel => x = OutOfFuel
  end.

(** print_main with a given outcome of the analysis. *)
Definition print_main_on (build : grammar -> res table_st) (nd : N -> bool) (huge : str -> bool) (fuel : nat) (o : os) (d : disk) (input : str) : printed rule_ctx :=
  pbind (pres (read_tree huge o d (lit "src/tool/syntaxis/syntaxis2.json"))) (fun ast =>
  pbind (print_load_tree ast) (fun '(g, _) =>
  pbind (pres (build g)) (fun '(tab, w) =>
  pbind (map line_conflict w, v1_lexer nd input) (fun c =>
  pbind (pres (scan_all c 15 0 fuel lexer_init)) (fun '(toks, rest) =>
  pbind (match rest with Some s => [s] | None => [] end, Ret tt) (fun _ =>
  print_parse (log_parse (g_vocabulary g) tab toks fuel))))))).
(** main_effect with any iteration orders: the lines instead of their text. *)
Definition any_effect (nd : N -> bool) (huge : str -> bool) (order : list production) (fuel : nat) (o : os) (d : disk) (input : str)
    (lines : list str) (e : res unit) (d' : disk) : Prop :=
  exists build, (forall g, any_build fuel order g (build g)) /\
    let '(l, x) := print_main_on build nd huge fuel o d input in
    l = lines /\
    match x with
    | Ret r => draw o d r (lit "parser") (lit "parser2.html") = (e, d')
    | Panic => e = Panic /\ d' = d
    | OutOfFuel => e = OutOfFuel /\ d' = d
    end.
