(** PropertiesProgramOrders.v -- C88: the iteration orders of the FIRST and FOLLOW sets.  Model: ProgramOrders.v, Orders.v. *)
From Verif Require Import ProgramOrdersProofs.

(** C88: whatever the iteration orders of the FIRST and FOLLOW sets, main ends in the same way, with the same disk, and prints the same
    lines; at most the conflict lines, which stand together, are in another order. *)
Theorem C88_inner_orders nd huge order fuel o d s lines e d' : any_effect nd huge order fuel o d s lines e d' ->
  exists a c c' b, lines = a ++ map line_conflict c' ++ b /\ c' ≡ₚ c /\ main_effect nd huge order fuel o d s = (unlines (a ++ map line_conflict c ++ b), e, d').
Proof. exact (c88_any nd huge order fuel o d s lines e d'). Qed.
Print Assumptions C88_inner_orders.

(** The run of Program.v is one of these runs. *)
Theorem C88_inner_own nd huge order fuel o d s :
  let '(lines, x) := print_main nd huge order fuel o d s in
  let '(_, e, d') := main_effect nd huge order fuel o d s in any_effect nd huge order fuel o d s lines e d'.
Proof. exact (c88_any_own nd huge order fuel o d s). Qed.
Print Assumptions C88_inner_own.
