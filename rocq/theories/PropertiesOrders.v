(** PropertiesOrders.v -- C29, C30: the iteration orders of the FIRST and FOLLOW sets.  Model: Orders.v. *)
From Verif Require Import FirstProofs OrdersProofs.

(** C29, C30: whatever the iteration orders of the FIRST and FOLLOW sets, ll1_table builds the same table and prints the same conflicts, up to
    their order. *)
Theorem C29_inner_orders order first follow tab w tab' w' :
  ll1_table order first follow = Ret (tab, w) -> any_table first follow order (∅, []) (tab', w') -> tab' = tab /\ w' ≡ₚ w.
Proof. exact (c29_inner order first follow tab w tab' w'). Qed.
Print Assumptions C29_inner_orders.
(** Nor does it depend on them whether it panics. *)
Theorem C29_inner_returns order first follow :
  (exists st, ll1_table order first follow = Ret st) <-> exists st, any_table first follow order (∅, []) st.
Proof. exact (c29_inner_returns order first follow). Qed.
Print Assumptions C29_inner_returns.

Example C29_inner_example : exists tab,
  ll1_table ex_inner_order ex_inner_first ∅ = Ret (tab, [(Production 0 [NT 1], Production 0 [T 3]); (Production 0 [NT 1], Production 0 [T 2])]) /\
  any_table ex_inner_first ∅ ex_inner_order (∅, []) (tab, [(Production 0 [NT 1], Production 0 [T 2]); (Production 0 [NT 1], Production 0 [T 3])]).
Proof. exact ex_inner. Qed.

(** C30: the loops of first_set and follow_set over a set can take any order. *)
Theorem C30_inner_insert c xs sm : xs ≡ₚ elements c -> insert_list xs sm = insert_all c sm.
Proof. exact (insert_all_perm c xs sm). Qed.
Print Assumptions C30_inner_insert.

Example C30_inner_insert_example : [3; 2] ≡ₚ elements ({[2; 3]} : gset nat) /\ insert_list [3; 2] ({[5]}, false) = ({[2; 3; 5]}, true).
Proof. split; apply (bool_decide_unpack _); by vm_compute. Qed.
