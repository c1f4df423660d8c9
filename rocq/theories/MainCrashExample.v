(** MainCrashExample.v -- examples for C87: grammar files with mistakes. *)
From Verif Require Export MainCrash BootstrapProofs.

Lemma ex_main_crash : main_log ascii_digit shipped_order 3000 syntaxis2_json (lit "ab cd ; AB : /x/ ;") = Ret ([], None, ([(1, 4)], inr (NoEntry 2 2))) /\
  main_log ascii_digit shipped_order 3000 syntaxis2_json (lit "ab : cd") = Ret ([], None, ([], inr (NoEntry 3 15))).
Proof. split; by vm_compute. Qed.
