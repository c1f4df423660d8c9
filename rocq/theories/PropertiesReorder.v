(** PropertiesReorder.v -- C93: the order of the lexer rules.  Model: Lexer.v.  Specification: SpecReorder.v, SpecLexer.v. *)
From Verif Require Import ReorderProofs.

(** C93: put the rules of a lexer, with their names, in another order.  Every scan, from any state, does the same: same panic, same error, same
    next state, and a token with the same text, positions, indices and channel.  The name is the same as well if rules with different names never tie. *)
Theorem C93_scan c c' st : reordered c c' ->
  same_step (fun t t' => same_cut t t' /\ (no_ties c -> token_name t = token_name t')) (scan c st) (scan c' st) /\
  same_step (fun t t' => same_cut t t' /\ (no_ties c -> token_name t = token_name t')) (scan0 c st) (scan0 c' st).
Proof. exact (c93_scan c c' st). Qed.
Print Assumptions C93_scan.

(** Any number of scans. *)
Theorem C93_scans c c' ts st st' : reordered c c' -> scanned (scan c) st ts st' ->
  exists ts', scanned (scan c') st ts' st' /\ Forall2 same_cut ts ts' /\ (no_ties c -> map token_name ts = map token_name ts') /\
    (scan c st' = Ret (SErr, st') <-> scan c' st' = Ret (SErr, st')).
Proof. exact (fun H => c93_cuts c c' ts H st st'). Qed.
Print Assumptions C93_scans.

(** The whole text, without ties: the visible tokens agree in everything but the type number, and the same is printed. *)
Theorem C93_scan_all c c' ws ws' n chan fuel st : reordered c c' -> no_ties c ->
  NoDup (token_names c) -> NoDup (token_names c') -> ws <> 1 -> ws' <> 1 -> token_names c !! ws = Some n -> token_names c' !! ws' = Some n ->
  match scan_all c ws chan fuel st, scan_all c' ws' chan fuel st with
  | Ret (toks, printed), Ret (toks', printed') => Forall2 same_token toks toks' /\ printed = printed'
  | Panic, Panic => True
  | OutOfFuel, OutOfFuel => True
  | _, _ => False
  end.
Proof. exact (c93_scan_all c c' ws ws' n chan fuel st). Qed.
Print Assumptions C93_scan_all.

(** With ties the order decides the name, so [no_ties] cannot be dropped. *)
Theorem C93_ties_matter : exists c c' t t' st,
  reordered c c' /\ scan c lexer_init = Ret (STok t, st) /\ scan c' lexer_init = Ret (STok t', st) /\ token_name t <> token_name t'.
Proof. exact c93_refuted. Qed.
Print Assumptions C93_ties_matter.

Example C93_example : reordered (ex_lexer ex_text) (ex_order_c ex_text) /\ no_ties (ex_lexer ex_text) /\
  exists toks toks', scan_all (ex_lexer ex_text) 4 0 20 lexer_init = Ret (toks, None) /\ scan_all (ex_order_c ex_text) 2 0 20 lexer_init = Ret (toks', None) /\
    map token_name toks = map token_name toks' /\ map token_type toks = [3; 3; 1] /\ map token_type toks' = [4; 4; 1].
Proof. exact ex_c93. Qed.
