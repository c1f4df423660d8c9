(** Session.v -- any sequence of calls on one lexer: src/runtime/lexer.rs:7-11, src/tool/v1/syntaxis_lexer.rs:79-166,
    lexer.tera:56-141, src/tool/syntaxis/syntaxis_lexer.rs:90-157. *)
From Verif Require Export Lexer.

(** scan_all_on_channel_tokens with the state it leaves: scan_all and scan_all0 of Lexer.v return only the value. *)
Definition scan_all_st (c : lexer_cfg) (ws chan fuel : nat) (st : lexer_st) : res (list token * option str * lexer_st) :=
  let! (toks, st') := scan_loop (scan c) (fun ty => ty =? ws) chan fuel st [] in
  if cursor st' <? blen (input c) then
    let! rest := unwrap (drop_bytes (cursor st') (input c)) in
    Ret (toks, Some rest, st')
  else Ret (toks, None, st').
Definition scan_all0_st (c : lexer_cfg) (chan fuel : nat) (st : lexer_st) : res (list token * option str * lexer_st) :=
  let! (toks, st') := scan_loop (scan0 c) (fun ty => (ty =? 2) || (ty =? 3) || (ty =? 4)) chan fuel st [] in
  let! rest := unwrap (drop_bytes (cursor st') (input c)) in
  Ret (toks, Some rest, st').

(** The two methods of the trait Lexer (runtime/lexer.rs:7-11), and what they give back and print. *)
Inductive call := Scan | ScanAll (chan : nat).
Inductive answer := Scanned (r : scan_result) | ScannedAll (toks : list token) (printed : option str).

Definition one_call (sc : lexer_st -> res (scan_result * lexer_st))
    (all : nat -> lexer_st -> res (list token * option str * lexer_st)) (k : call) (st : lexer_st) : res (answer * lexer_st) :=
  match k with
  | Scan => let! (r, st') := sc st in Ret (Scanned r, st')
  | ScanAll chan => let! (toks, printed, st') := all chan st in Ret (ScannedAll toks printed, st')
  end.
Fixpoint session sc all (ks : list call) (st : lexer_st) : res (list answer * lexer_st) :=
  match ks with
  | [] => Ret ([], st)
  | k :: ks' =>
      let! (a, st1) := one_call sc all k st in
      let! (l, st2) := session sc all ks' st1 in
      Ret (a :: l, st2)
  end.
Definition lexer_session (c : lexer_cfg) (ws fuel : nat) (ks : list call) : res (list answer) :=
  let! (l, _) := session (scan c) (fun chan => scan_all_st c ws chan fuel) ks lexer_init in Ret l.
Definition lexer_session0 (c : lexer_cfg) (fuel : nat) (ks : list call) : res (list answer) :=
  let! (l, _) := session (scan0 c) (fun chan => scan_all0_st c chan fuel) ks lexer_init in Ret l.
