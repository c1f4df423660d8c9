(** PropertiesSession.v -- C92: any sequence of calls on one lexer.  Model: Session.v, Lexer.v.  Specification: SpecSession.v, SpecLexer.v. *)
From Verif Require Import SessionProofs.

(** C92: whatever the calls of scan and scan_all_on_channel_tokens, and in whatever order, a generated lexer does not panic and hands out the
    tokens of its input once and in order; text without a match is printed by every scan_all_on_channel_tokens. *)
Theorem C92_any_calls c ws fuel : lexer_ok c -> ws <> 1 -> length (input c) + 2 <= fuel ->
  exists ts left,
    ((left = None /\ exists ts0 s, ts = ts0 ++ [s] /\ is_stop s /\ input c = texts ts0 /\ munched c ts0 [] /\ tokens_from [] 0 ts0) \/
     (exists rest, left = Some rest /\ rest <> [] /\ stuck (regex_list c) rest /\ input c = texts ts ++ rest /\ munched c ts rest /\ tokens_from [] 0 ts)) /\
    (exists st, scanned (scan c) lexer_init ts st /\ scan c st = Ret (SErr, st)) /\
    forall ks, lexer_session c ws fuel ks = Ret (handed_out (fun ty => ty =? ws) left ts ks).
Proof. exact (c92_session c ws fuel). Qed.
Print Assumptions C92_any_calls.

(** The same for the hand-written lexer, which has no end token and always prints. *)
Theorem C92_any_calls_handwritten c fuel : lexer_ok c -> length (input c) + 1 <= fuel ->
  exists ts rest, stuck (regex_list c) rest /\ input c = texts ts ++ rest /\ munched c ts rest /\ tokens_from [] 0 ts /\
    (exists st, scanned (scan0 c) lexer_init ts st /\ scan0 c st = Ret (SErr, st)) /\
    forall ks, lexer_session0 c fuel ks = Ret (handed_out (fun ty => (ty =? 2) || (ty =? 3) || (ty =? 4)) (Some rest) ts ks).
Proof. exact (c92_session0 c fuel). Qed.
Print Assumptions C92_any_calls_handwritten.

(** The tokens scanned one by one until the first error are determined, for every scanner. *)
Theorem C92_stream_unique sc st ts st1 ts' st2 :
  scanned sc st ts st1 -> sc st1 = Ret (SErr, st1) -> scanned sc st ts' st2 -> sc st2 = Ret (SErr, st2) -> ts = ts'.
Proof. exact (stream_unique sc ts st st1 ts' st2). Qed.
Print Assumptions C92_stream_unique.

(** The calls of a session are the functions of Lexer.v, which return the same values. *)
Theorem C92_same c ws chan fuel st :
  scan_all c ws chan fuel st = (let! (toks, printed, _) := scan_all_st c ws chan fuel st in Ret (toks, printed)) /\
  scan_all0 c chan fuel st = (let! (toks, printed, _) := scan_all0_st c chan fuel st in Ret (toks, printed)).
Proof. exact (conj (scan_all_st_same c ws chan fuel st) (scan_all0_st_same c chan fuel st)). Qed.
Print Assumptions C92_same.

Example C92_example : lexer_ok (ex_lexer ex_text) /\
  lexer_session (ex_lexer ex_text) 4 10 [Scan; Scan; ScanAll 0; Scan; ScanAll 0] =
  match scan_all (ex_lexer ex_text) 4 0 10 lexer_init with
  | Ret ([a; b; s], None) => Ret [Scanned (STok a); Scanned (STok (Token 4 (lit "BLANK") (Position 0 2) (Position 0 3) 0 (lit " ") 1 2 3)); ScannedAll [b; s] None; Scanned SErr; ScannedAll [] None]
  | _ => Panic
  end.
Proof. exact (conj (ex_lexer_ok ex_text) ex_session). Qed.
