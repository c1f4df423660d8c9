(** Lexer.v -- model of the scanners: src/tool/v1/syntaxis_lexer.rs,
    src/tool/templates/target/rust/lexer.tera (same code, generated) and
    src/tool/syntaxis/syntaxis_lexer.rs (hand-written variant without _STOP). *)
From Verif Require Export Base Ast.

(** A compiled regex, as the scanners use it: [re.find_at(haystack, 0).map(|m| m.end())], the byte
    offset of the end of the leftmost match in the haystack.  Arbitrary here. *)
Definition matcher := str -> option nat.

(** struct SyntaxisLexer -- v1/syntaxis_lexer.rs:8-15, lexer.tera:10-17, syntaxis_lexer.rs:10-17.
    The immutable part is a configuration, the mutable part a state. *)
Record lexer_cfg := LexerCfg {
  input : str;
  regex_list : list matcher;
  token_names : list str;
}.
Record lexer_st := LexerSt {
  cursor : nat;
  l_token_index : nat;
  l_position : position;
}.

(** v1/syntaxis_lexer.rs:69, lexer.tera:45, syntaxis_lexer.rs:79 *)
Definition lexer_init : lexer_st := LexerSt 0 0 (Position 0 0).

(** [Result<Token, Error>] -- src/runtime/lexer.rs:5,9 *)
Inductive scan_result := STok (t : token) | SErr.

(** The rule-selection loop -- v1/syntaxis_lexer.rs:97-108, lexer.tera:74-85,
    syntaxis_lexer.rs:91-102.  State: (len, token_type); [i] is the loop counter. *)
Fixpoint select_go (rs : list matcher) (i : nat) (rest : str) (best : nat * nat) : nat * nat :=
  match rs with
  | [] => best
  | r :: rs' =>
      let best' := match r rest with
                   | Some e => if fst best <? e then (e, i + 2) else best
                   | None => best
                   end in
      select_go rs' (S i) rest best'
  end.
Definition select (rs : list matcher) (rest : str) : nat * nat := select_go rs 0 rest (0, 0).

(** New position after a token text of byte length [len] --
    v1/syntaxis_lexer.rs:112-127, lexer.tera:89-104, syntaxis_lexer.rs:106-121 *)
Definition advance (p : position) (txt : str) (len : nat) : position :=
  let lines := split_lines txt in
  if length lines <=? 1 then
    {| line := line p; char_position := char_position p + len |}
  else
    {| line := line p + length lines - 1;
       char_position := blen (default [] (last lines)) |}.

(** The common part of [scan] -- v1/syntaxis_lexer.rs:97-148, lexer.tera:74-125,
    syntaxis_lexer.rs:91-142 *)
Definition scan_body (c : lexer_cfg) (st : lexer_st) : res (scan_result * lexer_st) :=
  let! rest := unwrap (drop_bytes (cursor st) (input c)) in
  let '(len, ty) := select (regex_list c) rest in
  if ty <=? 0 then Ret (SErr, st)
  else
    let! txt := unwrap (slice_bytes (cursor st) (cursor st + len) (input c)) in
    let new_pos := advance (l_position st) txt len in
    let! name := unwrap (token_names c !! ty) in
    let tok := {| token_type := ty; token_name := name;
                  start := l_position st; stop := new_pos;
                  channel := 0; text := txt;
                  token_index := l_token_index st;
                  char_start_index := cursor st;
                  char_stop_index := cursor st + len |} in
    Ret (STok tok, {| cursor := cursor st + len;
                      l_token_index := l_token_index st + 1;
                      l_position := new_pos |}).

(** The synthesized end token -- v1/syntaxis_lexer.rs:82-95, lexer.tera:59-72.  Note that the
    cursor is advanced by 10 before it is copied into the token. *)
Definition stop_token (st : lexer_st) : token :=
  {| token_type := 1; token_name := lit "_STOP";
     start := l_position st; stop := l_position st;
     channel := 0; text := lit "_STOP";
     token_index := l_token_index st;
     char_start_index := cursor st + 10;
     char_stop_index := cursor st + 10 |}.

(** [scan] of the generated lexers -- v1/syntaxis_lexer.rs:79-150, lexer.tera:56-127 *)
Definition scan (c : lexer_cfg) (st : lexer_st) : res (scan_result * lexer_st) :=
  if blen (input c) <? cursor st then Ret (SErr, st)
  else if blen (input c) <=? cursor st then
    Ret (STok (stop_token st),
         {| cursor := cursor st + 10; l_token_index := l_token_index st; l_position := l_position st |})
  else scan_body c st.

(** [scan] of the hand-written lexer -- syntaxis_lexer.rs:90-144 *)
Definition scan0 (c : lexer_cfg) (st : lexer_st) : res (scan_result * lexer_st) := scan_body c st.

(** [scan_all_on_channel_tokens] -- v1/syntaxis_lexer.rs:152-166, lexer.tera:129-141,
    syntaxis_lexer.rs:146-157.  [sc] is the scanner, [skip] the token types dropped by [continue].
    Result: the pushed tokens and the final state. *)
Fixpoint scan_loop (sc : lexer_st -> res (scan_result * lexer_st)) (skip : nat -> bool)
    (chan : nat) (fuel : nat) (st : lexer_st) (acc : list token) : res (list token * lexer_st) :=
  match fuel with
  | 0 => OutOfFuel
  | S fuel' =>
      let! (r, st') := sc st in
      match r with
      | SErr => Ret (acc, st')
      | STok t =>
          if skip (token_type t) then scan_loop sc skip chan fuel' st' acc
          else if channel t =? chan then scan_loop sc skip chan fuel' st' (acc ++ [t])
          else scan_loop sc skip chan fuel' st' acc
      end
  end.

(** Generated lexers: whitespace is dropped; the unscanned rest is printed if there is one
    (v1/syntaxis_lexer.rs:161-163).  Result: tokens and the printed text, if any. *)
Definition scan_all (c : lexer_cfg) (ws : nat) (chan fuel : nat) (st : lexer_st)
    : res (list token * option str) :=
  let! (toks, st') := scan_loop (scan c) (fun ty => ty =? ws) chan fuel st [] in
  if cursor st' <? blen (input c) then
    let! rest := unwrap (drop_bytes (cursor st') (input c)) in
    Ret (toks, Some rest)
  else Ret (toks, None).

(** Hand-written lexer: comments (2,3) and WS (4) are dropped and the rest is always printed
    (syntaxis_lexer.rs:146-157). *)
Definition scan_all0 (c : lexer_cfg) (chan fuel : nat) (st : lexer_st)
    : res (list token * option str) :=
  let! (toks, st') := scan_loop (scan0 c) (fun ty => (ty =? 2) || (ty =? 3) || (ty =? 4)) chan fuel st [] in
  let! rest := unwrap (drop_bytes (cursor st') (input c)) in
  Ret (toks, Some rest).
