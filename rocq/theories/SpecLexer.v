(** SpecLexer.v -- specification vocabulary for the scanners. *)
From Verif Require Export Lexer.

(** What is assumed of the regex engine and of a lexer's construction: a match ends inside the
    haystack at a char boundary, and there is a name for every rule ("_START", "_STOP", rules...). *)
Definition lexer_ok (c : lexer_cfg) : Prop :=
  (forall (r : matcher) s e, r ∈ regex_list c -> r s = Some e -> exists m rest, s = m ++ rest /\ blen m = e) /\
  length (token_names c) = length (regex_list c) + 2.

(** [scanned sc st ts st']: successive calls of [scan] from state [st] return the tokens [ts], in
    order, and leave the lexer in state [st']. *)
Inductive scanned (sc : lexer_st -> res (scan_result * lexer_st)) : lexer_st -> list token -> lexer_st -> Prop :=
| scanned_nil st : scanned sc st [] st
| scanned_cons st t st1 ts st2 :
    sc st = Ret (STok t, st1) -> scanned sc st1 ts st2 -> scanned sc st (t :: ts) st2.

(** The text of a token sequence. *)
Definition texts (ts : list token) : str := concat (map text ts).

(** Regex number i wins at [rest] with a match of [len] bytes: nonempty, longest, first of the longest. *)
Definition wins (rs : list matcher) (rest : str) (i len : nat) : Prop :=
  0 < len /\ (exists r : matcher, rs !! i = Some r /\ r rest = Some len) /\
  forall j (r : matcher) e, rs !! j = Some r -> r rest = Some e -> e <= len /\ (e = len -> i <= j).

(** No regex has a nonempty match at [rest]. *)
Definition stuck (rs : list matcher) (rest : str) : Prop :=
  forall (r : matcher) e, r ∈ rs -> r rest = Some e -> e = 0.

(** [p] is the position just behind the text [pre]: line = number of newlines, column = number of
    bytes behind the last newline. *)
Definition newlines (s : list N) : nat := length (filter (fun x => x = 10%N) s).
Definition position_after (pre : str) (p : position) : Prop :=
  line p = newlines pre /\
  exists a b, pre = a ++ b /\ newlines b = 0 /\ (a = [] \/ exists a', a = a' ++ [10%N]) /\
    char_position p = blen b.

(** The token [t], with text [txt] and type [ty], is the [n]-th token and stands behind [pre]. *)
Definition token_at (pre : str) (n : nat) (t : token) : Prop :=
  char_start_index t = blen pre /\ char_stop_index t = blen (pre ++ text t) /\
  token_index t = n /\ channel t = 0 /\
  position_after pre (start t) /\ position_after (pre ++ text t) (stop t).

(** Consecutive tokens behind [pre], numbered from [n]. *)
Fixpoint tokens_from (pre : str) (n : nat) (ts : list token) : Prop :=
  match ts with
  | [] => True
  | t :: ts' => token_at pre n t /\ tokens_from (pre ++ text t) (S n) ts'
  end.

(** Each token of [ts], standing in front of [rest], is what the regexes demand there. *)
Fixpoint munched (c : lexer_cfg) (ts : list token) (rest : str) : Prop :=
  match ts with
  | [] => True
  | t :: ts' =>
      (exists i, token_type t = i + 2 /\ token_names c !! (i + 2) = Some (token_name t) /\
         wins (regex_list c) (texts ts ++ rest) i (blen (text t))) /\
      munched c ts' rest
  end.

(** The end-of-input token. *)
Definition is_stop (t : token) : Prop := token_type t = 1 /\ token_name t = lit "_STOP".

(** Only one-byte characters. *)
Definition ascii (s : str) : Prop := Forall (fun x => (x < 128)%N) s.
