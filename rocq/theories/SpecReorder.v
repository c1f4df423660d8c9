(** SpecReorder.v -- two lexers with the same rules in another order. *)
From Verif Require Export SpecLexer.

(** The rules of a lexer with their names. *)
Definition named_rules (c : lexer_cfg) : list (matcher * str) := zip (regex_list c) (drop 2 (token_names c)).
(** The same rules in some other order, for the same input. *)
Definition reordered (c c' : lexer_cfg) : Prop :=
  input c = input c' /\ length (token_names c) = length (regex_list c) + 2 /\ length (token_names c') = length (regex_list c') + 2 /\
  named_rules c ≡ₚ named_rules c'.

(** Tokens that agree in everything but type and name. *)
Definition same_cut (t t' : token) : Prop :=
  text t = text t' /\ start t = start t' /\ stop t = stop t' /\ channel t = channel t' /\
  token_index t = token_index t' /\ char_start_index t = char_start_index t' /\ char_stop_index t = char_stop_index t'.
(** ... and tokens that agree in everything but the type. *)
Definition same_token (t t' : token) : Prop := same_cut t t' /\ token_name t = token_name t'.

(** A rule that matches nothing longer than the other rules at [rest], and something. *)
Definition longest (c : lexer_cfg) (rest : str) (r : matcher) (e : nat) : Prop :=
  r rest = Some e /\ 0 < e /\ forall r' e', r' ∈ regex_list c -> r' rest = Some e' -> e' <= e.
(** Two rules that tie have the same name. *)
Definition no_ties (c : lexer_cfg) : Prop := forall rest r n r' n' e,
  (r, n) ∈ named_rules c -> (r', n') ∈ named_rules c -> longest c rest r e -> longest c rest r' e -> n = n'.

(** Two steps of a scanner that panic together, find nothing together, or give related tokens; the states after are equal. *)
Definition same_step (P : token -> token -> Prop) (x x' : res (scan_result * lexer_st)) : Prop :=
  match x, x' with
  | Ret (STok t, s), Ret (STok t', s') => P t t' /\ s = s'
  | Ret (SErr, s), Ret (SErr, s') => s = s'
  | Panic, Panic => True
  | _, _ => False
  end.
