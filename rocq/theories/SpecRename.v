(** SpecRename.v -- a grammar with other names. *)
From Verif Require Export SpecEbnf SpecShapeOnly Visitors.

Section rename.
  Context (ρ : str -> str).

  (** The tokens of the grammar file that carry a name; string literals are looked up like names. *)
  Definition carries_name (ty : nat) : bool := (ty =? TOKEN_REF) || (ty =? RULE_REF) || (ty =? STRING_LITERAL).
  Definition rename_token (t : token) : token :=
    if carries_name (token_type t) then
      Token (token_type t) (token_name t) (start t) (stop t) (channel t) (ρ (text t)) (token_index t) (char_start_index t) (char_stop_index t)
    else t.

  (** The grammar as it is written. *)
  Fixpoint rename_element (e : element) : element := match e with Element a s => Element (rename_atom a) s end
  with rename_atom (a : atom) : atom :=
    match a with
    | TokenRef n => TokenRef (ρ n)
    | StringLiteral l => StringLiteral (ρ l)
    | RuleRef n => RuleRef (ρ n)
    | Group alts => Group (map rename_alternative alts)
    end
  with rename_alternative (a : alternative) : alternative :=
    match a with Epsilon => Epsilon | Sequence es => Sequence (map rename_element es) end.
  Definition rename_rule (r : rule) : rule :=
    match r with
    | ParserRule n alts => ParserRule (ρ n) (map rename_alternative alts)
    | LexerRule n x => LexerRule (ρ n) x
    end.

  (** What is loaded. *)
  Definition rename_vocabulary (v : vocabulary) : vocabulary :=
    Vocabulary (kmap ρ (nt_name_to_id v)) (ρ <$> nt_id_to_name v) (kmap ρ (t_name_to_id v)) (ρ <$> t_id_to_name v) (nonterminals v) (terminals v).
  Definition rename_data (d : lexer_rule_data) : lexer_rule_data := LexerRuleData (ld_type d) (ρ (ld_name d)) (ld_regex d).
  Definition rename_loaded (x : res (grammar * list lexer_rule_data)) : res (grammar * list lexer_rule_data) :=
    match x with
    | Ret (g, data) => Ret (Grammar (g_name g) (rename_vocabulary (g_vocabulary g)) (productions g), map rename_data data)
    | Panic => Panic
    | OutOfFuel => OutOfFuel
    end.

  (** Different names stay different, and the two built-in tokens keep theirs. *)
  Definition renaming : Prop := Inj (=) (=) ρ /\ ρ (lit "_START") = lit "_START" /\ ρ (lit "_STOP") = lit "_STOP".
End rename.

(** A token of the language of the grammar, with the new name of its type. *)
Definition respelled (ρ : str -> str) (t : token) : token :=
  Token (token_type t) (ρ (token_name t)) (start t) (stop t) (channel t) (text t) (token_index t) (char_start_index t) (char_stop_index t).
(** The name of a node: the new one; nodes without a name of their own stay as they are. *)
Definition renamed_node (ρ : str -> str) (v : vocabulary) (i : nat) (n n' : str) : Prop :=
  match get_nonterminal_name_by_id v i with Some m => n = m /\ n' = ρ m | None => n' = n end.
