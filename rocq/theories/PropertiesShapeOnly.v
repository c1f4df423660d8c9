(** PropertiesShapeOnly.v -- C94: what the parser looks at.  Model: Crash.v, Parser.v.  Specification: SpecShapeOnly.v. *)
From Verif Require Import ShapeOnlyProofs.

(** C94: with tokens of the same types (whatever else they carry) and the same rules named (whatever their names), parse_ast prints the same lines,
    panics at the same place for the same reason, or returns at the same cursor a tree of the same shape: each leaf holds the corresponding token,
    each node the name its own vocabulary gives to the rule. *)
Theorem C94_types_only voc voc' tab (R : token -> token -> Prop) toks toks' fuel cursor i :
  named_alike voc voc' -> (forall t t', R t t' -> token_type t = token_type t') -> Forall2 R toks toks' ->
  (log_ast voc tab toks fuel cursor i).1 = (log_ast voc' tab toks' fuel cursor i).1 /\
  match (log_ast voc tab toks fuel cursor i).2, (log_ast voc' tab toks' fuel cursor i).2 with
  | inl (r, c), inl (r', c') => ctx_alike (own_names voc voc') R r r' /\ c = c'
  | inr e, inr e' => e = e'
  | _, _ => False
  end.
Proof. exact (c94_log voc voc' tab R toks toks' fuel cursor i). Qed.
Print Assumptions C94_types_only.

(** The entry points of the generated parser, and parse (rule 0). *)
Theorem C94_entry_points voc voc' tab (R : token -> token -> Prop) toks toks' fuel i :
  named_alike voc voc' -> (forall t t', R t t' -> token_type t = token_type t') -> Forall2 R toks toks' ->
  match entry voc tab toks fuel i, entry voc' tab toks' fuel i with
  | Ret (r, mm), Ret (r', mm') => ctx_alike (own_names voc voc') R r r' /\ mm = mm'
  | Panic, Panic => True
  | OutOfFuel, OutOfFuel => True
  | _, _ => False
  end.
Proof. exact (c94_entry voc voc' tab R toks toks' fuel i). Qed.
Print Assumptions C94_entry_points.

(** Changing the tokens without their types and parsing is parsing and changing the leaves. *)
Theorem C94_change_leaves voc tab f toks fuel cursor i : (forall t, token_type (f t) = token_type t) ->
  log_ast voc tab (map f toks) fuel cursor i =
  match log_ast voc tab toks fuel cursor i with
  | (mm, inl (r, c)) => (mm, inl (map_ctx f r, c))
  | (mm, inr e) => (mm, inr e)
  end.
Proof. exact (c94_map voc tab f toks fuel cursor i). Qed.
Print Assumptions C94_change_leaves.

Example C94_example : named_alike ex_voc ex_voc_renamed /\ (forall t, token_type (ex_respell t) = token_type t) /\
  map ex_respell (map GrammarMain.tk [3; 5; 1; 2; 1]) <> map GrammarMain.tk [3; 5; 1; 2; 1] /\
  log_parse ex_voc_renamed ex_tab (map ex_respell (map GrammarMain.tk [3; 5; 1; 2; 1])) 20 = ([(2, 4)], inr (NoEntry 4 1)).
Proof. exact ex_c94. Qed.
