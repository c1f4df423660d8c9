(** SpecCrash.v -- the first sign of trouble in a run of the parser. *)
From Verif Require Export SpecEarliest Crash SpecShipped.

(** The token at which a run gives up. *)
Definition halt_cursor (e : halt) : option nat := match e with NoEntry k _ | NoToken k => Some k | NoFuel => None end.

(** The first printed line says where, or, if nothing is printed, the panic does. *)
Definition first_trouble {A} (o : logged A) : option nat :=
  match o with
  | ((k, _) :: _, _) => Some k
  | ([], inr e) => halt_cursor e
  | ([], inl _) => None
  end.

(** What the runs look like in Parser.v. *)
Definition forget_log {A} (o : logged A) : res (A * list mismatch) :=
  match o with
  | (mm, inl a) => Ret (a, mm)
  | (_, inr NoFuel) => OutOfFuel
  | (_, inr _) => Panic
  end.

(** What the parser was about to read there: the token of the first printed line, or the rule of the missing table entry. *)
Definition expected_next {A} (o : logged A) : option item :=
  match o with
  | ((_, u) :: _, _) => Some (T u)
  | ([], inr (NoEntry _ B)) => Some (NT B)
  | _ => None
  end.

(** A word of the rule followed by the end of the input begins with these names. *)
Definition can_begin (G : list rule) (name : str) (l : list str) : Prop :=
  exists word more, matches_atom G (RuleRef name) word /\ word ++ [lit "_STOP"] = l ++ more.

(** The tokens of a grammar file followed by the end of the input begin with these types. *)
Definition file_can_begin (l : list nat) : Prop := exists G ts more, grammar_tokens G ts /\ map fst ts ++ [1] = l ++ more.
