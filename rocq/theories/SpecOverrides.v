(** SpecOverrides.v -- vocabulary of the statements about replaced methods. *)
From Verif Require Export Overrides SpecReentrant.

(** What a call of the recorded sequence means for a listener with its own enter and exit: they run at every node,
    the methods of the single rules never. *)
Definition perform_over {S} (l : listener S) (enter exit : rule_ctx -> S -> S) (s : S) (c : call) : S :=
  match c with
  | EnterEvery r => enter r (enter_every_rule l r s)
  | ExitEvery r => exit_every_rule l r (exit r s)
  | EnterRule _ _ | ExitRule _ _ => s
  | c => perform l s c
  end.

(** A hook that asks its [&dyn Any] for values of types other than Box<dyn Any>: its answer depends on what these requests return. *)
Definition asks {S V} (answer : rule_ctx -> (nat -> option V) -> S -> res (bool * S)) : rule_ctx -> dyn V -> S -> res (bool * S) :=
  fun ctx result s => answer ctx (fun type => downcast_ref type result) s.
(** A hook that asks for a Box<dyn Any> first and then asks its content. *)
Definition asks_content {S V} (answer : rule_ctx -> (nat -> option V) -> S -> res (bool * S)) : rule_ctx -> dyn V -> S -> res (bool * S) :=
  fun ctx result s => match downcast_box result with Some content => asks answer ctx content s | None => Ret (true, s) end.

(** Count leaves and stop when the last result is the number 1 (of type 0). *)
Definition counting : visitor nat (dyn nat) :=
  Visitor nat (dyn nat) None None None None None None None None None
    (fun _ s => Ret (Plain 0 (Datatypes.S s), Datatypes.S s)) (fun _ s => Ret (Plain 0 (Datatypes.S s), Datatypes.S s))
    (fun s => Ret (Plain 1 0, s)) (fun _ next s => Ret (next, s)) (fun _ _ s => Ret (true, s)).
Definition stop_at_one : rule_ctx -> (nat -> option nat) -> nat -> res (bool * nat) :=
  fun _ ask s => Ret (match ask 0 with Some 1 => false | _ => true end, s).
