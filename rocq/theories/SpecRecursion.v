(** SpecRecursion.v -- left recursion, of a grammar and of a prediction table. *)
From Verif Require Export SpecGrammar.

(** [left_corner P A B]: a right-hand side of A can begin with B, what is in front of B being nullable. *)
Definition left_corner (P : gset production) (A B : nat) : Prop :=
  exists p α β, p ∈ P /\ left p = A /\ right p = α ++ NT B :: β /\ nullable P α.
Definition left_recursive (P : gset production) (A : nat) : Prop := tc (left_corner P) A A.

(** [vanishes tab t α]: with t as the next token, the productions the table chooses expand α to nothing. *)
Inductive vanishes (tab : table) (t : nat) : list item -> Prop :=
| vanishes_nil : vanishes tab t []
| vanishes_cons A p α :
    tab !! (A, t) = Some p -> vanishes tab t (right p) -> vanishes tab t α -> vanishes tab t (NT A :: α).

(** [table_corner tab t A B]: with t as the next token, the table expands A to something that begins with B, up to
    what vanishes. *)
Definition table_corner (tab : table) (t A B : nat) : Prop :=
  exists p α β, tab !! (A, t) = Some p /\ right p = α ++ NT B :: β /\ vanishes tab t α.

(** [fits n a]: the tree a has at most n levels. *)
Fixpoint fits (n : nat) (a : ast) : Prop :=
  match n with
  | 0 => False
  | S n' => match a with Rule r => Forall (fits n') (children r) | Terminal _ | Error _ => True end
  end.
