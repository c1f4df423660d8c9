(** SpecBounds.v -- words for the bounds on the numbers the code computes with (C65). *)
From Verif Require Export SpecTree SpecVisitor.

(** The number of rule nodes of a tree. *)
Fixpoint nodes (r : rule_ctx) : nat :=
  match r with
  | RuleCtx _ cs _ =>
      S ((fix go (cs : list ast) : nat :=
            match cs with
            | [] => 0
            | Rule c :: cs' => nodes c + go cs'
            | _ :: cs' => go cs'
            end) cs)
  end.

(** All numbers of a token are at most m. *)
Definition token_le (m : nat) (t : token) : Prop :=
  char_start_index t <= m /\ char_stop_index t <= m /\ token_index t <= m /\ channel t <= m /\
  line (start t) <= m /\ char_position (start t) <= m /\ line (stop t) <= m /\ char_position (stop t) <= m.
