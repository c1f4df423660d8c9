(** SpecGrow.v -- a grammar with rules added at its end. *)
From Verif Require Export SpecRewrite Crash.

(** Every name of the first vocabulary is in the second, with the same number. *)
Definition names_kept (v v' : vocabulary) : Prop :=
  t_name_to_id v ⊆ t_name_to_id v' /\ t_id_to_name v ⊆ t_id_to_name v' /\ nt_name_to_id v ⊆ nt_name_to_id v' /\ nt_id_to_name v ⊆ nt_id_to_name v'.
(** The rules are the same, nameless ones included. *)
Definition rules_kept (v v' : vocabulary) : Prop :=
  nt_name_to_id v' = nt_name_to_id v /\ nt_id_to_name v' = nt_id_to_name v /\ nonterminals v' = nonterminals v.

(** A lexer rule written with its slashes. *)
Definition token_rule (r : rule) : Prop := exists n x, r = LexerRule n (lit "/" ++ x ++ lit "/").
(** The names that are not known yet, each once, in order. *)
Fixpoint new_names (known : gset str) (ns : list str) : list str :=
  match ns with
  | [] => []
  | n :: ns => if bool_decide (n ∈ known) then new_names known ns else n :: new_names ({[n]} ∪ known) ns
  end.

(** Wherever in the text one of the new rules matches something, one of the old rules matches as much. *)
Definition never_longer (olds news : list matcher) (s : str) : Prop :=
  forall rest, rest `suffix_of` s -> forall m e, m ∈ news -> m rest = Some e -> e = 0 \/ exists m' e', m' ∈ olds /\ m' rest = Some e' /\ e <= e'.
