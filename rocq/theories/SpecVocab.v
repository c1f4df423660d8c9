(** SpecVocab.v -- words used in the statements about the vocabulary. *)
From Verif Require Export Vocab.

(** No lookup in the terminal (nonterminal) namespace distinguishes the two vocabularies. *)
Definition terminals_same (v v' : vocabulary) : Prop :=
  (forall n, get_terminal_id_by_name v' n = get_terminal_id_by_name v n) /\
  (forall i, get_terminal_name_by_id v' i = get_terminal_name_by_id v i) /\
  (forall i, is_terminal_id v' i = is_terminal_id v i).
Definition nonterminals_same (v v' : vocabulary) : Prop :=
  (forall n, get_nonterminal_id_by_name v' n = get_nonterminal_id_by_name v n) /\
  (forall i, get_nonterminal_name_by_id v' i = get_nonterminal_name_by_id v i) /\
  (forall i, is_nonterminal_id v' i = is_nonterminal_id v i).

(** The call [o] occurs in the history [ops] and returned true. *)
Definition succeeded (ops : list vop) (o : vop) : Prop :=
  exists before after, ops = before ++ o :: after /\ snd (vstep (vrun vocabulary_new before) o) = true.
