(** SpecMismatch.v -- reported mismatches. A mismatch (k, u) says: at token k the type u was expected. *)
From Coq Require Export Sorted.
From Verif Require Export SpecGrammar Parser.

(** The reports are about tokens c .. c'-1, in order, one per token, and each is about a token of another type. *)
Definition genuine (toks : list token) (c c' : nat) (mm : list mismatch) : Prop :=
  Forall (fun m => c <= fst m < c' /\ exists tok, toks !! fst m = Some tok /\ token_type tok <> snd m) mm /\
  StronglySorted lt (map fst mm).

(** w is tokens c .. c'-1 with every reported token replaced by what was expected. *)
Definition repaired (toks : list token) (mm : list mismatch) (c c' : nat) (w : list item) : Prop :=
  length w = c' - c /\
  forall i x, w !! i = Some x ->
    (exists u, (c + i, u) ∈ mm /\ x = T u) \/
    ((forall u, (c + i, u) ∉ mm) /\ exists tok, toks !! (c + i) = Some tok /\ x = T (token_type tok)).
