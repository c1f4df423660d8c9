(** PropertiesDrawer.v -- C21, C22: the HTML drawing. Statement vocabulary: SpecDrawer.v. *)
From Verif Require Import DrawerExact.

(** C21 is false: a dollar-brace is not escaped (the literal then has a substitution), and a carriage return reads
    back as a line feed.  Full statement: [forall s r, read_template (escape s ++ c_backquote :: r) = Some (s, r)]. *)
Theorem C21_escape_refuted : exists s t, (forall r, read_template (escape s ++ c_backquote :: r) = None) /\
  (forall r, exists t', read_template (escape t ++ c_backquote :: r) = Some (t', r) /\ t' <> t).
Proof. exact (c21_refuted). Qed.
Print Assumptions C21_escape_refuted.

(** C21, what is true, exactly: the strings without dollar-brace and carriage return survive, and no others. *)
Theorem C21_escape_partial s r : read_template (escape s ++ c_backquote :: r) = Some (s, r) <-> drawable s.
Proof. exact (c21_escape s r). Qed.
Print Assumptions C21_escape_partial.

Example C21_example : drawable (lit "a`\$b{") /\ escape (lit "a`\$b{") = lit "a\`\\$b{".
Proof. exact ex_drawn. Qed.

(** C22 is false for the same strings. *)
Theorem C22_dump_refuted : exists r, (forall f rest, read_js f (dump r ++ rest) = None) /\
  exists r', forall f rest, read_js f (dump r' ++ rest) <> Some (tree_js r', rest).
Proof. exact (c22_refuted). Qed.
Print Assumptions C22_dump_refuted.

(** C22, what is true: trees all of whose names and texts are drawable. Full statement: without that hypothesis. *)
Theorem C22_dump_partial r : drawable_tree r ->
  exists n, forall f rest, n <= f -> read_js f (dump r ++ rest) = Some (tree_js r, rest).
Proof. exact (c22_dump r). Qed.
Print Assumptions C22_dump_partial.

(** C22, exactly which trees: the drawable ones and no others. *)
Theorem C22_dump_iff r : drawable_tree r <-> exists n, forall f rest, n <= f -> read_js f (dump r ++ rest) = Some (tree_js r, rest).
Proof. exact (c22_iff r). Qed.
Print Assumptions C22_dump_iff.

(** C22, what every other tree becomes: without dollar-brace, the tree with its line ends turned into line feeds; with one, an
    expression with a substitution, which the reader of SpecDrawer.v rejects. *)
Theorem C22_dump_exact r :
  ((forall s, label s r -> ~ substitution s) ->
    exists n, forall f rest, n <= f -> read_js f (dump r ++ rest) = Some (tree_js (lf_tree r), rest)) /\
  (forall s, label s r -> substitution s -> forall f rest, read_js f (dump r ++ rest) = None).
Proof. exact (c22_exact r). Qed.
Print Assumptions C22_dump_exact.

Example C22_example : let r := RuleCtx (lit "a") [Terminal (token_new 2 (lit "X") [97; 13; 10; 13]%N)] 0 in
  ~ drawable_tree r /\ (forall s, label s r -> ~ substitution s) /\
  lf_tree r = RuleCtx (lit "a") [Terminal (token_new 2 (lit "X") [97; 10; 10]%N)] 0.
Proof.
  split_and!; [|exact ex_no_substitution|done].
  intros H. pose proof (drawable_leaf _ _ _ H) as Ht. destruct (Ht _ (or_introl (elem_of_list_here _ _))) as [_ [_ K]].
  apply K. apply elem_of_list_further, elem_of_list_here.
Qed.
