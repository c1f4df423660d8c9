(** PropertiesAuthor.v -- C74, C75: regexes and names in the text of a grammar, as their author means them.
    Statement vocabulary: SpecAuthor.v, SpecRegex.v. *)
From Verif Require Import AuthorProofs.

(** C74 full statement: a text is scanned to the tokens its author wrote, a backslash in a regex escaping the character
    behind it.  False: in [AB: /\\/; CD: /x/;] the first regex is taken to end at the slash after [CD:]. *)
Theorem C74_regex_refuted : exists ts s, authored ts s /\ forall nd fuel c, digits_ok nd -> length s + 2 <= fuel -> v1_lexer nd s = Ret c ->
  ~ exists toks stop, scan_all c 15 0 fuel lexer_init = Ret (toks ++ [stop], None) /\ is_stop stop /\
     map (fun t => (token_type t, text t)) toks = ts.
Proof. exact (c74_refuted). Qed.
Print Assumptions C74_regex_refuted.

Example C74_refuted_example : authored ex_author_tokens ex_author_text.
Proof. exact ex_authored. Qed.

(** C74, exactly when it holds: if and only if no regex ending in a backslash has a slash in any token behind it. *)
Theorem C74_regex_iff_partial nd s ts fuel : digits_ok nd -> length s + 2 <= fuel -> authored ts s ->
  exists c, v1_lexer nd s = Ret c /\
  ((exists toks stop, scan_all c 15 0 fuel lexer_init = Ret (toks ++ [stop], None) /\ is_stop stop /\
     map (fun t => (token_type t, text t)) toks = ts) <-> no_slash_behind_backslash ts).
Proof. exact (c74_exact nd s ts fuel). Qed.
Print Assumptions C74_regex_iff_partial.

Example C74_example : authored [(14, lit "/\\/"); (5, lit ";")] (lit "/\\/;") /\ no_slash_behind_backslash [(14, lit "/\\/"); (5, lit ";")].
Proof. exact ex_authored_last. Qed.

(** C75 full statement: a name (a letter, then letters, digits, underscores, and none of them behind it) is scanned as one token of its
    kind.  False: a name of one letter never is, whatever follows. *)
Theorem C75_name_refuted : exists ty x, a_name ty x /\ forall nd s fuel c toks left, (forall c w, s = c :: w -> ~ name_char c) -> digits_ok nd -> length (x ++ s) + 2 <= fuel ->
  v1_lexer nd (x ++ s) = Ret c -> scan_all c 15 0 fuel lexer_init = Ret (toks, left) ->
  ~ exists t toks', toks = t :: toks' /\ token_type t = ty /\ text t = x.
Proof. exact (c75_refuted). Qed.
Print Assumptions C75_name_refuted.

(** C75, exactly when it holds: if and only if the name has at least two characters; otherwise scanning stops there and
    prints everything from the name on. *)
Theorem C75_name_iff_partial nd ty x s fuel : digits_ok nd -> length (x ++ s) + 2 <= fuel -> a_name ty x -> (forall c w, s = c :: w -> ~ name_char c) ->
  exists c toks left, v1_lexer nd (x ++ s) = Ret c /\ scan_all c 15 0 fuel lexer_init = Ret (toks, left) /\
  ((exists t toks', toks = t :: toks' /\ token_type t = ty /\ text t = x) <-> 2 <= length x) /\
  (length x < 2 -> toks = [] /\ left = Some (x ++ s)).
Proof. exact (c75_exact nd ty x s fuel). Qed.
Print Assumptions C75_name_iff_partial.

Example C75_example : a_name 2 (lit "s1") /\ a_name 3 (lit "A") /\ 2 <= length (lit "s1").
Proof.
  split; [exists 115%N, [49%N]; split; [done|]; split; [constructor; [unfold name_char; lia|constructor]|left; unfold lower; split; [done|lia]]|].
  split; [exists 65%N, []; split; [done|]; split; [constructor|right; unfold upper; split; [done|lia]]|cbn; lia].
Qed.
