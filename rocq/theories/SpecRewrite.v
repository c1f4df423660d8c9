(** SpecRewrite.v -- the rewriting of groups and suffixes that the comments of the grammar file announce
    (syntaxis.g4: T* => T1 -> T T1 | ε, T+ => T2 -> T T2 | T, T? => T3 -> T | ε), as a set of productions. *)
From Verif Require Export SpecSource SpecClash.

(** Below [f e] is the symbol that stands for element e.  The right-hand side of an alternative: *)
Definition items (f : element -> item) (alt : alternative) : list item :=
  match alt with Epsilon => [] | Sequence es => map f es end.

(** The constructs that need a nonterminal of their own: x*, x+, x? and groups. *)
Definition generated (G : list rule) (e : element) : Prop :=
  (exists a k b, e = Element a (Some (k, b)) /\ occurs e G) \/
  (exists alts s, e = Element (Group alts) None /\ occurs (Element (Group alts) s) G).

(** The productions of the rewritten grammar, where an operand a of suffix k is taken to be [as_read k a]. *)
Inductive rewritten (G : list rule) (v : vocabulary) (f : element -> item) (as_read : suffix -> atom -> atom) : production -> Prop :=
| rewritten_rule name alts alt n : ParserRule name alts ∈ G -> alt ∈ alts -> get_nonterminal_id_by_name v name = Some n ->
    rewritten G v f as_read (Production n (items f alt))
| rewritten_group alts s alt n : occurs (Element (Group alts) s) G -> alt ∈ alts -> f (Element (Group alts) None) = NT n ->
    rewritten G v f as_read (Production n (items f alt))
| rewritten_star a b n r : occurs (Element a (Some (Star, b))) G -> f (Element a (Some (Star, b))) = NT n ->
    r ∈ [[f (Element (as_read Star a) None); NT n]; []] -> rewritten G v f as_read (Production n r)
| rewritten_plus a b n r : occurs (Element a (Some (Plus, b))) G -> f (Element a (Some (Plus, b))) = NT n ->
    r ∈ [[f (Element (as_read Plus a) None); NT n]; [f (Element (as_read Plus a) None)]] -> rewritten G v f as_read (Production n r)
| rewritten_question a b n r : occurs (Element a (Some (Question, b))) G -> f (Element a (Some (Question, b))) = NT n ->
    r ∈ [[f (Element (as_read Question a) None)]; []] -> rewritten G v f as_read (Production n r).

(** f stands for the elements of G among the symbols of v. *)
Record stands_for (G : list rule) (v : vocabulary) (f : element -> item) : Prop := {
  (** A token reference is its token, a rule reference its rule. *)
  sf_token : forall n s, occurs (Element (TokenRef n) s) G ->
    exists t, get_terminal_id_by_name v n = Some t /\ f (Element (TokenRef n) None) = T t;
  sf_rule : forall n s, occurs (Element (RuleRef n) s) G ->
    exists i, get_nonterminal_id_by_name v n = Some i /\ f (Element (RuleRef n) None) = NT i;
  (** The others are nonterminals without a name. *)
  sf_new : forall e, generated G e ->
    exists n, f e = NT n /\ is_nonterminal_id v n = true /\ get_nonterminal_name_by_id v n = None;
  (** There are no nonterminals besides these and the rules. *)
  sf_all : forall n, is_nonterminal_id v n = true ->
    (exists name, name ∈ parser_rule_names G /\ get_nonterminal_id_by_name v name = Some n) \/
    (exists e, generated G e /\ f e = NT n);
}.

(** One nonterminal for each construct, lazy marks apart. *)
Definition one_each (G : list rule) (f : element -> item) : Prop :=
  forall e e', generated G e -> generated G e' -> f e = f e' <-> plain_element e = plain_element e'.

(** The number of an atom: all that is looked at when a suffix is applied to it. *)
Definition number (f : element -> item) (a : atom) : nat := match f (Element a None) with T n => n | NT n => n end.
(** One nonterminal for each suffix and number, and one for each list of right-hand sides. *)
Definition one_each_number (G : list rule) (f : element -> item) : Prop :=
  (forall a k b a' k' b', occurs (Element a (Some (k, b))) G -> occurs (Element a' (Some (k', b'))) G ->
     f (Element a (Some (k, b))) = f (Element a' (Some (k', b'))) <-> k = k' /\ number f a = number f a') /\
  (forall alts s alts' s', occurs (Element (Group alts) s) G -> occurs (Element (Group alts') s') G ->
     f (Element (Group alts) None) = f (Element (Group alts') None) <-> map (items f) alts = map (items f) alts') /\
  (forall a k b alts s, occurs (Element a (Some (k, b))) G -> occurs (Element (Group alts) s) G ->
     f (Element a (Some (k, b))) <> f (Element (Group alts) None)).

(** Rules without their lazy marks, ε written as the empty sequence. *)
Definition plain_rule (r : rule) : rule :=
  match r with ParserRule name alts => ParserRule name (map plain_alternative alts) | LexerRule _ _ => r end.
