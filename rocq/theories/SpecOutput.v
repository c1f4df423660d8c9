(** SpecOutput.v -- what loading a grammar should print: the report on duplicates, read off the grammar as it is written. *)
From Verif Require Export SpecVisitor SpecSource.

(** Constructs can be compared. *)
#[global] Instance suffix_dec : EqDecision suffix.
Proof. solve_decision. Defined.
Fixpoint element_dec (x y : element) : {x = y} + {x <> y}
with atom_dec (x y : atom) : {x = y} + {x <> y}
with alternative_dec (x y : alternative) : {x = y} + {x <> y}.
Proof.
  - destruct x as [a s], y as [a' s']. destruct (atom_dec a a') as [->|]; [|right; congruence].
    destruct (decide (s = s')) as [->|]; [by left|right; congruence].
  - destruct x as [n|n|n|l], y as [n'|n'|n'|l']; try (right; discriminate).
    + destruct (decide (n = n')) as [->|]; [by left|right; congruence].
    + destruct (decide (n = n')) as [->|]; [by left|right; congruence].
    + destruct (decide (n = n')) as [->|]; [by left|right; congruence].
    + destruct (List.list_eq_dec alternative_dec l l') as [->|]; [by left|right; congruence].
  - destruct x as [|l], y as [|l']; try (right; discriminate); [by left|].
    destruct (List.list_eq_dec element_dec l l') as [->|]; [by left|right; congruence].
Defined.

#[global] Instance alternative_eq_dec : EqDecision alternative := alternative_dec.

(** The members of l that are in [seen], or occur a second time. *)
Fixpoint repeats {A} `{EqDecision A} (seen l : list A) : list A :=
  match l with
  | [] => []
  | x :: l' => if bool_decide (x ∈ seen) then x :: repeats seen l' else repeats (x :: seen) l'
  end.

(** The groups of a construct, at any depth, in the order in which they end. *)
Fixpoint groups_element (e : element) : list (list alternative) :=
  match e with Element a _ => groups_atom a end
with groups_atom (a : atom) : list (list alternative) :=
  match a with Group alts => concat (map groups_alternative alts) ++ [alts] | _ => [] end
with groups_alternative (a : alternative) : list (list alternative) :=
  match a with Epsilon => [] | Sequence es => concat (map groups_element es) end.

(** The alternatives of all parser rules, with the name of their rule. *)
Definition rule_alternatives (G : list rule) : list (str * alternative) :=
  concat (map (fun r => match r with ParserRule n alts => map (pair n) alts | LexerRule _ _ => [] end) G).

(** The messages. *)
Definition says_token (name : str) : str := [37325; 22797; 23450; 20041]%N ++ lit " token: " ++ name.   (* 重复定义 token: name *)
Definition says_alternative : str := [20135; 29983; 24335; 37325; 22797]%N.                             (* 产生式重复 *)
Definition says_group : str := [37325; 22797; 20135; 29983; 24335]%N.                                   (* 重复产生式 *)

(** A group is looked at once; one message for each of its alternatives that is there already. *)
Fixpoint report_groups (seen : list (list alternative)) (groups : list (list alternative)) : list str :=
  match groups with
  | [] => []
  | alts :: groups' =>
      let alts := map plain_alternative alts in
      if bool_decide (alts ∈ seen) then report_groups seen groups'
      else map (fun _ => says_group) (repeats [] alts) ++ report_groups (alts :: seen) groups'
  end.
(** One message for each alternative of a rule that the rule has already. *)
Fixpoint report_alternatives (seen_groups : list (list alternative)) (seen : list (str * alternative)) (l : list (str * alternative)) : list str :=
  match l with
  | [] => []
  | (name, alt) :: l' =>
      report_groups seen_groups (groups_alternative alt) ++
      (if bool_decide ((name, plain_alternative alt) ∈ seen) then [says_alternative] else []) ++
      report_alternatives (map (map plain_alternative) (groups_alternative alt) ++ seen_groups) ((name, plain_alternative alt) :: seen) l'
  end.
(** The report on a grammar: tokens first.  There is no message about rules. *)
Definition report (G : list rule) : list str :=
  map says_token (repeats [lit "_START"; lit "_STOP"] (lexer_rule_names G)) ++ report_alternatives [] [] (rule_alternatives G).

(** The report on definitions, for the nodes of any tree: a lexer rule whose name is there already, a regular literal of less than
    two bytes, a parser rule whose name is that of a token. *)
Definition says_rule (name : str) : str := [37325; 22797; 23450; 20041]%N ++ lit " rule: " ++ name.     (* 重复定义 rule: name *)
Definition says_regex : str := [38750; 27861; 27491; 21017; 34920; 36798; 24335]%N.                     (* 非法正则表达式 *)
Definition says_again (name : str) : str := name ++ lit " " ++ [37325; 22797; 23450; 20041]%N.          (* name 重复定义 *)
Fixpoint report_definitions (says : str -> str) (seen : list str) (nodes : list rule_ctx) : list str :=
  match nodes with
  | [] => []
  | n :: nodes' =>
      if rule_index n =? LEXER_RULE then
        match leaves_of TOKEN_REF n with
        | t :: _ =>
            if bool_decide (text t ∈ seen) then says (text t) :: report_definitions says seen nodes'
            else match definition_of n with
                 | Some _ => report_definitions says (text t :: seen) nodes'
                 | None => says_regex :: report_definitions says seen nodes'
                 end
        | [] => report_definitions says seen nodes'
        end
      else
        match leaves_of RULE_REF n with
        | t :: _ => (if bool_decide (text t ∈ seen) then [says_rule (text t)] else []) ++ report_definitions says seen nodes'
        | [] => report_definitions says seen nodes'
        end
  end.

(** No duplicates: neither tokens, nor alternatives of one rule, nor alternatives of one group. *)
Definition no_duplicates (G : list rule) : Prop :=
  NoDup (lit "_START" :: lit "_STOP" :: lexer_rule_names G) /\
  NoDup (map (fun na => (fst na, plain_alternative (snd na))) (rule_alternatives G)) /\
  (forall alts s, occurs (Element (Group alts) s) G -> NoDup (map plain_alternative alts)).

(** The printed text: every line with its newline. *)
Definition unlines (lines : list str) : str := concat (map (fun l => l ++ [10%N]) lines).
Definition says_mismatch : str := [31526; 21495; 19981; 21305; 37197]%N.                                (* 符号不匹配 *)

(** A number written in decimal, without leading zeros. *)
Definition decimal (n : nat) (s : str) : Prop :=
  Forall (fun c => 48 <= c <= 57)%N s /\ (s = [48%N] \/ exists c s', s = c :: s' /\ c <> 48%N) /\
  foldl (fun v c => 10 * v + (N.to_nat c - 48)) 0 s = n.
(** How a production is shown in a conflict: Production { left: 4, right: [NonTerminal(3), Terminal(2)] }. *)
Definition shows_item (it : item) (s : str) : Prop :=
  exists d, match it with NT n => decimal n d /\ s = lit "NonTerminal(" ++ d ++ lit ")" | T n => decimal n d /\ s = lit "Terminal(" ++ d ++ lit ")" end.
Inductive shows_items : list item -> str -> Prop :=
| shows_none : shows_items [] []
| shows_one it s : shows_item it s -> shows_items [it] s
| shows_more it s it' its s' : shows_item it s -> shows_items (it' :: its) s' -> shows_items (it :: it' :: its) (s ++ lit ", " ++ s').
Definition shows_production (p : production) (s : str) : Prop :=
  exists d r, decimal (left p) d /\ shows_items (right p) r /\ s = lit "Production { left: " ++ d ++ lit ", right: [" ++ r ++ lit "] }".
