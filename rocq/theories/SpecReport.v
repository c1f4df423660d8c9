(** SpecReport.v -- the report on a grammar where alternatives are told apart by [key]. *)
From Verif Require Export SpecOutput SpecRewrite.

Section key.
  Context {K : Type} `{EqDecision K} (key : alternative -> K).
  (** A group is looked at once; one message for each of its alternatives that is there already. *)
  Fixpoint groups_report (seen : list (list K)) (groups : list (list alternative)) : list str :=
    match groups with
    | [] => []
    | alts :: groups' =>
        if bool_decide (map key alts ∈ seen) then groups_report seen groups'
        else map (fun _ => says_group) (repeats [] (map key alts)) ++ groups_report (map key alts :: seen) groups'
    end.
  (** One message for each alternative of a rule that the rule has already. *)
  Fixpoint alternatives_report (seen_groups : list (list K)) (seen : list (str * K)) (l : list (str * alternative)) : list str :=
    match l with
    | [] => []
    | (name, alt) :: l' =>
        groups_report seen_groups (groups_alternative alt) ++
        (if bool_decide ((name, key alt) ∈ seen) then [says_alternative] else []) ++
        alternatives_report (map (map key) (groups_alternative alt) ++ seen_groups) ((name, key alt) :: seen) l'
    end.
  Definition report_by (G : list rule) : list str :=
    map says_token (repeats [lit "_START"; lit "_STOP"] (lexer_rule_names G)) ++ alternatives_report [] [] (rule_alternatives G).
  Definition no_duplicates_by (G : list rule) : Prop :=
    NoDup (lit "_START" :: lit "_STOP" :: lexer_rule_names G) /\
    NoDup (map (fun na => (fst na, key (snd na))) (rule_alternatives G)) /\
    (forall alts s, occurs (Element (Group alts) s) G -> NoDup (map key alts)).
End key.
