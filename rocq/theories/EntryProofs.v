(** EntryProofs.v -- the entry points of the generated parser, on the sentences of their rules followed by a token
    that need not follow the rule in the grammar. *)
From Verif Require Export ShippedMain.

Section ends.
  Context (P : gset production) (voc : vocabulary) (tab : table) (t : token).
  Context (Htab : forall A u p, tab !! (A, u) = Some p <-> p ∈ P /\ left p = A /\ predicts P p u).
  Context (Hst : forall p, p ∈ P -> ~ starts P (right p) (token_type t)).

  Definition listed (A : nat) : bool := bool_decide (is_Some (tab !! (A, token_type t))).
  (** A derivation, and whether all nonterminals expanded at its very end are listed with the next token. *)
  Inductive ends : list item -> list token -> list ast -> bool -> Prop :=
  | ends_nil : ends [] [] [] true
  | ends_T u α tok w cs b : token_type tok = u -> ends α w cs b -> ends (T u :: α) (tok :: w) (Terminal tok :: cs) b
  | ends_NT p α w1 w2 cs1 cs2 b1 b2 : p ∈ P -> ends (right p) w1 cs1 b1 -> ends α w2 cs2 b2 ->
      ends (NT (left p) :: α) (w1 ++ w2) (node voc (left p) cs1 ++ cs2)
        (match w2 with [] => match w1 with [] => listed (left p) | _ => true end && (b1 && b2) | _ => b2 end).

  Lemma parses_ends α w cs : parses P voc α w cs -> exists b, ends α w cs b.
  Proof using.
    induction 1 as [|u α tok w cs Ht H [b IH]|p α w1 w2 cs1 cs2 Hp Hr [b1 IHr] Hα [b2 IHα]]; eexists; [constructor|by constructor|by constructor].
  Qed.
  Lemma ends_parses α w cs b : ends α w cs b -> parses P voc α w cs.
  Proof using. induction 1; by constructor. Qed.

  Lemma run_end toks α w cs b : ends α w cs b ->
    forall q a c rest, q ∈ P -> right q = a ++ α -> drop c toks = w ++ t :: rest ->
      exists n, forall fuel kids mm, n <= fuel ->
        parse_items voc toks (parse_ast voc tab toks fuel) α c kids mm = if b then Ret (c + length w, kids ++ cs, mm) else Panic.
  Proof using Htab Hst.
    induction 1 as [|u α tok w cs b Ht H IH|p α w1 w2 cs1 cs2 b1 b2 Hp Hr IHr Hα IHα]; intros q a c rest Hq Hrq Hd.
    - exists 0. intros fuel kids mm _. simpl. by rewrite Nat.add_0_r, app_nil_r.
    - assert (Hlk : toks !! c = Some tok).
      { rewrite <- (Nat.add_0_r c), <- lookup_drop, Hd. done. }
      destruct (IH q (a ++ [T u]) (c + 1) rest) as [n Hn]; [done| | |].
      { by rewrite <- (assoc_L (++)). }
      { rewrite <- drop_drop, Hd. done. }
      exists n. intros fuel kids mm Hle. simpl. rewrite Hlk. simpl. rewrite Ht, Nat.eqb_refl. simpl. rewrite Hn by done. destruct b; [|done].
      rewrite <- (assoc_L (++)). do 3 f_equal. simpl. lia.
    - assert (Hk : forall kids, match get_nonterminal_name_by_id voc (left p) with
              | Some _ => kids ++ [Rule (RuleCtx (get_nonterminal_name_with_default voc (left p)) cs1 (left p))]
              | None => kids ++ cs1 end = kids ++ node voc (left p) cs1).
      { intros kids. unfold node, get_nonterminal_name_with_default, get_nonterminal_name_by_id. by destruct (nt_id_to_name voc !! left p). }
      destruct (IHα q (a ++ [NT (left p)]) (c + length w1) rest) as [n2 Hn2]; [done| | |].
      { by rewrite <- (assoc_L (++)). }
      { rewrite <- drop_drop, Hd, <- (assoc_L (++)). by rewrite drop_app. }
      assert (Hx : forall n1, (forall fuel, n1 <= fuel -> parse_ast voc tab toks fuel c (left p) =
          Ret (RuleCtx (get_nonterminal_name_with_default voc (left p)) cs1 (left p), c + length w1, [])) ->
        exists n, forall fuel kids mm, n <= fuel -> parse_items voc toks (parse_ast voc tab toks fuel) (NT (left p) :: α) c kids mm =
          if b2 then Ret (c + length (w1 ++ w2), kids ++ (node voc (left p) cs1 ++ cs2), mm) else Panic).
      { intros n1 Hn1. exists (n1 `max` n2). intros fuel kids mm Hle. cbn [parse_items]. rewrite Hn1 by lia. cbn [rbind children].
        rewrite Hk, app_nil_r, Hn2 by lia. destruct b2; [|done]. rewrite <- (assoc_L (++)), app_length. do 3 f_equal. lia. }
      destruct w2 as [|u w2].
      + (* the derivation ends here *)
        rewrite app_nil_r in Hd.
        assert (Hbody : exists n1, forall fuel, n1 <= fuel -> parse_ast voc tab toks fuel c (left p) =
          if match w1 with [] => listed (left p) | _ => true end && b1
          then Ret (RuleCtx (get_nonterminal_name_with_default voc (left p)) cs1 (left p), c + length w1, []) else Panic).
        { destruct (IHr p [] c rest) as [n1 Hn1]; [done|done|done|].
          assert (Hcall : forall tok, toks !! c = Some tok -> tab !! (left p, token_type tok) = Some p -> forall fuel, S n1 <= fuel ->
            parse_ast voc tab toks fuel c (left p) =
            if b1 then Ret (RuleCtx (get_nonterminal_name_with_default voc (left p)) cs1 (left p), c + length w1, []) else Panic).
          { intros tok Hlk Hp' fuel Hle. destruct fuel as [|fuel]; [lia|]. cbn [parse_ast]. rewrite Hlk. cbn [unwrap rbind]. rewrite Hp'. cbn [unwrap rbind].
            rewrite Hn1 by lia. by destruct b1. }
          destruct w1 as [|x w1].
          - assert (Hlk : toks !! c = Some t) by (rewrite <- (Nat.add_0_r c), <- lookup_drop, Hd; done).
            unfold listed. case_bool_decide as Hl.
            + destruct Hl as [p' Hp']. assert (p' = p) as ->.
              { pose proof Hp' as (Hin & Hl & Hpr)%Htab. destruct Hpr as [Hs|[_ Hf]]; [by apply Hst in Hs|].
                assert (tab !! (left p, token_type t) = Some p) as Hp2; [|congruence].
                apply Htab. split; [done|]. split; [done|]. right. split; [by eapply parses_nullable, ends_parses|by rewrite <- Hl]. }
              exists (S n1). intros fuel Hle. by rewrite (Hcall t Hlk Hp').
            + exists 1. intros fuel Hle. destruct fuel as [|fuel]; [lia|]. cbn [parse_ast]. rewrite Hlk. cbn [unwrap rbind].
              destruct (tab !! (left p, token_type t)); [|done]. destruct Hl. by eexists.
          - assert (Hlk : toks !! c = Some x) by (rewrite <- (Nat.add_0_r c), <- lookup_drop, Hd; done).
            exists (S n1). intros fuel Hle. rewrite (Hcall x Hlk); [done| |done]. apply Htab. split; [done|]. split; [done|]. left.
            eapply parses_starts. by eapply ends_parses. }
        destruct Hbody as [n1 Hn1]. destruct (match w1 with [] => listed (left p) | _ => true end) eqn:El; cbn [andb] in *.
        * destruct b1; cbn [andb]; [by apply (Hx n1)|]. exists n1. intros fuel kids mm Hle. cbn [parse_items]. by rewrite Hn1.
        * exists n1. intros fuel kids mm Hle. cbn [parse_items]. by rewrite Hn1.
      + (* a later token of the sentence follows *)
        assert (Hf : follows P (left p) (token_type u)).
        { apply follows_iff. eapply fol_first; [exact Hq|exact Hrq|]. eapply parses_starts. by eapply ends_parses. }
        destruct (parse_ast_complete P voc tab toks Htab p w1 cs1 u c (w2 ++ t :: rest)) as [n1 Hn1]; [done|by eapply ends_parses|done| |by apply (Hx n1)].
        by rewrite Hd, <- (assoc_L (++)).
  Qed.

  (** An entry point on a sentence and one more token. *)
  Lemma entry_end toks p w cs b rest : p ∈ P -> ends (right p) w cs b -> (w <> [] \/ tab !! (left p, token_type t) = Some p) -> toks = w ++ t :: rest ->
    exists n, forall fuel, n <= fuel -> parse_ast voc tab toks fuel 0 (left p) =
      if b then Ret (RuleCtx (get_nonterminal_name_with_default voc (left p)) cs (left p), length w, []) else Panic.
  Proof using Htab Hst.
    intros Hp He Hw ->. destruct (run_end (w ++ t :: rest) _ _ _ _ He p [] 0 rest Hp eq_refl eq_refl) as [n Hn].
    exists (S n). intros fuel Hle. destruct fuel as [|fuel]; [lia|]. cbn [parse_ast].
    assert (exists tok, (w ++ t :: rest) !! 0 = Some tok /\ tab !! (left p, token_type tok) = Some p) as (tok & -> & E).
    { destruct w as [|x w].
      - exists t. split; [done|]. by destruct Hw.
      - exists x. split; [done|]. apply Htab. split; [done|]. split; [done|]. left. eapply parses_starts. by eapply ends_parses. }
    cbn [unwrap rbind]. rewrite E. cbn [unwrap rbind]. rewrite Hn by lia. by destruct b.
  Qed.
End ends.

(** ** The shipped grammar *)
Lemma shipped_no_stop p : p ∈ productions shipped -> ~ starts (productions shipped) (right p) 1.
Proof.
  assert (K : forall α β, derives (productions shipped) α β -> T 1 ∉ α -> T 1 ∉ β).
  { intros α β H. induction H as [|α β γ Hs _ IH]; [done|]. intros Hα. apply IH. clear IH. inversion Hs as [a q b Hq E1 E2]; subst.
    assert (T 1 ∉ right q) as Hr.
    { apply shipped_P in Hq. assert (forallb (fun q => bool_decide (T 1 ∉ right q)) shipped_productions = true) as Hc by (vm_compute; reflexivity).
      rewrite forallb_forall in Hc. apply elem_of_list_In, Hc in Hq. by apply bool_decide_eq_true in Hq. }
    revert Hα. rewrite !not_elem_of_app, not_elem_of_cons. intros (H1 & _ & H2). split; [exact H1|]. split; [exact Hr|exact H2]. }
  intros Hp [β Hd]. apply (K _ _ Hd); [|apply elem_of_list_here].
  apply shipped_P in Hp. assert (forallb (fun q => bool_decide (T 1 ∉ right q)) shipped_productions = true) as Hc by (vm_compute; reflexivity).
  rewrite forallb_forall in Hc. apply elem_of_list_In, Hc in Hp. by apply bool_decide_eq_true in Hp.
Qed.
Lemma shipped_unlisted : forallb (fun A => bool_decide (shipped_table !! (A, 1) = None)) [12; 13; 15; 17] = true.
Proof. vm_compute. reflexivity. Qed.
Lemma shipped_tab A u p : shipped_table !! (A, u) = Some p <-> p ∈ productions shipped /\ left p = A /\ predicts (productions shipped) p u.
Proof.
  refine (proj2 (build_table_ll1 1000 (elements (productions shipped)) shipped shipped_table [] _ shipped_closed shipped_ll1 shipped_table_built) A u p).
  unfold iteration_order. reflexivity.
Qed.

Section entry_points.
  Context (sP : gset production) (sV : vocabulary) (tab : table) (stop : token).
  Context (HP : forall p, p ∈ sP <-> p ∈ shipped_productions).
  Context (Hv : forall i, get_nonterminal_name_by_id sV i = shipped_names !! i).
  Context (Htab : forall A u p, tab !! (A, u) = Some p <-> p ∈ sP /\ left p = A /\ predicts sP p u).
  Context (Hns : forall p, p ∈ sP -> ~ starts sP (right p) 1).
  Context (Hunl : forallb (fun A => bool_decide (tab !! (A, 1) = None)) [12; 13; 15; 17] = true).
  Context (Hstop : token_type stop = 1).
  Notation ends := (ends sP sV tab stop).
  Notation listed := (listed tab stop).

  Lemma unlisted A : A ∈ [12; 13; 15; 17] -> listed A = false.
  Proof using HP Hv Htab Hns Hunl Hstop.
    intros HA. unfold EntryProofs.listed. rewrite Hstop. apply bool_decide_eq_false. pose proof Hunl as H. rewrite forallb_forall in H.
    apply elem_of_list_In, H, bool_decide_eq_true in HA. rewrite HA. by intros [? ?].
  Qed.
  Lemma ends_terminal_last α w cs b : ends α w cs b -> forall u, last α = Some (T u) -> w <> [] /\ b = true.
  Proof using HP Hv.
    induction 1 as [|u α tok w cs b Ht H IH|p α w1 w2 cs1 cs2 b1 b2 Hp Hr _ Hα IH]; intros u' Hl; [done|..].
    - split; [done|]. destruct α as [|x α]; [by inversion H|]. by apply (IH u').
    - destruct α as [|x α]; [done|]. destruct (IH u') as [Hw ->]; [done|].
      destruct w2 as [|y w2]; [by destruct Hw|]. split; [by destruct w1|exact eq_refl].
  Qed.
  Lemma prod_in p : p ∈ sP -> p ∈ shipped_productions.
  Proof using HP Hv. apply HP. Qed.
  (** What a nonterminal of the shipped grammar expands to. *)
  Lemma expansions A p : p ∈ sP -> left p = A -> right p ∈ map right (filter (fun p => left p = A) shipped_productions).
  Proof using HP Hv.
    intros Hp Hl. apply elem_of_list_fmap. exists p. split; [done|]. apply elem_of_list_filter. split; [done|by apply prod_in].
  Qed.
  Definition critical (A : nat) : bool := (A =? 2) || (A =? 12) || (A =? 13).
  Lemma critical_right p : p ∈ sP -> critical (left p) = true ->
    right p = [] /\ left p ∈ [12; 13; 15; 17] \/ exists B, last (right p) = Some (NT B) /\ critical B = true.
  Proof using HP Hv.
    intros Hp%prod_in HA.
    assert (forallb (fun p => negb (critical (left p)) || match last (right p) with
      | None => bool_decide (left p ∈ [12; 13; 15; 17]) | Some (NT B) => critical B | Some (T _) => false end) shipped_productions = true) as K by (vm_compute; reflexivity).
    rewrite forallb_forall in K. apply elem_of_list_In, K in Hp. rewrite HA in Hp. cbn [negb orb] in Hp.
    destruct (last (right p)) as [[B|u]|] eqn:E; [by right; exists B|discriminate Hp|]. left. apply bool_decide_eq_true in Hp. split; [|exact Hp].
    by apply last_None in E.
  Qed.
  Lemma ends_critical α w cs b : ends α w cs b -> forall B, last α = Some (NT B) -> critical B = true -> b = false.
  Proof using HP Hv Htab Hns Hunl Hstop.
    induction 1 as [|u α tok w cs b Ht H IH|p α w1 w2 cs1 cs2 b1 b2 Hp Hr IHr Hα IH]; intros B Hl HB; [done|..].
    - destruct α as [|x α]; [done|]. by apply (IH B).
    - destruct α as [|x α]; [|rewrite (IH B) by done; destruct w2; [by rewrite !andb_false_r|done]].
      injection Hl as <-. inversion Hα; subst. destruct (critical_right p Hp HB) as [[E HA]|(B & HB1 & HB2)].
      + rewrite E in Hr. inversion Hr; subst. rewrite unlisted by exact HA. done.
      + rewrite (IHr B HB1 HB2). by rewrite andb_false_r.
  Qed.

  Lemma parses_NT_inv A w cs : parses sP sV [NT A] w cs -> exists p cs1, p ∈ sP /\ left p = A /\ parses sP sV (right p) w cs1 /\ cs = node sV A cs1.
  Proof using HP Hv.
    intros H. inversion H as [| |p α w1 w2 cs1 cs2 Hp H1 H2 E1 E2 E3]; subst. inversion H2; subst.
    exists p, cs1. rewrite !app_nil_r. done.
  Qed.
  Lemma run_entry A p w cs rest : p ∈ sP -> left p = A -> parses sP sV (right p) w cs -> w <> [] ->
    exists b, ends (right p) w cs b /\ exists n, forall fuel, n <= fuel -> entry sV tab (w ++ stop :: rest) fuel A =
      if b then Ret (RuleCtx (get_nonterminal_name_with_default sV A) cs A, []) else Panic.
  Proof using HP Hv Htab Hns Hunl Hstop.
    intros Hp <- H Hw. destruct (parses_ends sP sV tab stop _ _ _ H) as [b Hb]. exists b. split; [done|].
    destruct (entry_end sP sV tab stop Htab) with (toks := w ++ stop :: rest) (p := p) (w := w) (cs := cs) (b := b) (rest := rest) as [n Hn];
      [by rewrite Hstop; apply Hns|done|done|by left|done|].
    exists n. intros fuel Hle. unfold entry. rewrite (Hn fuel Hle). by destruct b.
  Qed.
  Lemma named_retype A n (cs : list ast) c : shipped_names !! A = Some n -> R (node sV A cs) = [Rule c] ->
    c = retype_rule hand_type (RuleCtx (get_nonterminal_name_with_default sV A) cs A).
  Proof using HP Hv.
    intros Hn. rewrite (node_named sV Hv A cs n Hn). unfold get_nonterminal_name_with_default.
    pose proof (Hv A) as E. unfold get_nonterminal_name_by_id in E. rewrite Hn in E. rewrite E. cbn [R map retype_ast]. by intros [= <-].
  Qed.

  Definition solid : list nat := [1; 2; 3; 4; 5; 6; 7; 8; 9; 11; 14; 16].
  Definition solid_head (α : list item) : bool := match α with T _ :: _ => true | NT A :: _ => bool_decide (A ∈ solid) | [] => false end.
  Lemma parses_nonempty α w cs : parses sP sV α w cs -> solid_head α = true -> w <> [].
  Proof using HP Hv.
    induction 1 as [|u α tok w cs Ht H IH|p α w1 w2 cs1 cs2 Hp Hr IHr Hα IH]; intros Hh; [done|done|].
    assert (w1 <> []) as Hw; [|by destruct w1]. apply IHr. apply prod_in in Hp.
    assert (forallb (fun p => negb (solid_head [NT (left p)]) || solid_head (right p)) shipped_productions = true) as K by (vm_compute; reflexivity).
    rewrite forallb_forall in K. apply elem_of_list_In, K in Hp. cbn [solid_head] in *. by rewrite Hh in Hp.
  Qed.

  Lemma entry_rule r w ts rest : rule_tokens r ts -> map tt_of w = ts ->
    exists c n, rule_tree r (retype_rule hand_type c) /\ forall fuel, n <= fuel ->
      entry sV tab (w ++ stop :: rest) fuel (match r with ParserRule _ _ => 1 | LexerRule _ _ => 7 end) = Ret (c, []).
  Proof using HP Hv Htab Hns Hunl Hstop.
    intros Hr Hw. destruct (rule_parses sP sV HP Hv r ts Hr w Hw) as (cs & c & Hpar & Hc & HT).
    destruct (parses_NT_inv _ _ _ Hpar) as (p & cs1 & Hp & Hl & Hpar1 & ->). rewrite (node_unnamed sV Hv 9) in Hc by lia.
    set (A := match r with ParserRule _ _ => 1 | LexerRule _ _ => 7 end).
    assert (HcA : rule_index c = A) by (inversion HT; subst; reflexivity).
    assert (right p = [NT 1] \/ right p = [NT 7]) as Ep.
    { apply (fun H => expansions _ _ H Hl) in Hp. change (map right (filter (fun p => left p = 9) shipped_productions)) with [[NT 1]; [NT 7]] in Hp.
      rewrite !elem_of_cons in Hp. destruct Hp as [E|[E|?%elem_of_nil]]; [by left|by right|done]. }
    assert (exists B, right p = [NT B] /\ (B = 1 \/ B = 7)) as (B & EB & HB) by (destruct Ep as [->| ->]; eauto).
    rewrite EB in Hpar1. destruct (parses_NT_inv _ _ _ Hpar1) as (q & cs2 & Hq & Hlq & Hpar2 & ->).
    assert (exists n, shipped_names !! B = Some n) as [nm Hnm] by (destruct HB as [->| ->]; eexists; reflexivity).
    pose proof (named_retype B nm cs2 c Hnm Hc) as Ec.
    assert (B = A) as -> by (by rewrite Ec in HcA). clear Ep EB HcA. clearbody A.
    assert (w <> []) as Hne by (eapply parses_nonempty; [exact Hpar1|]; destruct HB as [->| ->]; reflexivity).
    destruct (run_entry A q w cs2 rest Hq Hlq Hpar2 Hne) as (b & Hb & n & Hn).
    assert (exists u, last (right q) = Some (T u)) as [u Hu].
    { pose proof (expansions _ _ Hq Hlq) as Hx. destruct HB as [HB|HB]; rewrite HB in Hx;
        [change (map right (filter (fun p => left p = 1) shipped_productions)) with [[T 2; T 4; NT 2; T 5]] in Hx
        |change (map right (filter (fun p => left p = 7) shipped_productions)) with [[T 3; T 4; NT 8; T 5]] in Hx];
        apply elem_of_list_singleton in Hx; rewrite Hx; by eexists. }
    destruct (ends_terminal_last _ _ _ _ Hb u Hu) as [_ ->]. eexists _, n. split; [|exact Hn]. by rewrite <- Ec.
  Qed.

  Lemma entry_block alts w ts rest : alternatives_tokens alts ts -> map tt_of w = ts ->
    exists n, forall fuel, n <= fuel -> entry sV tab (w ++ stop :: rest) fuel 2 = Panic.
  Proof using HP Hv Htab Hns Hunl Hstop.
    intros Ha Hw. destruct (proj1 (proj2 (proj2 (tokens_parses sP sV HP Hv))) _ _ Ha w Hw) as (cs & Hpar & _).
    assert (Production 2 [NT 3; NT 12] ∈ sP) as Hp by (by apply HP, (in_shipped 6)).
    assert (w <> []) as Hne by (eapply parses_nonempty; [exact Hpar|reflexivity]).
    destruct (run_entry 2 _ w cs rest Hp eq_refl Hpar Hne) as (b & Hb & n & Hn).
    rewrite (ends_critical _ _ _ _ Hb 12) in Hn; [eauto|reflexivity|reflexivity].
  Qed.
  Lemma entry_epsilon e rest : token_type e = V1_EPSILON ->
    exists n, forall fuel, n <= fuel -> entry sV tab ([e] ++ stop :: rest) fuel 4 = Ret (RuleCtx (lit "epsilon") [Terminal e] 4, []).
  Proof using HP Hv Htab Hns Hunl Hstop.
    intros He. assert (Production 4 [T 7] ∈ sP) as Hp by (by apply HP, (in_shipped 14)).
    destruct (run_entry 4 _ [e] [Terminal e] rest Hp eq_refl) as (b & Hb & n & Hn); [by apply parses_tok|done|].
    destruct (ends_terminal_last _ _ _ _ Hb 7 eq_refl) as [_ ->]. exists n. intros fuel Hle. rewrite (Hn fuel Hle).
    unfold get_nonterminal_name_with_default. pose proof (Hv 4) as E. unfold get_nonterminal_name_by_id in E. rewrite E. reflexivity.
  Qed.
  Lemma entry_regular e rest : token_type e = V1_REGULAR_LITERAL ->
    exists n, forall fuel, n <= fuel -> entry sV tab ([e] ++ stop :: rest) fuel 8 = Ret (RuleCtx (lit "regular") [Terminal e] 8, []).
  Proof using HP Hv Htab Hns Hunl Hstop.
    intros He. assert (Production 8 [T 14] ∈ sP) as Hp by (by apply HP, (in_shipped 29)).
    destruct (run_entry 8 _ [e] [Terminal e] rest Hp eq_refl) as (b & Hb & n & Hn); [by apply parses_tok|done|].
    destruct (ends_terminal_last _ _ _ _ Hb 14 eq_refl) as [_ ->]. exists n. intros fuel Hle. rewrite (Hn fuel Hle).
    unfold get_nonterminal_name_with_default. pose proof (Hv 8) as E. unfold get_nonterminal_name_by_id in E. rewrite E. reflexivity.
  Qed.

  Lemma ends_two A B w cs b : ends [NT A; NT B] w cs b -> exists p q w1 w2 cs1 cs2 b1 b2, p ∈ sP /\ left p = A /\ q ∈ sP /\ left q = B /\
    w = w1 ++ w2 /\ cs = node sV A cs1 ++ node sV B cs2 /\ ends (right p) w1 cs1 b1 /\ ends (right q) w2 cs2 b2 /\
    (w2 <> [] -> b = b2) /\ (w2 = [] -> b = match w1 with [] => listed A | _ => true end && (b1 && (listed B && b2))).
  Proof using HP Hv.
    intros H. inversion H as [| |p α w1 w2 cs1 cs2 b1 b2 Hp H1 H2 E1 E2 E3]; subst.
    inversion H2 as [| |q α w3 w4 cs3 cs4 b3 b4 Hq H3 H4 E1 E2 E3]; subst. inversion H4; subst. rewrite !app_nil_r in *.
    exists p, q, w1, w3, cs1, cs3, b1, b3. split_and!; try done.
    - destruct w3; [done|]. intros _. cbn. by rewrite andb_true_r.
    - intros ->. by rewrite andb_true_r.
  Qed.

  Lemma ends_suffix k b w ts cs e : suffix_tokens (Some (k, b)) ts -> map tt_of w = ts -> ends [NT 16; NT 17] w cs e -> e = b.
  Proof using HP Hv Htab Hns Hunl Hstop.
    intros Hs Hw He. destruct (ends_two _ _ _ _ _ He) as (p & q & w1 & w2 & cs1 & cs2 & b1 & b2 & Hp & Hlp & Hq & Hlq & -> & _ & H1 & H2 & Hb2 & Hb1).
    assert (length w1 = 1) as Hl1.
    { apply (fun H => expansions _ _ H Hlp) in Hp. change (map right (filter (fun p => left p = 16) shipped_productions)) with [[T 8]; [T 9]; [T 10]] in Hp.
      rewrite !elem_of_cons in Hp. destruct Hp as [E|[E|[E|?%elem_of_nil]]]; [..|done]; rewrite E in H1; inversion H1 as [|? ? ? ? ? ? _ H3|]; subst; by inversion H3. }
    apply (fun H => expansions _ _ H Hlq) in Hq. change (map right (filter (fun p => left p = 17) shipped_productions)) with [[T 10]; []] in Hq.
    rewrite !elem_of_cons in Hq. destruct Hq as [E|[E|?%elem_of_nil]]; [..|done]; rewrite E in H2.
    - destruct (ends_terminal_last _ _ _ _ H2 10 eq_refl) as [Hne ->]. rewrite (Hb2 Hne). assert (length w2 = 1) as Hl2.
      { inversion H2 as [|? ? ? ? ? ? _ H3|]; subst; by inversion H3. }
      apply (f_equal length) in Hw. rewrite map_length, app_length, Hl1, Hl2 in Hw. by inversion Hs; subst.
    - inversion H2; subst w2. rewrite (Hb1 eq_refl), (unlisted 17) by (apply elem_of_list_In; cbn; auto 10). rewrite !andb_false_r.
      apply (f_equal length) in Hw. rewrite map_length, app_length, Hl1 in Hw. by inversion Hs; subst.
  Qed.

  Lemma ends_app α w1 cs1 b1 β w2 cs2 b2 : ends α w1 cs1 b1 -> ends β w2 cs2 b2 ->
    ends (α ++ β) (w1 ++ w2) (cs1 ++ cs2) (match w2 with [] => b1 && b2 | _ => b2 end).
  Proof using HP Hv.
    intros H1 H2. induction H1 as [|u α tok w cs b Ht H IH|p α u1 u2 cs1 cs2' c1 c2 Hp Hr _ Hα IH]; cbn [app].
    - by destruct w2.
    - by constructor.
    - rewrite <- !(assoc_L (++)).
      assert (match w2 with [] => match u2 with [] => match u1 with [] => listed (left p) | _ => true end && (c1 && c2) | _ => c2 end && b2 | _ => b2 end =
        match u2 ++ w2 with [] => match u1 with [] => listed (left p) | _ => true end && (c1 && match w2 with [] => c2 && b2 | _ => b2 end)
                          | _ => match w2 with [] => c2 && b2 | _ => b2 end end) as ->.
      { destruct w2 as [|x w2]; [rewrite app_nil_r; destruct u2; [|done]|by destruct u2].
        by rewrite !andb_assoc. }
      by apply ends_NT.
  Qed.
  Lemma run_ends A p w cs b rest : p ∈ sP -> left p = A -> ends (right p) w cs b -> w <> [] ->
    exists n, forall fuel, n <= fuel -> entry sV tab (w ++ stop :: rest) fuel A =
      if b then Ret (RuleCtx (get_nonterminal_name_with_default sV A) cs A, []) else Panic.
  Proof using HP Hv Htab Hns Hunl Hstop.
    intros Hp <- Hb Hw.
    destruct (entry_end sP sV tab stop Htab) with (toks := w ++ stop :: rest) (p := p) (w := w) (cs := cs) (b := b) (rest := rest) as [n Hn];
      [by rewrite Hstop; apply Hns|done|done|by left|done|].
    exists n. intros fuel Hle. unfold entry. rewrite (Hn fuel Hle). by destruct b.
  Qed.
  Lemma ends_one p w cs b : p ∈ sP -> ends (right p) w cs b -> w <> [] -> ends [NT (left p)] w (node sV (left p) cs) b.
  Proof using HP Hv.
    intros Hp H Hw. pose proof (ends_NT sP sV tab stop p [] w [] cs [] b true Hp H (ends_nil _ _ _ _)) as K.
    rewrite !app_nil_r in K. destruct w; [done|]. cbn [andb] in K. by rewrite andb_true_r in K.
  Qed.

  (** A written suffix. *)
  Lemma suffix_ends k b w ts : suffix_tokens (Some (k, b)) ts -> map tt_of w = ts -> exists cs,
    ends [NT 16; NT 17] w cs b /\ w <> [] /\ suffix_tree (Some (k, b)) (R (node sV 6 cs)).
  Proof using HP Hv Htab Hns Hunl Hstop.
    intros Hs Hw. assert (w <> []) as Hne by (intros ->; cbn in Hw; subst ts; by inversion Hs).
    destruct (suffix_parses sP sV HP Hv _ _ Hs w Hw) as (cs & Hpar & HT).
    destruct (parses_NT_inv _ _ _ Hpar) as (p & cs1 & Hp & Hl & Hpar1 & ->). rewrite (node_unnamed sV Hv 15) in HT by lia.
    apply (fun H => expansions _ _ H Hl) in Hp. change (map right (filter (fun p => left p = 15) shipped_productions)) with [[NT 6]; []] in Hp.
    rewrite !elem_of_cons in Hp. destruct Hp as [E|[E|?%elem_of_nil]]; [..|done]; rewrite E in Hpar1; [|by inversion Hpar1; subst].
    destruct (parses_NT_inv _ _ _ Hpar1) as (q & cs2 & Hq & Hlq & Hpar2 & ->).
    apply (fun H => expansions _ _ H Hlq) in Hq. change (map right (filter (fun p => left p = 6) shipped_productions)) with [[NT 16; NT 17]] in Hq.
    apply elem_of_list_singleton in Hq. rewrite Hq in Hpar2.
    destruct (parses_ends sP sV tab stop _ _ _ Hpar2) as [e He]. pose proof (ends_suffix _ _ _ _ _ _ Hs Hw He) as ->. eauto.
  Qed.
  Lemma default_retype A n cs : shipped_names !! A = Some n ->
    R (node sV A cs) = [Rule (retype_rule hand_type (RuleCtx (get_nonterminal_name_with_default sV A) cs A))].
  Proof using HP Hv.
    intros Hn. rewrite (node_named sV Hv A cs n Hn). unfold get_nonterminal_name_with_default.
    pose proof (Hv A) as E. unfold get_nonterminal_name_by_id in E. rewrite Hn in E. by rewrite E.
  Qed.
  Lemma entry_suffix k b w ts rest : suffix_tokens (Some (k, b)) ts -> map tt_of w = ts ->
    exists c n, suffix_tree (Some (k, b)) [Rule (retype_rule hand_type c)] /\ forall fuel, n <= fuel ->
      entry sV tab (w ++ stop :: rest) fuel 6 = if b then Ret (c, []) else Panic.
  Proof using HP Hv Htab Hns Hunl Hstop.
    intros Hs Hw. destruct (suffix_ends _ _ _ _ Hs Hw) as (cs & He & Hne & HT).
    assert (Production 6 [NT 16; NT 17] ∈ sP) as Hp by (by apply HP, (in_shipped 22)).
    destruct (run_ends 6 _ w cs b rest Hp eq_refl He Hne) as [n Hn]. eexists _, n. split; [|exact Hn].
    by rewrite (default_retype 6 (lit "ebnf_suffix")) in HT.
  Qed.
  Definition lazy (s : option (SpecEbnf.suffix * bool)) : bool := match s with Some (_, true) => true | _ => false end.
  Lemma element_ends a s w ts : element_tokens (Element a s) ts -> map tt_of w = ts -> exists cs,
    ends [NT 14; NT 15] w cs (lazy s) /\ w <> [] /\ element_tree (Element a s) (retype_rule hand_type (RuleCtx (get_nonterminal_name_with_default sV 5) cs 5)).
  Proof using HP Hv Htab Hns Hunl Hstop.
    intros He Hw. inversion He as [? ? ts1 ts2 Ha Hs]; subst a0 s0 ts. rename H1 into Hts.
    symmetry in Hts. apply map_tt_app in Hts as (w1 & w2 & -> & H1 & H2).
    destruct (proj1 (proj2 (tokens_parses sP sV HP Hv)) _ _ Ha w1 H1) as (cs1 & Hp1 & T1).
    assert (w1 <> []) as Hne by (eapply parses_nonempty; [exact Hp1|reflexivity]).
    destruct (parses_ends sP sV tab stop _ _ _ Hp1) as [b1 Hb1].
    assert (exists cs2, ends [NT 15] w2 cs2 (lazy s) /\ suffix_tree s (R cs2) /\ (s <> None -> w2 <> [])) as (cs2 & Hb2 & T2 & Hw2).
    { destruct s as [[k b]|].
      - destruct (suffix_ends _ _ _ _ Hs H2) as (cs & He2 & Hne2 & HT). exists (node sV 6 cs). split; [|done].
        assert (Production 6 [NT 16; NT 17] ∈ sP) as Hp6 by (by apply HP, (in_shipped 22)).
        assert (Production 15 [NT 6] ∈ sP) as Hp15 by (by apply HP, (in_shipped 20)).
        pose proof (ends_one _ _ _ _ Hp15 (ends_one _ _ _ _ Hp6 He2 Hne2) Hne2) as K. cbn [left] in K.
        rewrite (node_unnamed sV Hv 15) in K by lia. by destruct b.
      - assert (ts2 = []) as -> by (by inversion Hs). apply map_tt_nil in H2 as ->. exists []. split; [|split; [constructor|done]].
        assert (Production 15 [] ∈ sP) as Hp15 by (by apply HP, (in_shipped 21)).
        pose proof (ends_NT sP sV tab stop _ [] [] [] [] [] true true Hp15 (ends_nil _ _ _ _) (ends_nil _ _ _ _)) as K.
        cbn [left app] in K. rewrite (node_unnamed sV Hv 15) in K by lia. rewrite (unlisted 15) in K by (apply elem_of_list_In; cbn; auto 10). exact K. }
    exists (cs1 ++ cs2). split; [|split].
    - pose proof (ends_app [NT 14] w1 cs1 b1 [NT 15] w2 cs2 (lazy s) Hb1 Hb2) as K. cbn [app] in K. destruct w2; [|exact K].
      destruct s as [[k []]|]; [by destruct Hw2|by rewrite andb_false_r in K|by rewrite andb_false_r in K].
    - by destruct w1.
    - cbn [retype_rule]. fold (R (cs1 ++ cs2)). change (map (retype_ast hand_type) (cs1 ++ cs2)) with (R (cs1 ++ cs2)). rewrite R_app. by constructor.
  Qed.
  Lemma entry_element a s w ts rest : element_tokens (Element a s) ts -> map tt_of w = ts ->
    exists c n, element_tree (Element a s) (retype_rule hand_type c) /\ forall fuel, n <= fuel ->
      entry sV tab (w ++ stop :: rest) fuel 5 = if lazy s then Ret (c, []) else Panic.
  Proof using HP Hv Htab Hns Hunl Hstop.
    intros He Hw. destruct (element_ends _ _ _ _ He Hw) as (cs & Hb & Hne & HT).
    assert (Production 5 [NT 14; NT 15] ∈ sP) as Hp by (by apply HP, (in_shipped 15)).
    destruct (run_ends 5 _ w cs _ rest Hp eq_refl Hb Hne) as [n Hn]. eexists _, n. split; [exact HT|exact Hn].
  Qed.
  Lemma epsilon_children c : alternative_tree Epsilon c -> exists m e, children c = [Rule (RuleCtx m [e] 4)].
  Proof using. intros H. inversion H; subst. by eexists _, _. Qed.
  Lemma sequence_children es c a cs : alternative_tree (Sequence es) c -> children c = Rule a :: cs -> rule_index a = 5.
  Proof using.
    intros H E. inversion H as [|n es' cs' He]; subst. cbn [children] in E. subst cs'. inversion He as [|e c es' cs' He' Hes]; subst.
    by inversion He'; subst.
  Qed.
  Lemma entry_alternative a w ts rest : alternative_tokens a ts -> map tt_of w = ts ->
    exists c n, alternative_tree a (retype_rule hand_type c) /\ forall fuel, n <= fuel ->
      entry sV tab (w ++ stop :: rest) fuel 3 = match a with Epsilon => Ret (c, []) | Sequence _ => Panic end.
  Proof using HP Hv Htab Hns Hunl Hstop.
    intros Ha Hw. destruct (proj1 (proj2 (proj2 (proj2 (tokens_parses sP sV HP Hv)))) _ _ Ha w Hw) as (cs & c & Hpar & Hc & HT).
    assert (w <> []) as Hne by (eapply parses_nonempty; [exact Hpar|reflexivity]).
    destruct (parses_NT_inv _ _ _ Hpar) as (p & cs1 & Hp & Hl & Hpar1 & ->).
    destruct (run_entry 3 p w cs1 rest Hp Hl Hpar1 Hne) as (b & Hb & n & Hn).
    pose proof (named_retype 3 (lit "alternative") cs1 c eq_refl Hc) as Ec.
    eexists _, n. split; [rewrite <- Ec; exact HT|]. intros fuel Hle. rewrite (Hn fuel Hle). clear Hn.
    assert (children c = R cs1) as Ech by (rewrite Ec; reflexivity). clear Ec Hc.
    apply (fun H => expansions _ _ H Hl) in Hp. change (map right (filter (fun p => left p = 3) shipped_productions)) with [[NT 5; NT 13]; [NT 4]] in Hp.
    rewrite !elem_of_cons in Hp. destruct Hp as [E|[E|?%elem_of_nil]]; [..|done]; rewrite E in Hb.
    - rewrite (ends_critical _ _ _ _ Hb 13) by reflexivity. destruct a; [|done]. exfalso.
      destruct (ends_two _ _ _ _ _ Hb) as (q & q' & w1 & w2 & c1 & c2 & b1 & b2 & Hq & Hlq & Hq' & Hlq' & -> & -> & _).
      rewrite R_app, (default_retype 5 (lit "element")) in Ech by reflexivity.
      destruct (epsilon_children c HT) as (m & e & E1). rewrite E1 in Ech. discriminate Ech.
    - rewrite E in Hpar1. destruct (parses_NT_inv _ _ _ Hpar1) as (q & c1 & Hq & Hlq & Hpar2 & ->).
      pose proof (expansions _ _ Hq Hlq) as Hx. change (map right (filter (fun p => left p = 4) shipped_productions)) with [[T 7]] in Hx.
      apply elem_of_list_singleton in Hx. rewrite (default_retype 4 (lit "epsilon")) in Ech by reflexivity. destruct a as [|es].
      + assert (b = true) as ->; [|done]. clear Hpar2 E Hpar1.
        inversion Hb as [| |q' α w1 w2 c3 c2 b1 b2 Hq' K1 K2 E2 E3 E4]; subst. inversion K2; subst.
        rewrite app_nil_r in Hne. destruct w1 as [|y w1]; [done|]. cbn [andb]. rewrite andb_true_r.
        pose proof (expansions _ _ Hq' E2) as Hy. change (map right (filter (fun p => left p = 4) shipped_productions)) with [[T 7]] in Hy.
        apply elem_of_list_singleton in Hy. rewrite Hy in K1. by destruct (ends_terminal_last _ _ _ _ K1 7 eq_refl) as [_ ->].
      + exfalso. pose proof (sequence_children _ _ _ _ HT Ech) as E5. discriminate E5.
  Qed.
End entry_points.

Lemma c53_setup g d order fuel0 tab w0 :
  load_ast syntaxis2_json = Ret (g, d) -> iteration_order g order -> build_table fuel0 order g = Ret (tab, w0) -> g = shipped /\ tab = shipped_table.
Proof.
  intros Hl Ho Ht. pose proof (shipped_load_inv g d Hl) as E. split; [by symmetry|]. rewrite <- E in Ho, Ht.
  by destruct (shipped_table_any order fuel0 tab w0 Ho Ht) as [-> _].
Qed.

Lemma c53_rule_list g d order fuel0 tab w0 G ts toks stop rest :
  load_ast syntaxis2_json = Ret (g, d) -> iteration_order g order -> build_table fuel0 order g = Ret (tab, w0) ->
  grammar_tokens G ts -> map (fun t => (token_type t, text t)) toks = ts -> token_type stop = 1 ->
  exists c n, grammar_tree G (retype_rule hand_type c) /\ forall fuel, n <= fuel ->
    entry (g_vocabulary g) tab (toks ++ stop :: rest) fuel RULE_LIST = Ret (c, []).
Proof.
  intros Hl Ho Ht HG Hts Hstop. destruct (c53_setup _ _ _ _ _ _ Hl Ho Ht) as [-> ->]. clear Ht.
  destruct shipped_table_returns as [n1 Htab].
  destruct (grammar_parses (productions shipped) (g_vocabulary shipped) shipped_P shipped_v G ts HG toks Hts) as (cs & Hcs & rs & Hrs & HT).
  assert (Production 0 [NT 10] ∈ productions shipped) as Hp0 by (apply shipped_P, elem_of_list_here).
  assert (sentence (productions shipped) 0 toks) as Hsent.
  { eapply (parses_derives _ (g_vocabulary shipped)). apply (parses_one _ _ shipped_P (Production 0 [NT 10])); [apply elem_of_list_here|exact Hcs]. }
  destruct (c33_parse_start shipped order n1 shipped_table (g_vocabulary shipped) toks stop rest Ho shipped_closed (Htab order n1 Ho (le_n _)) Hsent Hstop)
    as (p & cs' & Hp & Hpl & Hpar & n2 & Hn2).
  assert (cs' = cs) as -> by exact (c38_unambiguous_start shipped order n1 shipped_table (g_vocabulary shipped) toks p cs' (Production 0 [NT 10]) cs Ho
    shipped_closed (Htab order n1 Ho (le_n _)) Hp Hpl Hpar Hp0 eq_refl Hcs).
  eexists _, n2. split; [|exact Hn2]. eexists _, rs. split; [|exact HT]. cbn [retype_rule]. unfold R in Hrs. rewrite Hrs. reflexivity.
Qed.

Lemma c53_rules g d order fuel0 tab w0 r ts toks stop rest :
  load_ast syntaxis2_json = Ret (g, d) -> iteration_order g order -> build_table fuel0 order g = Ret (tab, w0) ->
  rule_tokens r ts -> map (fun t => (token_type t, text t)) toks = ts -> token_type stop = 1 ->
  exists c n, rule_tree r (retype_rule hand_type c) /\ forall fuel, n <= fuel ->
    entry (g_vocabulary g) tab (toks ++ stop :: rest) fuel (match r with ParserRule _ _ => PARSER_RULE | LexerRule _ _ => LEXER_RULE end) = Ret (c, []).
Proof.
  intros Hl Ho Ht Hr Hts Hstop. destruct (c53_setup _ _ _ _ _ _ Hl Ho Ht) as [-> ->].
  exact (entry_rule _ _ _ stop shipped_P shipped_v shipped_tab shipped_no_stop shipped_unlisted Hstop r toks ts rest Hr Hts).
Qed.

Lemma c53_leaf g d order fuel0 tab w0 e stop rest :
  load_ast syntaxis2_json = Ret (g, d) -> iteration_order g order -> build_table fuel0 order g = Ret (tab, w0) -> token_type stop = 1 ->
  exists n, forall fuel, n <= fuel ->
    (token_type e = V1_EPSILON ->
      entry (g_vocabulary g) tab (e :: stop :: rest) fuel EPSILON_RULE = Ret (RuleCtx (lit "epsilon") [Terminal e] EPSILON_RULE, [])) /\
    (token_type e = V1_REGULAR_LITERAL ->
      entry (g_vocabulary g) tab (e :: stop :: rest) fuel REGULAR = Ret (RuleCtx (lit "regular") [Terminal e] REGULAR, [])).
Proof.
  intros Hl Ho Ht Hstop. destruct (c53_setup _ _ _ _ _ _ Hl Ho Ht) as [-> ->].
  destruct (decide (token_type e = V1_EPSILON)) as [E|E].
  - destruct (entry_epsilon _ _ _ stop shipped_P shipped_v shipped_tab shipped_no_stop shipped_unlisted Hstop e rest E) as [n Hn].
    exists n. intros fuel Hle. split; [intros _; exact (Hn fuel Hle)|]. rewrite E. discriminate.
  - destruct (decide (token_type e = V1_REGULAR_LITERAL)) as [E2|E2].
    + destruct (entry_regular _ _ _ stop shipped_P shipped_v shipped_tab shipped_no_stop shipped_unlisted Hstop e rest E2) as [n Hn].
      exists n. intros fuel Hle. split; [intros E3; destruct (E E3)|]. intros _; exact (Hn fuel Hle).
    + exists 0. intros fuel _. split; intros E3; [destruct (E E3)|destruct (E2 E3)].
Qed.

Lemma c53_block g d order fuel0 tab w0 alts ts toks stop rest :
  load_ast syntaxis2_json = Ret (g, d) -> iteration_order g order -> build_table fuel0 order g = Ret (tab, w0) ->
  alternatives_tokens alts ts -> map (fun t => (token_type t, text t)) toks = ts -> token_type stop = 1 ->
  exists n, forall fuel, n <= fuel -> entry (g_vocabulary g) tab (toks ++ stop :: rest) fuel BLOCK = Panic.
Proof.
  intros Hl Ho Ht Hr Hts Hstop. destruct (c53_setup _ _ _ _ _ _ Hl Ho Ht) as [-> ->].
  exact (entry_block _ _ _ stop shipped_P shipped_v shipped_tab shipped_no_stop shipped_unlisted Hstop alts toks ts rest Hr Hts).
Qed.

Lemma c53_alternative g d order fuel0 tab w0 a ts toks stop rest :
  load_ast syntaxis2_json = Ret (g, d) -> iteration_order g order -> build_table fuel0 order g = Ret (tab, w0) ->
  alternative_tokens a ts -> map (fun t => (token_type t, text t)) toks = ts -> token_type stop = 1 ->
  exists c n, alternative_tree a (retype_rule hand_type c) /\ forall fuel, n <= fuel ->
    entry (g_vocabulary g) tab (toks ++ stop :: rest) fuel ALTERNATIVE = match a with Epsilon => Ret (c, []) | Sequence _ => Panic end.
Proof.
  intros Hl Ho Ht Hr Hts Hstop. destruct (c53_setup _ _ _ _ _ _ Hl Ho Ht) as [-> ->].
  exact (entry_alternative _ _ _ stop shipped_P shipped_v shipped_tab shipped_no_stop shipped_unlisted Hstop a toks ts rest Hr Hts).
Qed.

Lemma c53_element g d order fuel0 tab w0 a s ts toks stop rest :
  load_ast syntaxis2_json = Ret (g, d) -> iteration_order g order -> build_table fuel0 order g = Ret (tab, w0) ->
  element_tokens (Element a s) ts -> map (fun t => (token_type t, text t)) toks = ts -> token_type stop = 1 ->
  exists c n, element_tree (Element a s) (retype_rule hand_type c) /\ forall fuel, n <= fuel ->
    entry (g_vocabulary g) tab (toks ++ stop :: rest) fuel ELEMENT = match s with Some (_, true) => Ret (c, []) | _ => Panic end.
Proof.
  intros Hl Ho Ht Hr Hts Hstop. destruct (c53_setup _ _ _ _ _ _ Hl Ho Ht) as [-> ->].
  destruct (entry_element _ _ _ stop shipped_P shipped_v shipped_tab shipped_no_stop shipped_unlisted Hstop a s toks ts rest Hr Hts) as (c & n & HT & Hn).
  exists c, n. split; [exact HT|]. intros fuel Hle. change ELEMENT with 5. rewrite (Hn fuel Hle). by destruct s as [[k []]|].
Qed.

Lemma c53_suffix g d order fuel0 tab w0 k b ts toks stop rest :
  load_ast syntaxis2_json = Ret (g, d) -> iteration_order g order -> build_table fuel0 order g = Ret (tab, w0) ->
  suffix_tokens (Some (k, b)) ts -> map (fun t => (token_type t, text t)) toks = ts -> token_type stop = 1 ->
  exists c n, suffix_tree (Some (k, b)) [Rule (retype_rule hand_type c)] /\ forall fuel, n <= fuel ->
    entry (g_vocabulary g) tab (toks ++ stop :: rest) fuel EBNF_SUFFIX = if b then Ret (c, []) else Panic.
Proof.
  intros Hl Ho Ht Hr Hts Hstop. destruct (c53_setup _ _ _ _ _ _ Hl Ho Ht) as [-> ->].
  exact (entry_suffix _ _ _ stop shipped_P shipped_v shipped_tab shipped_no_stop shipped_unlisted Hstop k b toks ts rest Hr Hts).
Qed.

(** A block [b] in front of the end of the input. *)
Lemma c53_refuted : exists g d order tab toks stop, load_ast syntaxis2_json = Ret (g, d) /\ iteration_order g order /\
  build_table 1000 order g = Ret (tab, []) /\ alternatives_tokens [Sequence [Element (RuleRef (lit "b")) None]] (map (fun t => (token_type t, text t)) toks) /\
  token_type stop = 1 /\ exists n, forall fuel, n <= fuel -> entry (g_vocabulary g) tab (toks ++ [stop]) fuel BLOCK = Panic.
Proof.
  exists shipped, (rules_of shipped_tree), (elements (productions shipped)), shipped_table, [token_new V1_RULE_REF (lit "RULE_REF") (lit "b")], (token_new 1 (lit "_STOP") []).
  assert (iteration_order shipped (elements (productions shipped))) as Ho by (unfold iteration_order; reflexivity).
  assert (alternatives_tokens [Sequence [Element (RuleRef (lit "b")) None]] [(V1_RULE_REF, lit "b")]) as Ha.
  { apply alternatives_tokens_one, alternative_tokens_sequence, elements_tokens_one. apply (element_tokens_intro _ _ [(V1_RULE_REF, lit "b")] []); constructor. }
  split; [exact shipped_load|]. split; [exact Ho|]. split; [exact shipped_table_built|]. split; [exact Ha|]. split; [reflexivity|].
  exact (c53_block shipped _ _ 1000 shipped_table [] _ _ [token_new V1_RULE_REF (lit "RULE_REF") (lit "b")] (token_new 1 (lit "_STOP") []) [] shipped_load Ho shipped_table_built Ha eq_refl eq_refl).
Qed.
Lemma ex_rule_tokens : rule_tokens (ParserRule (lit "a") [Sequence [Element (RuleRef (lit "b")) (Some (Star, true))]; Epsilon])
  [(V1_RULE_REF, lit "a"); (V1_COLON, lit ":"); (V1_RULE_REF, lit "b"); (V1_STAR, lit "*"); (V1_QUESTION, lit "?"); (V1_OR, lit "|"); (V1_EPSILON, lit "epsilon"); (V1_SEMI, lit ";")].
Proof.
  apply (rule_tokens_parser _ _ _ [(V1_RULE_REF, lit "b"); (V1_STAR, lit "*"); (V1_QUESTION, lit "?"); (V1_OR, lit "|"); (V1_EPSILON, lit "epsilon")]).
  apply (alternatives_tokens_more _ [(V1_RULE_REF, lit "b"); (V1_STAR, lit "*"); (V1_QUESTION, lit "?")]); [|do 2 constructor].
  apply alternative_tokens_sequence, elements_tokens_one. apply (element_tokens_intro _ _ [(V1_RULE_REF, lit "b")]); constructor.
Qed.
