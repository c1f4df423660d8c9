(** MainCrash.v -- C87 for main with the committed grammar. *)
From Verif Require Export CrashProofs ShippedMain.

(** The left sides found to derive something, going through the productions once. *)
Definition grow (ps : list production) (s : list nat) : list nat :=
  fold_left (fun s p => if forallb (fun x => match x with NT b => bool_decide (b ∈ s) | T _ => true end) (right p) then left p :: s else s) ps s.
Lemma grow_derives P ps : (forall p, p ∈ ps -> p ∈ P) -> forall s, (forall b, b ∈ s -> exists w, derives P [NT b] (map T w)) ->
  forall b, b ∈ grow ps s -> exists w, derives P [NT b] (map T w).
Proof.
  induction ps as [|p ps IH]; intros HP s Hs b Hb; [by apply Hs|]. unfold grow in Hb. cbn [fold_left] in Hb. fold (grow ps) in Hb.
  revert b Hb. apply IH; [intros q Hq; by apply HP, elem_of_list_further|].
  destruct (forallb _ _) eqn:E; [|done]. intros b [->|Hb]%elem_of_cons; [|by apply Hs].
  assert (exists w, derives P (right p) (map T w)) as [w Hw].
  { apply (form_derivable (list_to_set s)).
    - intros b. rewrite elem_of_list_to_set. apply Hs.
    - intros b Hb. rewrite elem_of_list_to_set. rewrite forallb_forall in E. specialize (E (NT b) (proj1 (elem_of_list_In _ _) Hb)).
      by apply bool_decide_eq_true in E. }
  exists w. eapply derives_trans; [|exact Hw]. apply derives_prod, HP, elem_of_list_here.
Qed.
Lemma shipped_derivable b : b ∈ nonterminals (g_vocabulary shipped) -> exists w, derives (productions shipped) [NT b] (map T w).
Proof.
  intros Hb. assert (forallb (fun b => bool_decide (b ∈ grow (concat (replicate 8 shipped_productions)) [])) (elements (nonterminals (g_vocabulary shipped))) = true) as H
    by (vm_compute; reflexivity).
  rewrite forallb_forall in H. apply elem_of_elements, elem_of_list_In, H, bool_decide_eq_true in Hb. revert Hb. apply grow_derives.
  - intros p Hp. apply shipped_P. apply elem_of_list_In, in_concat in Hp as (l & Hl & Hp). apply elem_of_list_In, elem_of_replicate in Hl as [-> _]. by apply elem_of_list_In.
  - intros b'. by intros ?%elem_of_nil.
Qed.
Lemma shipped_start : 0 ∈ nonterminals (g_vocabulary shipped).
Proof. apply (bool_decide_unpack _). by vm_compute. Qed.

Lemma shipped_sentence order tt n1 : iteration_order shipped order -> build_table n1 order shipped = Ret (shipped_table, []) ->
  sentence (productions shipped) 0 tt <-> exists G, grammar_tokens G (map tt_of tt).
Proof.
  intros Ho Et. split.
  - intros Hs. destruct (c33_parse_start shipped order n1 shipped_table (g_vocabulary shipped) tt (token_new 1 [] []) [] Ho shipped_closed Et Hs eq_refl)
      as (p & cs & Hp & Hpl & Hpar & _).
    apply (parses_items _ _ shipped_P shipped_v), (step (g_vocabulary shipped) shipped_v p) in Hpar; [|by apply shipped_P].
    rewrite Hpl in Hpar. destruct Hpar as (G & rs & HG & _ & _). by exists G.
  - intros [G HG]. destruct (grammar_parses (productions shipped) (g_vocabulary shipped) shipped_P shipped_v G _ HG tt eq_refl) as (cs & Hcs & _).
    eapply (parses_derives _ (g_vocabulary shipped)). apply (parses_one _ _ shipped_P (Production 0 [NT 10])); [apply elem_of_list_here|exact Hcs].
Qed.
Lemma types_type (ts : list token) : types ts = map T (map token_type ts).
Proof. unfold types. by rewrite map_map. Qed.
Lemma T_prefix a : forall b (l : list item), map T a = map T b ++ l -> exists c, a = b ++ c.
Proof.
  intros b. revert a. induction b as [|x b IH]; intros a l E; [by exists a|]. destruct a as [|y a]; [done|]. cbn in E. injection E as -> E.
  destruct (IH _ _ E) as [c ->]. by exists c.
Qed.

Lemma begins_file order n1 l : iteration_order shipped order -> build_table n1 order shipped = Ret (shipped_table, []) ->
  begins_sentence (productions shipped) l <-> file_can_begin (map token_type l).
Proof.
  intros Ho Et. split.
  - intros (s & stop & more & Hs & Hst & E). apply (shipped_sentence order s n1 Ho Et) in Hs as [G HG]. rewrite !types_type in E. apply T_prefix in E as [c E].
    exists G, (map tt_of s), c. split; [done|]. rewrite <- E, map_app, map_map. cbn. by rewrite Hst.
  - intros (G & ts & more & HG & E). set (s := map (fun x => token_new (fst x) [] (snd x)) ts).
    assert (map tt_of s = ts) as Ets.
    { unfold s. rewrite map_map. rewrite <- (map_id ts) at 2. apply map_ext. by intros []. }
    exists s, (token_new 1 [] []), (map T more). split; [apply (shipped_sentence order s n1 Ho Et); exists G; by rewrite Ets|]. split; [done|].
    rewrite !types_type, <- map_app, <- E, map_app. f_equal. f_equal. rewrite <- Ets, map_map. done.
Qed.

Lemma c87_main nd g d order s c :
  digits_ok nd -> load_ast syntaxis2_json = Ret (g, d) -> iteration_order g order -> v1_lexer nd s = Ret c ->
  exists n out toks rest, (forall fuel, n <= fuel -> scan_all c 15 0 fuel lexer_init = Ret (toks, rest) /\
      main_log nd order fuel syntaxis2_json s = Ret ([], rest, out)) /\ snd out <> inr NoFuel /\
    (forall k, first_trouble out = Some k -> let input := map token_type toks in
       k <= length input /\ file_can_begin (take k input) /\ (k < length input -> ~ file_can_begin (take (S k) input))) /\
    (first_trouble out = None <-> exists G ts, grammar_tokens G ts /\ written ts s).
Proof.
  intros Hnd Hl Ho Hc. pose proof Hl as Hl'. apply shipped_load_inv in Hl as <-. destruct shipped_table_returns as [n1 Htab]. pose proof (Htab order n1 Ho ltac:(done)) as Et.
  assert (LexerCfg s (map (find_at0 nd) v1_res) v1_names = c) as Ec.
  { pose proof Hc as Hc'. rewrite v1_new in Hc'. by injection Hc'. }
  destruct (c07_terminates (LexerCfg s (map (find_at0 nd) v1_res) v1_names) 15 0 (length s + 2) (v1_ok nd s) ltac:(done) ltac:(done)) as [[toks rest] Hscan].
  rewrite Ec in Hscan.
  destruct (c87_terminates shipped order n1 shipped_table (g_vocabulary shipped) toks Ho shipped_closed Et) as (n2 & out & Hout & Hrun).
  assert (Hmain : forall fuel, n1 + n2 + (length s + 2) <= fuel -> scan_all c 15 0 fuel lexer_init = Ret (toks, rest) /\
      main_log nd order fuel syntaxis2_json s = Ret ([], rest, out)).
  { intros fuel Hf. split; [exact (scan_all_mono _ _ _ (length s + 2) fuel _ _ ltac:(lia) Hscan)|].
    unfold main_log. rewrite shipped_load. cbn [rbind]. rewrite (Htab order fuel Ho) by lia. cbn [rbind]. rewrite Hc. cbn [rbind].
    rewrite (scan_all_mono _ _ _ (length s + 2) fuel _ _ ltac:(lia) Hscan). cbn [rbind]. by rewrite Hrun by lia. }
  exists (n1 + n2 + (length s + 2)), out, toks, rest. split; [exact Hmain|]. split; [done|]. split.
  - intros k Hk input. rewrite <- (Hrun n2 (le_n _)) in Hk.
    destruct (c87_exact shipped order n1 shipped_table _ _ _ k Ho shipped_closed shipped_start shipped_derivable Et Hk) as (H1 & H2 & H3).
    unfold input. rewrite map_length, !firstn_map. split; [exact H1|]. split; [exact (proj1 (begins_file order n1 _ Ho Et) H2)|].
    intros Hlt Hb. exact (H3 Hlt (proj2 (begins_file order n1 _ Ho Et) Hb)).
  - assert (forall fuel, n1 + n2 + (length s + 2) <= fuel -> main_run nd order fuel syntaxis2_json s = let! (r, mm) := forget_log out in Ret (r, [], rest, mm)) as Hsame.
    { intros fuel Hf. unfold main_run. rewrite shipped_load. cbn [rbind]. rewrite (Htab order fuel Ho) by lia. cbn [rbind]. rewrite Hc. cbn [rbind].
      rewrite (scan_all_mono _ _ _ (length s + 2) fuel _ _ ltac:(lia) Hscan). cbn [rbind]. rewrite c87_same, Hrun by lia. done. }
    specialize (Hsame _ (le_n _)). split.
    + intros Hq. assert (exists r, out = ([], inl r)) as [r ->].
      { clear -Hq Hout. destruct out as [[|[k u] mm] [r|e]]; [by exists r|by destruct e|done..]. }
      cbn [forget_log rbind] in Hsame.
      destruct (c44_sound nd shipped d order _ s r [] rest Hnd Hl' Ho Hsame) as (_ & _ & G & ts & HG & Hw & _). eauto.
    + intros (G & ts & HG & Hw). destruct (c44_complete nd shipped d order G ts s Hnd Hl' Ho HG Hw) as (r & _ & n & Hn).
      specialize (Hn (n + (n1 + n2 + (length s + 2))) ltac:(lia)).
      unfold main_run in Hn. rewrite shipped_load in Hn. cbn [rbind] in Hn. rewrite (Htab order _ Ho) in Hn by lia. cbn [rbind] in Hn. rewrite Hc in Hn. cbn [rbind] in Hn.
      rewrite (scan_all_mono _ _ _ (length s + 2) (n + (n1 + n2 + (length s + 2))) _ _ ltac:(lia) Hscan) in Hn. cbn [rbind] in Hn. rewrite c87_same, Hrun in Hn by lia.
      clear -Hn. destruct out as [mm [r'|e]]; [|by destruct e]. cbn in Hn. by injection Hn as -> _ ->.
Qed.
