(** ProgramMain.v -- C88 for the grammar file of the repository. *)
From Verif Require Export ProgramProofs.

(** ** The labels of main's trees *)
Section labels.
  Context (P : str -> Prop) (Pinfix : forall a s b, P (a ++ s ++ b) -> P s).
  Context (v : vocabulary) (Hv : forall i n, get_nonterminal_name_by_id v i = Some n -> P n).
  Definition P_token (t : token) : Prop := P (token_name t) /\ P (text t).
  Lemma P_children n cs i :
    P n -> Forall (fun a => (forall t, t ∈ ast_leaves a -> P_token t) -> match a with Rule r => (forall s, label s r -> P s) | _ => True end) cs ->
    (forall t, t ∈ leaves cs -> P_token t) -> (forall s, label s (RuleCtx n cs i) -> P s).
  Proof using.
    intros Hn HF Ht. rewrite Forall_forall in HF.
    assert (forall t, Terminal t ∈ cs \/ Error t ∈ cs -> P_token t) as H1.
    { intros t [H|H]; apply Ht, elem_of_leaves; eexists; (split; [exact H|]); apply elem_of_list_here. }
    assert (forall c, Rule c ∈ cs -> forall s, label s c -> P s) as H2.
    { intros c H. apply (HF _ H). intros t Hc. apply Ht, elem_of_leaves. by exists (Rule c). }
    intros s Hs. inversion Hs as [|t ? ? ? Ht' E|t ? ? ? Ht' E|c ? ? ? Hc Hs']; subst; [done|by apply H1|by apply H1|by apply (H2 c)].
  Qed.
  Lemma P_named a : named_tree v a -> (forall t, t ∈ ast_leaves a -> P_token t) -> match a with Rule r => (forall s, label s r -> P s) | _ => True end.
  Proof using Hv.
    revert a. refine (ast_rect' _ (fun r => named_tree v (Rule r) -> (forall t, t ∈ rule_leaves r -> P_token t) -> (forall s, label s r -> P s)) _ _ _ _).
    - done.
    - done.
    - intros r H. exact H.
    - intros n cs i HF Hn Ht. inversion Hn as [|? ? ? Hname HN]; subst. apply P_children; [by eapply Hv| |exact Ht].
      rewrite Forall_forall in HF, HN |- *. intros a Ha. by apply HF, HN.
  Qed.
  Lemma P_root r : P (rule_name r) -> Forall (named_tree v) (children r) -> (forall t, t ∈ rule_leaves r -> P_token t) ->
    (forall s, label s r -> P s).
  Proof using Hv.
    destruct r as [n cs i]. cbn [rule_name children]. intros Hn HN Ht. apply P_children; [done| |exact Ht].
    rewrite Forall_forall in HN |- *. intros a Ha. by apply P_named, HN.
  Qed.
  Lemma P_scanned nd s ts st t : (forall nm, nm ∈ v1_names -> P nm) -> P s -> scanned (scan (LexerCfg s (map (find_at0 nd) v1_res) v1_names)) lexer_init ts st -> t ∈ ts ->
    P_token t.
  Proof using Pinfix.
    intros Hnames Hs Hsc Ht.
    destruct (scanned_spec _ _ _ _ _ _ _ (v1_ok nd s) (lex_inv_init _) Hsc) as (ts0 & rest & E & _ & Hm & _ & Hcase). cbn [input] in E.
    assert (t ∈ ts0 -> P_token t) as K.
    { intros Hin. apply elem_of_list_split in Hin as (a & b & Hab). destruct (munched_split _ _ _ _ _ _ Hm Hab) as (i & _ & Hnm & _). split.
      - apply Hnames. by apply elem_of_list_lookup_2 in Hnm.
      - rewrite E, Hab, texts_app, texts_cons, <- !app_assoc in Hs. by apply Pinfix in Hs. }
    destruct Hcase as [[-> _]|(_ & _ & st1 & _ & ->)]; [by apply K|]. apply elem_of_app in Ht as [Ht|Ht]; [by apply K|].
    apply elem_of_list_singleton in Ht as ->. split; cbn; apply Hnames; apply elem_of_list_further, elem_of_list_here.
  Qed.
End labels.
Lemma scalar_infix (a s b : str) : Forall scalar (a ++ s ++ b) -> Forall scalar s.
Proof. rewrite !Forall_app. tauto. Qed.
Lemma shipped_names_scalar i n : get_nonterminal_name_by_id (g_vocabulary shipped) i = Some n -> Forall scalar n.
Proof.
  rewrite shipped_v. intros H. apply elem_of_list_lookup_2, elem_of_list_In in H.
  assert (forallb (forallb scalarb) shipped_names = true) as K by (vm_compute; reflexivity). rewrite forallb_forall in K. by apply scalarb_all, K.
Qed.
Lemma main_scalar nd order fuel s r w rest mm : Forall scalar s -> main_run nd order fuel syntaxis2_json s = Ret (r, w, rest, mm) -> forall s, label s r -> Forall scalar s.
Proof.
  intros Hs H. unfold main_run in H. rewrite shipped_load in H. cbn [rbind] in H.
  destruct (build_table fuel order shipped) as [[tab w']| |]; cbn [rbind] in H; [|discriminate H..].
  rewrite v1_new in H. cbn [rbind] in H.
  destruct (scan_all _ 15 0 fuel lexer_init) as [[toks rest']| |] eqn:Es; cbn [rbind] in H; [|discriminate H..].
  unfold parse in H. destruct (parse_ast (g_vocabulary shipped) tab toks fuel 0 0) as [[[r' j] mm']| |] eqn:Ep; cbn [rbind] in H; [|discriminate H..].
  injection H as -> _ _ _. destruct (c37_leaves _ _ _ _ _ _ _ _ _ Ep) as (_ & Hl & _ & Hname & HN).
  apply (scan_all_mono _ _ _ fuel (fuel + (length s + 2)) _ _ ltac:(lia)) in Es.
  destruct (c10_scan_all (LexerCfg s (map (find_at0 nd) v1_res) v1_names) 15 0 (fuel + (length s + 2)) (v1_ok nd s) ltac:(done) ltac:(cbn [input]; lia))
    as (ts & st & toks' & printed & Hsc & _ & Es' & Htoks & _).
  rewrite Es in Es'. injection Es' as <- _. cbn [Nat.eqb] in Htoks.
  apply (P_root (Forall scalar) (g_vocabulary shipped) shipped_names_scalar); [|exact HN|].
  - rewrite Hname. apply scalarb_all. unfold get_nonterminal_name_with_default.
    pose proof (shipped_v 0) as H0. unfold get_nonterminal_name_by_id in H0. rewrite H0. reflexivity.
  - intros t Ht. rewrite Hl in Ht. unfold segment in Ht. apply elem_of_take in Ht as (k & Hk & _).
    rewrite lookup_drop in Hk. apply elem_of_list_lookup_2 in Hk. rewrite Htoks in Hk.
    apply elem_of_list_filter in Hk as [_ Hk]. refine (P_scanned (Forall scalar) scalar_infix nd s ts st t _ Hs Hsc Hk).
    assert (forallb (forallb scalarb) v1_names = true) as K by (vm_compute; reflexivity). rewrite forallb_forall in K.
    intros nm Hnm. by apply scalarb_all, K, elem_of_list_In.
Qed.

(** ** The whole program *)
Lemma shipped_print : print_load_tree shipped_tree = ([], Ret (shipped, rules_of shipped_tree)).
Proof.
  pose proof (load_same shipped_tree) as H. rewrite shipped_tree_load in H.
  assert (match out_load_tree shipped_tree with Ret (_, _, []) => true | _ => false end = true) as K by (by vm_compute).
  rewrite load_joined in K. destruct (print_load_tree shipped_tree) as [l x]. cbn [snd] in H. subst x. by destruct l.
Qed.
Lemma printed_mismatches {A} (mm : list A) : map (fun _ => line_mismatch) mm = replicate (length mm) says_mismatch.
Proof. induction mm as [|a mm IH]; [done|]. cbn [map length replicate]. by rewrite IH. Qed.
Lemma c88_main nd huge g x o d bs s c :
  digits_ok nd -> load_ast syntaxis2_json = Ret (g, x) -> healthy o -> text_bytes syntaxis2_text bs -> d !! lit "src/tool/syntaxis/syntaxis2.json" = Some bs ->
  Forall scalar s -> v1_lexer nd s = Ret c ->
  exists n toks rest k e d', let out := unlines (option_list rest ++ replicate k says_mismatch) in
    (forall order fuel, iteration_order g order -> n <= fuel ->
       scan_all c 15 0 fuel lexer_init = Ret (toks, rest) /\ main_effect nd huge order fuel o d s = (out, e, d')) /\
    (e = Panic /\ d' = d \/ e = Ret () /\ exists r b, text_bytes (page (lit "parser") r) b /\ d' = <[lit "parser2.html" := b]> d) /\
    (forall G ts, grammar_tokens G ts -> written ts s ->
       rest = None /\ k = 0 /\ e = Ret () /\ exists r b, grammar_tree G (retype_rule hand_type r) /\ text_bytes (page (lit "parser") r) b /\ d' = <[lit "parser2.html" := b]> d) /\
    (e = Ret () -> k = 0 -> exists G ts, grammar_tokens G ts /\ written ts s).
Proof.
  intros Hnd Hl Ho Hb Hd Hs Hc. pose proof Hl as Hl'. apply shipped_load_inv in Hl as <-. destruct shipped_table_returns as [n1 Htab].
  set (order0 := elements (productions shipped)). assert (iteration_order shipped order0) as Ho0 by (unfold iteration_order; reflexivity).
  pose proof (Htab order0 n1 Ho0 ltac:(done)) as Et.
  assert (LexerCfg s (map (find_at0 nd) v1_res) v1_names = c) as Ec.
  { pose proof Hc as Hc'. rewrite v1_new in Hc'. by injection Hc'. }
  destruct (c07_terminates (LexerCfg s (map (find_at0 nd) v1_res) v1_names) 15 0 (length s + 2) (v1_ok nd s) ltac:(done) ltac:(done)) as [[toks rest] Hscan].
  rewrite Ec in Hscan.
  destruct (c87_terminates shipped order0 n1 shipped_table (g_vocabulary shipped) toks Ho0 shipped_closed Et) as (n2 & [mm res] & Hout & Hrun). cbn [snd] in Hout.
  assert (Hscan' : forall fuel, n1 + n2 + (length s + 2) <= fuel -> scan_all c 15 0 fuel lexer_init = Ret (toks, rest)).
  { intros fuel Hf. exact (scan_all_mono _ _ _ (length s + 2) fuel _ _ ltac:(lia) Hscan). }
  assert (Hmain : forall order fuel, iteration_order shipped order -> n1 + n2 + (length s + 2) <= fuel ->
    main_run nd order fuel syntaxis2_json s = let! (r, mm) := forget_log (mm, res) in Ret (r, [], rest, mm)).
  { intros order fuel Hord Hf. unfold main_run. rewrite shipped_load. cbn [rbind]. rewrite (Htab order fuel Hord) by lia. cbn [rbind]. rewrite Hc. cbn [rbind].
    rewrite (Hscan' fuel Hf). cbn [rbind]. rewrite c87_same, Hrun by lia. done. }
  assert (Heff : forall order fuel, iteration_order shipped order -> n1 + n2 + (length s + 2) <= fuel ->
    print_main nd huge order fuel o d s = (option_list rest ++ replicate (length mm) says_mismatch, match res with inl a => Ret a | inr NoFuel => OutOfFuel | inr _ => Panic end)).
  { intros order fuel Hord Hf. unfold print_main. rewrite (read_shipped huge o d bs (proj1 (proj2 Ho)) Hb Hd). cbn [pbind pres].
    rewrite shipped_print. cbn [pbind pres]. rewrite (Htab order fuel Hord) by lia. cbn [pbind pres map]. rewrite Hc. cbn [pbind pres].
    rewrite (Hscan' fuel Hf). cbn [pbind pres]. rewrite Hrun by lia. unfold print_parse. cbn [fst snd]. rewrite printed_mismatches. cbn [app]. by destruct rest. }
  set (n := n1 + n2 + (length s + 2)) in *. clearbody n.
  destruct res as [r|h].
  - assert (exists b, text_bytes (page (lit "parser") r) b) as [b Hpage].
    { apply c79_text. split; [apply scalarb_all; by vm_compute|]. exact (main_scalar nd order0 n s r [] rest mm Hs (Hmain order0 n Ho0 (le_n _))). }
    exists n, toks, rest, (length mm), (Ret ()), (<[lit "parser2.html" := b]> d). split; [|split; [|split]].
    + intros order fuel Hord Hf. split; [exact (Hscan' fuel Hf)|]. unfold main_effect. rewrite (Heff order fuel Hord Hf).
      rewrite (healthy_draw o d r _ _ b Ho Hpage). reflexivity.
    + right. exact (conj eq_refl (ex_intro _ r (ex_intro _ b (conj Hpage eq_refl)))).
    + intros G ts HG Hw. destruct (c44_complete nd shipped x order0 G ts s Hnd Hl' Ho0 HG Hw) as (r' & Hr' & n' & Hn').
      pose proof (Hn' (n + n') ltac:(lia)) as H1. rewrite (Hmain order0 (n + n') Ho0 ltac:(lia)) in H1. cbn in H1.
      injection H1 as Er Em Erest. subst r mm rest. exact (conj eq_refl (conj eq_refl (conj eq_refl (ex_intro _ r' (ex_intro _ b (conj Hr' (conj Hpage eq_refl))))))).
    + intros _ Hk. destruct mm; [|discriminate Hk]. destruct (c44_sound nd shipped x order0 n s r [] rest Hnd Hl' Ho0 (Hmain order0 n Ho0 (le_n _))) as (_ & _ & G & ts & HG & Hw & _).
      exact (ex_intro _ G (ex_intro _ ts (conj HG Hw))).
  - exists n, toks, rest, (length mm), Panic, d. split; [|split; [|split]].
    + intros order fuel Hord Hf. split; [exact (Hscan' fuel Hf)|]. unfold main_effect. rewrite (Heff order fuel Hord Hf). destruct h; [reflexivity|reflexivity|]. contradiction (Hout eq_refl).
    + left. exact (conj eq_refl eq_refl).
    + intros G ts HG Hw. destruct (c44_complete nd shipped x order0 G ts s Hnd Hl' Ho0 HG Hw) as (r' & Hr' & n' & Hn').
      pose proof (Hn' (n + n') ltac:(lia)) as H1. rewrite (Hmain order0 (n + n') Ho0 ltac:(lia)) in H1. destruct h; discriminate H1.
    + intros H; discriminate H.
Qed.

(** ** Examples *)
(** a : A | A | b ;  A : /x/ ;  A : /y/ ;  where b is not defined: two lines, then the panic. *)
Definition ex_broken : list rule :=
  [ParserRule (lit "aa") [Sequence [Element (TokenRef (lit "A")) None]; Sequence [Element (TokenRef (lit "A")) None]; Sequence [Element (RuleRef (lit "bb")) None]];
   LexerRule (lit "A") (lit "/x/"); LexerRule (lit "A") (lit "/y/")].
Lemma ex_broken_meets : grammar_tree ex_broken (build_grammar ex_broken) /\ proper ex_broken /\ ~ plain_literal ex_broken /\
  print_load_tree (build_grammar ex_broken) = ([says_token (lit "A"); says_alternative], Panic).
Proof.
  split; [by apply build_grammar_tree|]. split; [apply proper_computed; by vm_compute|]. split; [|by vm_compute].
  intros (nm & alts & es & l & s & H1 & H2 & H3). unfold ex_broken in H1. repeat (apply elem_of_cons in H1 as [H1|H1]; [try discriminate H1|]); [|by apply elem_of_nil in H1].
  injection H1 as -> ->. repeat (apply elem_of_cons in H2 as [H2|H2]; [injection H2 as ->; apply elem_of_list_singleton in H3; discriminate H3|]). by apply elem_of_nil in H2.
Qed.
Lemma shipped_effect_panic nd huge order fuel o d bs s w rest mm h : os_read o = true -> text_bytes syntaxis2_text bs ->
  d !! lit "src/tool/syntaxis/syntaxis2.json" = Some bs -> main_log nd order fuel syntaxis2_json s = Ret (w, rest, (mm, inr h)) -> h <> NoFuel ->
  main_effect nd huge order fuel o d s = (unlines (map line_conflict w ++ option_list rest ++ replicate (length mm) says_mismatch), Panic, d).
Proof.
  intros Ho Hb Hd H Hh. unfold main_log in H. rewrite shipped_load in H. cbn [rbind] in H. unfold main_effect, print_main.
  rewrite (read_shipped huge o d bs Ho Hb Hd). cbn [pbind pres]. rewrite shipped_print. cbn [pbind pres].
  clear Ho Hb Hd. revert H. generalize shipped. intros g H.
  destruct (build_table fuel order g) as [[tab w']| |]; cbn [rbind pbind pres] in H |- *; [|discriminate H..].
  destruct (v1_lexer nd s) as [c| |]; cbn [rbind pbind pres] in H |- *; [|discriminate H..].
  destruct (scan_all c 15 0 fuel lexer_init) as [[toks rest']| |]; cbn [rbind pbind pres] in H |- *; [|discriminate H..].
  injection H as -> -> E. rewrite E. unfold print_parse. cbn [fst snd]. rewrite printed_mismatches. cbn [app].
  destruct h; [| |contradiction (Hh eq_refl)]; destruct rest; cbn [option_list app]; reflexivity.
Qed.
Lemma ex_log : main_log ascii_digit shipped_order 3000 syntaxis2_json (lit "ab cd ; AB : /x/ ;") = Ret ([], None, ([(1, 4)], inr (NoEntry 2 2))).
Proof. vm_compute. reflexivity. Qed.
(** ab cd ; AB : /x/ ;  prints one line and then panics; parser2.html is left alone. *)
Lemma ex_effect bs d : text_bytes syntaxis2_text bs -> d !! lit "src/tool/syntaxis/syntaxis2.json" = Some bs ->
  main_effect ascii_digit (fun _ => false) shipped_order 3000 (Os true true true Some) d (lit "ab cd ; AB : /x/ ;") = (unlines [says_mismatch], Panic, d).
Proof.
  intros Hb Hd. refine (shipped_effect_panic ascii_digit (fun _ => false) shipped_order 3000 (Os true true true Some) d bs _ [] None [(1, 4)] (NoEntry 2 2) eq_refl Hb Hd ex_log _).
  discriminate.
Qed.
