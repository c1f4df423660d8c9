(** ShippedMain.v -- main on syntaxis2.json: which texts it parses, and what the visitors do with the trees. *)
From Verif Require Export ShippedProofs.

Lemma shipped_from_value : from_value syntaxis2_json = Ret (Some shipped_tree).
Proof.
  unfold shipped_tree. assert (match from_value syntaxis2_json with Ret (Some _) => true | _ => false end = true) as H by (vm_compute; reflexivity).
  destruct (from_value syntaxis2_json) as [[r|]| |]; try discriminate H. reflexivity.
Qed.
Lemma shipped_loaded : loaded shipped_tree = true.
Proof. vm_compute. reflexivity. Qed.
Lemma shipped_load : load_ast syntaxis2_json = Ret (shipped, rules_of shipped_tree).
Proof. unfold load_ast. rewrite shipped_from_value. cbn [rbind unwrap]. apply loaded_ret, shipped_loaded. Qed.
Lemma shipped_closed : closed (nonterminals (g_vocabulary shipped)) (productions shipped).
Proof. exact (proj1 (c43_closed _ _ _ (loaded_ret _ shipped_loaded))). Qed.
Lemma shipped_P p : p ∈ productions shipped <-> p ∈ shipped_productions.
Proof.
  assert (forallb (fun p => bool_decide (p ∈ shipped_productions)) (elements (productions shipped)) &&
    forallb (fun p => bool_decide (p ∈ elements (productions shipped))) shipped_productions = true) as H by (vm_compute; reflexivity).
  apply andb_prop in H as [H1 H2]. rewrite forallb_forall in H1, H2. rewrite <- elem_of_elements. split; intros Hp.
  - apply elem_of_list_In, H1 in Hp. by apply bool_decide_eq_true in Hp.
  - apply elem_of_list_In, H2 in Hp. by apply bool_decide_eq_true in Hp.
Qed.
Lemma shipped_v i : get_nonterminal_name_by_id (g_vocabulary shipped) i = shipped_names !! i.
Proof.
  unfold get_nonterminal_name_by_id.
  assert (forallb (fun kv => bool_decide (shipped_names !! fst kv = Some (snd kv))) (map_to_list (nt_id_to_name (g_vocabulary shipped))) &&
    forallb (fun i => bool_decide (is_Some (nt_id_to_name (g_vocabulary shipped) !! i))) (seq 0 9) = true) as H by (vm_compute; reflexivity).
  apply andb_prop in H as [H1 H2]. rewrite forallb_forall in H1, H2. generalize dependent (nt_id_to_name (g_vocabulary shipped)). intros m H1 H2.
  assert (forall n, m !! i = Some n -> shipped_names !! i = Some n) as K.
  { intros n Hn. apply elem_of_map_to_list, elem_of_list_In, H1 in Hn. by apply bool_decide_eq_true in Hn. }
  destruct (m !! i) as [n|] eqn:E; [by rewrite (K n)|]. destruct (decide (i < 9)) as [Hi|Hi].
  - exfalso. specialize (H2 i). rewrite in_seq in H2. specialize (H2 ltac:(lia)). apply bool_decide_eq_true in H2 as [? H2]. by rewrite E in H2.
  - symmetry. apply lookup_ge_None_2. cbn. lia.
Qed.

Definition shipped_table : table :=
  match build_table 1000 (elements (productions shipped)) shipped with Ret (tab, _) => tab | _ => ∅ end.
Lemma shipped_table_built : build_table 1000 (elements (productions shipped)) shipped = Ret (shipped_table, []).
Proof.
  assert (match build_table 1000 (elements (productions shipped)) shipped with Ret (_, []) => true | _ => false end = true) as H by (vm_compute; reflexivity).
  unfold shipped_table. destruct (build_table _ _ _) as [[tab [|]]| |]; try discriminate H. reflexivity.
Qed.
Lemma shipped_0 : 0 ∈ nonterminals (g_vocabulary shipped).
Proof. apply (bool_decide_unpack _). vm_compute. exact I. Qed.
Lemma shipped_table_10 : forallb (fun kv => negb (fst (fst kv) =? 10) || (bool_decide (right (snd kv) = [NT 9; NT 10]) || (bool_decide (right (snd kv) = []) && (snd (fst kv) =? 1))))
    (map_to_list shipped_table) = true.
Proof. vm_compute. reflexivity. Qed.
Lemma shipped_table_0 : forallb (fun kv => negb (fst (fst kv) =? 0) || bool_decide (right (snd kv) = [NT 10])) (map_to_list shipped_table) = true.
Proof. vm_compute. reflexivity. Qed.
Global Opaque shipped_tree shipped shipped_table syntaxis2_json.
Lemma shipped_load_inv g d : load_ast syntaxis2_json = Ret (g, d) -> shipped = g.
Proof. rewrite shipped_load. intros H. exact (f_equal (fun x : res (grammar * list lexer_rule_data) => match x with Ret (g, _) => g | _ => shipped end) H). Qed.
Lemma shipped_table_any order fuel tab w :
  iteration_order shipped order -> build_table fuel order shipped = Ret (tab, w) -> tab = shipped_table /\ w = [].
Proof.
  intros Ho H. destruct (c30_order_indep shipped (elements (productions shipped)) order 1000 fuel shipped_table tab w) as [-> ->].
  - unfold iteration_order. reflexivity.
  - exact Ho.
  - exact shipped_closed.
  - exact shipped_table_built.
  - exact H.
  - split; reflexivity.
Qed.
Lemma shipped_table_returns : exists n, forall order fuel, iteration_order shipped order -> n <= fuel ->
  build_table fuel order shipped = Ret (shipped_table, []).
Proof.
  destruct (c28_table_returns shipped shipped_closed shipped_0) as [n Hn]. exists n. intros order fuel Ho Hf.
  destruct (Hn order fuel Ho Hf) as (tab & w & E). destruct (shipped_table_any _ _ _ _ Ho E) as [-> ->]. exact E.
Qed.
Lemma shipped_ll1 : ll1 (productions shipped).
Proof.
  refine (proj1 (proj1 (c29_warnings shipped (elements (productions shipped)) _ _ _ _ shipped_closed shipped_table_built)) eq_refl).
  unfold iteration_order. reflexivity.
Qed.

(** The parser only ends a rule list in front of _STOP. *)
Lemma shipped_rule_list_end toks fuel i r j mm :
  parse_ast (g_vocabulary shipped) shipped_table toks fuel i 10 = Ret (r, j, mm) -> exists t, toks !! j = Some t /\ token_type t = 1.
Proof.
  pose proof shipped_table_10 as H.
  rewrite forallb_forall in H. generalize dependent shipped_table. intros tab H. generalize (g_vocabulary shipped). intros v.
  revert i r j mm. induction fuel as [|fuel IH]; intros i r j mm; [done|]. cbn [parse_ast].
  destruct (toks !! i) as [t|] eqn:Et; [|done]. cbn [unwrap rbind]. destruct (tab !! (10, token_type t)) as [p|] eqn:Ep; [|done]. cbn [unwrap rbind].
  apply elem_of_map_to_list, elem_of_list_In, H in Ep. cbn [fst snd] in Ep. cbn [negb Nat.eqb orb] in Ep. apply orb_prop in Ep as [Ep|Ep].
  - apply bool_decide_eq_true in Ep as ->. cbn [parse_items].
    destruct (parse_ast v tab toks fuel i 9) as [[[r1 i1] m1]| |]; cbn [rbind]; [|done..].
    destruct (parse_ast v tab toks fuel i1 10) as [[[r2 i2] m2]| |] eqn:E2; cbn [rbind]; [|done..].
    intros [= _ <- _]. by eapply IH.
  - apply andb_prop in Ep as [Ep Et1]. apply bool_decide_eq_true in Ep as ->. apply Nat.eqb_eq in Et1. cbn [parse_items rbind].
    intros [= _ <- _]. by exists t.
Qed.
Lemma shipped_end toks fuel i r j mm :
  parse_ast (g_vocabulary shipped) shipped_table toks fuel i 0 = Ret (r, j, mm) -> exists t, toks !! j = Some t /\ token_type t = 1.
Proof.
  destruct fuel as [|fuel]; [done|]. cbn [parse_ast].
  pose proof shipped_table_0 as H.
  rewrite forallb_forall in H. destruct (toks !! i) as [t|] eqn:Et; [|done]. cbn [unwrap rbind].
  destruct (shipped_table !! (0, token_type t)) as [p|] eqn:Ep; [|done]. cbn [unwrap rbind].
  apply elem_of_map_to_list, elem_of_list_In, H in Ep. cbn [fst snd negb Nat.eqb orb] in Ep. apply bool_decide_eq_true in Ep as ->. cbn [parse_items].
  destruct (parse_ast _ shipped_table toks fuel i 10) as [[[r2 i2] m2]| |] eqn:E2; cbn [rbind]; [|done..].
  intros [= _ <- _]. by eapply shipped_rule_list_end.
Qed.

Lemma scan_loop_mono sc skip chan fuel fuel' st acc out : fuel <= fuel' ->
  scan_loop sc skip chan fuel st acc = Ret out -> scan_loop sc skip chan fuel' st acc = Ret out.
Proof.
  revert fuel' st acc. induction fuel as [|fuel IH]; intros fuel' st acc Hf; [done|]. destruct fuel' as [|fuel']; [lia|].
  cbn [scan_loop]. destruct (sc st) as [[[t|] st']| |]; cbn [rbind]; [|done..].
  destruct (skip _); [apply IH; lia|]. destruct (_ =? _); apply IH; lia.
Qed.
Lemma scan_all_mono c ws chan fuel fuel' st out : fuel <= fuel' ->
  scan_all c ws chan fuel st = Ret out -> scan_all c ws chan fuel' st = Ret out.
Proof.
  intros Hf. unfold scan_all. destruct (scan_loop _ _ _ fuel _ _) as [x| |] eqn:E; cbn [rbind]; [|done..].
  by rewrite (scan_loop_mono _ _ _ _ _ _ _ _ Hf E).
Qed.

(** The tokens of any scan: complete (then ended by _STOP and written), or stuck and without _STOP. *)
Lemma v1_scan_cases nd s c fuel toks printed : digits_ok nd -> v1_lexer nd s = Ret c ->
  scan_all c 15 0 fuel lexer_init = Ret (toks, printed) ->
  (printed = None /\ exists toks' stop, toks = toks' ++ [stop] /\ is_stop stop /\ Forall (fun t => token_type t <> 1) toks' /\
     written (map tt_of toks') s) \/
  (is_Some printed /\ Forall (fun t => token_type t <> 1) toks).
Proof.
  intros Hnd Hc Hs. rewrite v1_new in Hc. injection Hc as <-.
  assert (scan_all (LexerCfg s (map (find_at0 nd) v1_res) v1_names) 15 0 (fuel + (length s + 2)) lexer_init = Ret (toks, printed)) as Hs' by (eapply scan_all_mono, Hs; lia).
  clear Hs. destruct (c08_stop (LexerCfg s (map (find_at0 nd) v1_res) v1_names) 15 (fuel + (length s + 2)) toks printed) as (ts & rest & st & Hsc & Hin & Hall & Hcase); [apply v1_ok|done|cbn [input]; lia|done|].
  assert (forall ts : list token, Forall (fun t => token_type t <> 1) ts -> Forall (fun t => token_type t <> 1) (filter (fun t => token_type t <> 15) ts)) as K.
  { intros l Hl. apply Forall_forall. intros t [_ Ht]%elem_of_list_filter. by eapply Forall_forall in Hl. }
  destruct Hcase as [(-> & -> & stp & Hstp & ->)|(_ & _ & -> & ->)].
  - left. split; [done|]. exists (filter (fun t => token_type t <> 15) ts), stp. split_and!; [done|apply Hstp..|by apply K|].
    destruct (c13_all nd s (fuel + (length s + 2)) Hnd ltac:(lia)) as (c & Hc & Hiff & _). rewrite v1_new in Hc. injection Hc as <-.
    apply Hiff. eexists _, stp. split; [exact Hs'|]. split; [exact Hstp|reflexivity].
  - right. split; [by eexists|]. by apply K.
Qed.

Lemma no_stop_app (toks w rest : list token) stop t : toks ++ [stop] = w ++ t :: rest ->
  Forall (fun t => token_type t <> 1) toks -> token_type t = 1 -> toks = w.
Proof.
  intros E Hall Ht. destruct rest as [|u rest _] using rev_ind; [by apply app_inj_tail in E as [-> _]|].
  change (w ++ t :: rest ++ [u]) with (w ++ (t :: rest) ++ [u]) in E. rewrite (assoc_L (++)) in E. apply app_inj_tail in E as [-> _].
  apply Forall_app in Hall as [_ Hall]. by apply Forall_cons in Hall as [? _].
Qed.

Lemma c44_complete nd g d order G ts s :
  digits_ok nd -> load_ast syntaxis2_json = Ret (g, d) -> iteration_order g order ->
  grammar_tokens G ts -> written ts s ->
  exists r, grammar_tree G (retype_rule hand_type r) /\
    exists n, forall fuel, n <= fuel -> main_run nd order fuel syntaxis2_json s = Ret (r, [], None, []).
Proof.
  intros Hnd Hl Ho HG Hw. apply shipped_load_inv in Hl as <-.
  destruct shipped_table_returns as [n1 Htab].
  destruct (c13_all nd s (length s + 2) Hnd ltac:(lia)) as (c & Hc & Hiff & _).
  apply Hiff in Hw as (toks & stop & Hscan & Hstop & Hts). clear Hiff.
  destruct (grammar_parses (productions shipped) (g_vocabulary shipped) shipped_P shipped_v G ts HG toks Hts) as (cs & Hcs & rs & Hrs & HT).
  assert (Production 0 [NT 10] ∈ productions shipped) as Hp0 by (apply shipped_P, elem_of_list_here).
  assert (sentence (productions shipped) 0 toks) as Hsent.
  { eapply (parses_derives _ (g_vocabulary shipped)). apply (parses_one _ _ shipped_P (Production 0 [NT 10])); [apply elem_of_list_here|exact Hcs]. }
  destruct (c33_parse_start shipped order n1 shipped_table (g_vocabulary shipped) toks stop [] Ho shipped_closed (Htab order n1 Ho ltac:(done)) Hsent (proj1 Hstop))
    as (p & cs' & Hp & Hpl & Hpar & n2 & Hn2).
  assert (cs' = cs) as -> by exact (c38_unambiguous_start shipped order n1 shipped_table (g_vocabulary shipped) toks p cs' (Production 0 [NT 10]) cs Ho
    shipped_closed (Htab order n1 Ho ltac:(done)) Hp Hpl Hpar Hp0 eq_refl Hcs).
  eexists. split; [|exists (n1 + n2 + (length s + 2)); intros fuel Hf; unfold main_run; rewrite shipped_load; cbn [rbind];
    rewrite (Htab order fuel Ho) by lia; cbn [rbind]; rewrite Hc; cbn [rbind];
    rewrite (scan_all_mono _ _ _ (length s + 2) fuel _ _ ltac:(lia) Hscan); cbn [rbind]; rewrite Hn2 by lia; reflexivity].
  eexists _, rs. split; [|exact HT]. cbn [retype_rule]. unfold R in Hrs. rewrite Hrs. reflexivity.
Qed.

Lemma c44_sound nd g d order fuel s r w rest :
  digits_ok nd -> load_ast syntaxis2_json = Ret (g, d) -> iteration_order g order ->
  main_run nd order fuel syntaxis2_json s = Ret (r, w, rest, []) ->
  w = [] /\ rest = None /\
  exists G ts, grammar_tokens G ts /\ written ts s /\ grammar_tree G (retype_rule hand_type r).
Proof.
  intros Hnd Hl Ho H. apply shipped_load_inv in Hl as <-.
  unfold main_run in H. rewrite shipped_load in H. cbn [rbind] in H.
  destruct (build_table fuel order shipped) as [[tab w']| |] eqn:Et; cbn [rbind] in H; [|done..].
  destruct (shipped_table_any _ _ _ _ Ho Et) as [-> ->].
  destruct (v1_lexer nd s) as [c| |] eqn:Ec; cbn [rbind] in H; [|done..].
  destruct (scan_all c 15 0 fuel lexer_init) as [[toks rest']| |] eqn:Es; cbn [rbind] in H; [|done..].
  destruct (parse (g_vocabulary shipped) shipped_table toks fuel) as [[r' mm]| |] eqn:Ep; cbn [rbind] in H; [|done..].
  injection H as -> <- -> ->. split; [done|].
  unfold parse in Ep. destruct (parse_ast _ _ _ _ _ _) as [[[r' j] mm]| |] eqn:Ep'; cbn [rbind] in Ep; [|done..]. injection Ep as -> ->.
  destruct (c32_parse_sound shipped order fuel shipped_table [] (g_vocabulary shipped) toks fuel 0 0 r j [] Ho shipped_closed Et Ep' eq_refl)
    as (Hj & _ & p & Hp & Hpl & Hpar & Hr).
  destruct (shipped_end _ _ _ _ _ _ Ep') as (t & Hjt & Htt).
  assert (toks = take j toks ++ t :: drop (S j) toks) as Esplit by (symmetry; by apply take_drop_middle).
  destruct (v1_scan_cases nd s c fuel toks rest Hnd Ec Es) as [(-> & toks' & stop & -> & Hstop & Hall & Hw)|(_ & Hall)].
  - split; [done|]. pose proof (no_stop_app _ _ _ _ _ Esplit Hall Htt) as Et'.
    unfold segment in Hpar. rewrite Nat.sub_0_r, drop_0, <- Et' in Hpar.
    apply (parses_items _ _ shipped_P shipped_v), (step (g_vocabulary shipped) shipped_v p) in Hpar; [|by apply shipped_P].
    rewrite Hpl in Hpar. destruct Hpar as (G & rs & HG & Hrs & HT). exists G, (map tt_of toks'). split; [done|]. split; [done|].
    rewrite Hr. eexists _, rs. cbn [retype_rule]. unfold R in Hrs. rewrite Hrs. split; [reflexivity|done].
  - exfalso. rewrite Forall_forall in Hall. apply (Hall t); [|done]. by eapply elem_of_list_lookup_2.
Qed.

Lemma c44_total nd g d order s :
  load_ast syntaxis2_json = Ret (g, d) -> iteration_order g order ->
  exists n, forall fuel, n <= fuel -> main_run nd order fuel syntaxis2_json s <> OutOfFuel /\
    main_run nd order fuel syntaxis2_json s = main_run nd order n syntaxis2_json s.
Proof.
  intros Hl Ho. apply shipped_load_inv in Hl as <-. destruct shipped_table_returns as [n1 Htab].
  destruct (c07_terminates (LexerCfg s (map (find_at0 nd) v1_res) v1_names) 15 0 (length s + 2) (v1_ok nd s) ltac:(done) ltac:(done)) as [[toks rest] Hscan].
  destruct (c34_parse_terminates shipped order n1 shipped_table (g_vocabulary shipped) toks 0 0 Ho shipped_closed (Htab order n1 Ho ltac:(done))) as [n2 Hn2].
  assert (forall fuel, n1 + n2 + (length s + 2) <= fuel -> main_run nd order fuel syntaxis2_json s =
    let! (r, mm) := parse (g_vocabulary shipped) shipped_table toks n2 in Ret (r, [], rest, mm)) as K.
  { intros fuel Hf. unfold main_run. rewrite shipped_load. cbn [rbind]. rewrite (Htab order fuel Ho) by lia. cbn [rbind]. rewrite v1_new. cbn [rbind].
    rewrite (scan_all_mono _ _ _ (length s + 2) fuel _ _ ltac:(lia) Hscan). cbn [rbind]. unfold parse. by rewrite (proj2 (Hn2 fuel ltac:(lia))). }
  exists (n1 + n2 + (length s + 2)). intros fuel Hf. rewrite (K fuel Hf), (K _ (le_n _)). split; [|done].
  unfold parse. destruct (parse_ast _ _ _ n2 0 0) as [[[r j] mm]| |] eqn:E; cbn [rbind]; [done|done|]. by destruct (proj1 (Hn2 n2 ltac:(done))).
Qed.

Lemma c44_shipped : exists g d, load_ast syntaxis2_json = Ret (g, d) /\
  closed (nonterminals (g_vocabulary g)) (productions g) /\ ll1 (productions g) /\
  exists tab n, forall order fuel, iteration_order g order -> n <= fuel -> build_table fuel order g = Ret (tab, []).
Proof.
  exists shipped, (rules_of shipped_tree). split; [exact shipped_load|]. split; [exact shipped_closed|]. split; [exact shipped_ll1|].
  exists shipped_table. exact shipped_table_returns.
Qed.
