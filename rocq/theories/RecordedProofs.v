(** RecordedProofs.v -- the outputs recorded in the tests are those computed for syntaxis.json, in every iteration order. *)
From Verif Require Export ShippedMain JsonTrees ConflictProofs FormatProofs SpecRecorded Recorded RecordedJson.

Definition old_tree : rule_ctx := match from_value syntaxis_json with Ret (Some r) => r | _ => RuleCtx [] [] 0 end.
Definition old : grammar := grammar_of old_tree.
Definition old_order : list production := elements (productions old).
Lemma old_from_value : from_value syntaxis_json = Ret (Some old_tree).
Proof. vm_compute. reflexivity. Qed.
Lemma old_loaded : loaded old_tree = true.
Proof. vm_compute. reflexivity. Qed.
Lemma old_load : load_ast syntaxis_json = Ret (old, rules_of old_tree).
Proof. unfold load_ast. rewrite old_from_value. cbn [rbind unwrap]. apply loaded_ret, old_loaded. Qed.
Lemma old_load_inv g d : load_ast syntaxis_json = Ret (g, d) -> old = g.
Proof. rewrite old_load. intros H. exact (f_equal (fun x : res (grammar * list lexer_rule_data) => match x with Ret (g, _) => g | _ => old end) H). Qed.
Lemma old_closed : closed (nonterminals (g_vocabulary old)) (productions old).
Proof. exact (proj1 (c43_closed _ _ _ (loaded_ret _ old_loaded))). Qed.
Lemma old_0 : 0 ∈ nonterminals (g_vocabulary old).
Proof. apply (bool_decide_eq_true_1 _). vm_compute. reflexivity. Qed.
Lemma old_order_ok : iteration_order old old_order.
Proof. unfold iteration_order, old_order. reflexivity. Qed.

(** Permutations, decided *)
Section perm.
  Context {A : Type} `{EqDecision A}.
  Fixpoint take_out (x : A) (l : list A) : option (list A) :=
    match l with
    | [] => None
    | y :: l => if decide (x = y) then Some l else match take_out x l with Some l' => Some (y :: l') | None => None end
    end.
  Lemma take_out_perm x l l' : take_out x l = Some l' -> l ≡ₚ x :: l'.
  Proof.
    revert l'. induction l as [|y l IH]; intros l'; [done|]. cbn [take_out]. destruct (decide (x = y)) as [->|_].
    - by intros [= ->].
    - destruct (take_out x l) as [k|]; [|done]. intros [= <-]. rewrite (IH k eq_refl). apply Permutation_swap.
  Qed.
  Fixpoint permb (l k : list A) : bool :=
    match l with
    | [] => match k with [] => true | _ => false end
    | x :: l => match take_out x k with Some k' => permb l k' | None => false end
    end.
  Lemma permb_perm l k : permb l k = true -> l ≡ₚ k.
  Proof.
    revert k. induction l as [|x l IH]; intros k; cbn [permb]; [by destruct k|].
    destruct (take_out x k) as [k'|] eqn:E; [|done]. intros H. rewrite (take_out_perm _ _ _ E). by rewrite (IH _ H).
  Qed.
End perm.

Section old.
  Context (v : vocabulary).
  Definition label (i : nat) : str := match get_nonterminal_name_by_id v i with Some n => n | None => usize_to_string i end.
  Lemma label_ok i : printed_nonterminal v i (label i).
  Proof. unfold label. destruct (get_nonterminal_name_by_id v i) eqn:E; [by apply printed_named|apply printed_unnamed; [done|apply usize_numeral]]. Qed.
  Definition spell (x : item) : option str := match x with NT i => Some (label i) | T i => get_terminal_name_by_id v i end.
  Lemma spell_ok x s : spell x = Some s -> spelled v x s.
  Proof. destruct x as [i|i]; cbn [spell]; [intros [= <-]; apply spelled_rule, label_ok|by apply spelled_token]. Qed.
  Definition spell_line (p : production) : option str :=
    match mapM spell (right p) with
    | Some ss => Some (label (left p) ++ lit " ->" ++ concat (map (fun s => lit " " ++ s) ss) ++ lit ";")
    | None => None
    end.
  Lemma spell_line_ok p s : spell_line p = Some s -> recorded_production v p s.
  Proof.
    unfold spell_line. destruct (mapM spell (right p)) as [ss|] eqn:E; [|done]. intros [= <-]. apply recorded_line; [apply label_ok|].
    apply mapM_Some_1 in E. eapply Forall2_impl; [exact E|]. intros x s. apply spell_ok.
  Qed.
  Definition lines_ok (l : list production) (ss : list str) : bool := permb (map spell_line l) (map Some ss).
  Lemma lines_ok_spec l ss : lines_ok l ss = true -> exists l', l' ≡ₚ l /\ Forall2 (recorded_production v) l' ss.
  Proof.
    intros H%permb_perm. symmetry in H. apply Permutation_map_inv in H as (l' & E & Hp). exists l'. split; [by symmetry|].
    clear Hp. revert l' E. induction ss as [|s ss IH]; intros [|p l'] E; [constructor|done..|]. cbn [map] in E. injection E as E1 E2.
    constructor; [by apply spell_line_ok|by apply IH].
  Qed.
  (** Sets *)
  Definition set_ok (s : gset nat) (names : list str) : bool := permb (map (get_terminal_name_by_id v) (elements s)) (map Some names).
  Lemma set_ok_spec s names : set_ok s names = true -> recorded_set v s names.
  Proof.
    intros H%permb_perm. symmetry in H. apply Permutation_map_inv in H as (l' & E & Hp). exists l'. split; [by symmetry|].
    clear Hp. revert l' E. induction names as [|x names IH]; intros [|p l'] E; [constructor|done..|]. cbn [map] in E. injection E as E1 E2.
    constructor; [done|by apply IH].
  Qed.
  (** Matching entries with records by a test *)
  Section entries.
    Context {E R : Type} (test : E -> R -> bool).
    Fixpoint pick (r : R) (l : list E) : option (E * list E) :=
      match l with
      | [] => None
      | e :: l => if test e r then Some (e, l) else match pick r l with Some (e', l') => Some (e', e :: l') | None => None end
      end.
    Lemma pick_spec r l e l' : pick r l = Some (e, l') -> test e r = true /\ e :: l' ≡ₚ l.
    Proof.
      revert e l'. induction l as [|x l IH]; intros e l'; [done|]. cbn [pick]. destruct (test x r) eqn:Et.
      - by intros [= <- <-].
      - destruct (pick r l) as [[e' k]|]; [|done]. intros [= <- <-]. destruct (IH _ _ eq_refl) as [H1 H2]. split; [done|].
        rewrite Permutation_swap. by rewrite H2.
    Qed.
    Fixpoint matchb (l : list E) (rs : list R) : bool :=
      match rs with
      | [] => match l with [] => true | _ => false end
      | r :: rs => match pick r l with Some (_, l') => matchb l' rs | None => false end
      end.
    Lemma matchb_spec l rs : matchb l rs = true -> exists l', l' ≡ₚ l /\ Forall2 (fun e r => test e r = true) l' rs.
    Proof.
      revert l. induction rs as [|r rs IH]; intros l; cbn [matchb].
      - destruct l; [|done]. intros _. by exists [].
      - destruct (pick r l) as [[e l']|] eqn:Ep; [|done]. intros (k & Hk & Hf)%IH. apply pick_spec in Ep as [Ht Hp]. exists (e :: k).
        split; [by rewrite Hk|by constructor].
    Qed.
  End entries.
  Definition first_ok (m : gmap nat coll) (l : list (str * list str * bool)) : bool :=
    matchb (fun (e : nat * coll) (r : str * list str * bool) =>
      bool_decide (label (fst e) = fst (fst r)) && set_ok (cset (snd e)) (snd (fst r)) && Bool.eqb (allow_epsilon (snd e)) (snd r)) (map_to_list m) l.
  Lemma first_ok_spec m l : first_ok m l = true -> recorded_firsts v m l.
  Proof.
    intros (k & Hk & Hf)%matchb_spec. exists k. split; [done|]. eapply Forall2_impl; [exact Hf|].
    intros e r [[H1 H2]%andb_prop H3]%andb_prop. apply bool_decide_eq_true in H1. rewrite <- H1. split_and!; [apply label_ok|by apply set_ok_spec|by apply Bool.eqb_prop].
  Qed.
  Definition follow_ok (m : gmap nat (gset nat)) (l : list (str * list str)) : bool :=
    matchb (fun (e : nat * gset nat) (r : str * list str) => bool_decide (label (fst e) = fst r) && set_ok (snd e) (snd r)) (map_to_list m) l.
  Lemma follow_ok_spec m l : follow_ok m l = true -> recorded_follows v m l.
  Proof.
    intros (k & Hk & Hf)%matchb_spec. exists k. split; [done|]. eapply Forall2_impl; [exact Hf|].
    intros e r [H1 H2]%andb_prop. apply bool_decide_eq_true in H1. rewrite <- H1. split; [apply label_ok|by apply set_ok_spec].
  Qed.
End old.

Definition sets_check (g : grammar) (fr : list (str * list str * bool)) (fw : list (str * list str)) (order : list production) (fuel : nat) : bool :=
  match first_set fuel order g with
  | Ret out => first_ok (g_vocabulary g) (fst out) fr &&
      match follow_set fuel order g (fst out) with Ret w => follow_ok (g_vocabulary g) w fw | _ => false end
  | _ => false
  end.
Lemma old_lines : lines_ok (g_vocabulary old) (elements (productions old)) recorded_productions = true.
Proof. vm_compute. reflexivity. Qed.
Lemma old_sets : sets_check old recorded_first recorded_follow old_order 200 = true.
Proof. vm_compute. reflexivity. Qed.

Lemma c69_productions g d : load_ast syntaxis_json = Ret (g, d) ->
  exists ps, ps ≡ₚ elements (productions g) /\ Forall2 (recorded_production (g_vocabulary g)) ps recorded_productions.
Proof. intros <-%old_load_inv. exact (lines_ok_spec (g_vocabulary old) (elements (productions old)) recorded_productions old_lines). Qed.

Lemma check_sets g fr fw order fuel : iteration_order g order ->
  sets_check g fr fw order fuel = true -> closed (nonterminals (g_vocabulary g)) (productions g) -> 0 ∈ nonterminals (g_vocabulary g) ->
  exists n, forall order1 order2 fuel1 fuel2, iteration_order g order1 -> iteration_order g order2 -> n <= fuel1 -> n <= fuel2 ->
    exists first cache follow, first_set fuel1 order1 g = Ret (first, cache) /\ follow_set fuel2 order2 g first = Ret follow /\
      recorded_firsts (g_vocabulary g) first fr /\ recorded_follows (g_vocabulary g) follow fw.
Proof.
  intros Ho H Hc H0. unfold sets_check in H. destruct (first_set fuel order g) as [out| |] eqn:EF; [|done..]. apply andb_prop in H as [HF HW].
  destruct (follow_set fuel order g (fst out)) as [w| |] eqn:EW; [|done..].
  destruct (c23_first_returns g Hc) as [n1 Hn1]. destruct (c26_follow_returns g Hc H0) as [n2 Hn2].
  exists (n1 + n2). intros order1 order2 fuel1 fuel2 Ho1 Ho2 Hf1 Hf2.
  destruct (Hn1 order1 fuel1 Ho1 ltac:(lia)) as (first & cache & E1).
  destruct (Hn2 order1 order2 fuel1 fuel2 first cache Ho1 Ho2 E1 ltac:(lia)) as (follow & E2).
  exists first, cache, follow. split; [exact E1|]. split; [exact E2|].
  pose proof (c24_first_order_independent _ _ _ _ _ _ _ Ho1 Ho E1 EF) as E.
  pose proof (follow_order_independent g order1 order2 order order fuel1 fuel2 fuel fuel (first, cache) out follow w Ho1 Ho2 Ho Ho E1 E2 EF EW) as Ew.
  subst out w. split; [by apply first_ok_spec|by apply follow_ok_spec].
Qed.
Lemma c69_sets g d : load_ast syntaxis_json = Ret (g, d) ->
  exists n, forall order1 order2 fuel1 fuel2, iteration_order g order1 -> iteration_order g order2 -> n <= fuel1 -> n <= fuel2 ->
    exists first cache follow, first_set fuel1 order1 g = Ret (first, cache) /\ follow_set fuel2 order2 g first = Ret follow /\
      recorded_firsts (g_vocabulary g) first recorded_first /\ recorded_follows (g_vocabulary g) follow recorded_follow.
Proof. intros <-%old_load_inv. exact (check_sets old recorded_first recorded_follow old_order 200 old_order_ok old_sets old_closed old_0). Qed.

(** *** Conflicts *)
Definition conflicts_among (order : list production) (cache : gmap production coll) (follow : gmap nat (gset nat)) (good : production -> production -> bool) : bool :=
  forallb (fun p => forallb (fun q => negb (left p =? left q) || good p q ||
    bool_decide (p = q) || forallb (fun t => negb (existsb (Nat.eqb t) (keys cache follow q))) (keys cache follow p)) order) order &&
  forallb (fun p => bool_decide (NoDup (keys cache follow p))) order.
Definition two_lines (v : vocabulary) (l1 l2 : str) (p q : production) : bool :=
  match spell_line v p, spell_line v q with
  | Some a, Some b => bool_decide (a = l1 /\ b = l2) || bool_decide (a = l2 /\ b = l1)
  | _, _ => false
  end.
Definition conflict_check (g : grammar) (good : production -> production -> bool) (n : nat) (order : list production) (fuel : nat) : bool :=
  match first_set fuel order g with
  | Ret (first, cache) => match follow_set fuel order g first with
      | Ret follow => conflicts_among order cache follow good &&
          match ll1_table order cache follow with Ret (_, w) => length w =? n | _ => false end
      | _ => false end
  | _ => false
  end.
Lemma check_conflicts g good n order fuel : conflict_check g good n order fuel = true -> iteration_order g order ->
  closed (nonterminals (g_vocabulary g)) (productions g) ->
  forall order' fuel' tab w, iteration_order g order' -> build_table fuel' order' g = Ret (tab, w) ->
  length w = n /\ forall p q, (p, q) ∈ w -> good p q = true.
Proof.
  unfold conflict_check. intros H Ho Hcl order' fuel' tab w Ho' B.
  destruct (first_set fuel order g) as [[first cache]| |] eqn:H1; [|done..]. destruct (follow_set fuel order g first) as [follow| |] eqn:H2; [|done..].
  apply andb_prop in H as [H Hn]. destruct (ll1_table order cache follow) as [[tab0 w0]| |] eqn:H3; [|done..]. apply Nat.eqb_eq in Hn.
  assert (build_table fuel order g = Ret (tab0, w0)) as B0 by (unfold build_table; rewrite H1; cbn [rbind]; rewrite H2; exact H3).
  split; [rewrite <- Hn; exact (c29_same_number _ _ _ _ _ _ _ _ _ Ho' Ho Hcl B B0)|]. clear B0 H3 Hn.
  pose proof (first_set_exact _ _ _ _ _ Ho H1) as [Hex1 Hex2].
  pose proof (follow_set_exact _ _ _ _ _ Ho Hex1 H2) as Hex3.
  apply andb_prop in H as [Ha Hb]. rewrite forallb_forall in Ha, Hb.
  assert (forall p, p ∈ order <-> p ∈ productions g) as Hin by (intros p; by apply iteration_order_elem).
  assert (forall p, p ∈ order' <-> p ∈ productions g) as Hin' by (intros p; by apply iteration_order_elem).
  pose proof (iteration_order_NoDup _ _ Ho') as Hnd.
  intros p q Hw. apply (c29_reports _ _ _ _ _ _ _ Ho' Hcl B) in Hw as [(o1 & o2 & o3 & t & -> & Hl & Hp & Hq & _)|(<- & Hp & t & Ht)].
  - assert (p ∈ productions g) as HpP by (apply Hin'; set_solver). assert (q ∈ productions g) as HqP by (apply Hin'; set_solver).
    assert (p <> q) as Hne.
    { intros <-. apply NoDup_app in Hnd as (_ & _ & Hnd). apply NoDup_cons in Hnd as [Hnd _]. set_solver. }
    apply (elem_of_keys _ _ _ _ Hex2 Hex3 Hcl) in Hp, Hq; [|done..].
    specialize (Ha p ltac:(by apply elem_of_list_In, Hin)). rewrite forallb_forall in Ha. specialize (Ha q ltac:(by apply elem_of_list_In, Hin)).
    rewrite Hl, Nat.eqb_refl in Ha. cbn [negb orb] in Ha. apply orb_prop in Ha as [Ha|Ha]; [apply orb_prop in Ha as [Ha|Ha]; [done|by apply bool_decide_eq_true in Ha]|].
    rewrite forallb_forall in Ha. specialize (Ha t ltac:(by apply elem_of_list_In)). apply negb_true_iff in Ha.
    assert (existsb (Nat.eqb t) (keys cache follow q) = true); [|congruence]. apply existsb_exists. exists t. split; [by apply elem_of_list_In|apply Nat.eqb_refl].
  - apply (keys_twice _ _ _ _ Hex2 Hex3 Hcl) in Ht as (k1 & k2 & k3 & E & _); [|done]. specialize (Hb p ltac:(by apply elem_of_list_In, Hin)).
    apply bool_decide_eq_true in Hb. rewrite E in Hb. apply NoDup_app in Hb as (_ & _ & Hb). apply NoDup_cons in Hb as [Hb _]. set_solver.
Qed.
Lemma two_lines_spec v l1 l2 p q : two_lines v l1 l2 p q = true ->
  (recorded_production v p l1 /\ recorded_production v q l2) \/ (recorded_production v p l2 /\ recorded_production v q l1).
Proof.
  unfold two_lines. destruct (spell_line v p) as [a|] eqn:Ea; [|done]. destruct (spell_line v q) as [b|] eqn:Eb; [|done].
  apply spell_line_ok in Ea, Eb. intros [[-> ->]%bool_decide_eq_true|[-> ->]%bool_decide_eq_true]%orb_prop; [by left|by right].
Qed.
Lemma old_conflicts : conflict_check old (two_lines (g_vocabulary old) (lit "13 -> element;") (lit "13 -> element 13;")) 4 old_order 200 = true.
Proof. vm_compute. reflexivity. Qed.
Lemma c69_conflicts g d order fuel tab w : load_ast syntaxis_json = Ret (g, d) -> iteration_order g order ->
  build_table fuel order g = Ret (tab, w) ->
  length w = 4 /\ forall p q, (p, q) ∈ w ->
    (recorded_production (g_vocabulary g) p (lit "13 -> element;") /\ recorded_production (g_vocabulary g) q (lit "13 -> element 13;")) \/
    (recorded_production (g_vocabulary g) p (lit "13 -> element 13;") /\ recorded_production (g_vocabulary g) q (lit "13 -> element;")).
Proof.
  intros <-%old_load_inv Ho B.
  destruct (check_conflicts old _ 4 old_order 200 old_conflicts old_order_ok old_closed order fuel tab w Ho B) as [Hn Hw].
  split; [exact Hn|]. intros p q Hpq. exact (two_lines_spec _ _ _ p q (Hw p q Hpq)).
Qed.

(** The text of the file, read by serde_json, is the value. *)
Lemma c69_text huge : json_from_str huge syntaxis_text = JOk syntaxis_json.
Proof. vm_compute. reflexivity. Qed.
Lemma ex_old : exists g d, load_ast syntaxis_json = Ret (g, d) /\ iteration_order g (elements (productions g)).
Proof. exists old, (rules_of old_tree). split; [exact old_load|exact old_order_ok]. Qed.
