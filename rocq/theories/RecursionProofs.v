(** RecursionProofs.v -- C30 and C35 sharpened: order independence exactly for LL(1) grammars; termination without left
    recursion, whatever the conflicts; divergence with it. *)
From Verif Require Export SpecRecursion ParserProofs GrammarMain.

(** ** Orders with a given last production *)
Definition last_order (g : grammar) (p : production) : list production := elements (productions g ∖ {[p]}) ++ [p].
Lemma last_order_ok g p : p ∈ productions g -> iteration_order g (last_order g p).
Proof.
  intros Hp. unfold iteration_order, last_order.
  assert (productions g = {[p]} ∪ (productions g ∖ {[p]})) as E by (apply union_difference_L; set_solver).
  rewrite E at 2. rewrite elements_union_singleton by set_solver.
  rewrite <- Permutation_cons_append. done.
Qed.
Lemma last_order_wins g p fuel tab w t :
  p ∈ productions g -> closed (nonterminals (g_vocabulary g)) (productions g) ->
  build_table fuel (last_order g p) g = Ret (tab, w) -> predicts (productions g) p t -> tab !! (left p, t) = Some p.
Proof.
  intros Hp Hcl Ht Hpr. pose proof (last_order_ok g p Hp) as Ho.
  destruct (c28_table_entries _ _ _ _ _ Ho Hcl Ht) as [H1 _].
  destruct (proj2 (H1 (left p) t)) as [q Hq]. { exists p. split_and!; [done..|exact Hpr]. }
  rewrite Hq. f_equal. destruct (c30_last_wins _ _ _ _ _ Ho Hcl Ht _ _ _ Hq) as (o1 & o2 & E & Hn).
  unfold last_order in E. destruct o2 as [|x o2 _] using rev_ind.
  - by apply app_inj_tail in E as [_ <-].
  - rewrite app_comm_cons, app_assoc in E. apply app_inj_tail in E as [_ <-].
    destruct (Hn p); [apply elem_of_app; right; apply elem_of_list_here|done|done].
Qed.

Lemma c30_iff g : closed (nonterminals (g_vocabulary g)) (productions g) -> 0 ∈ nonterminals (g_vocabulary g) ->
  ((forall order1 order2 fuel1 fuel2 tab1 tab2 w1 w2, iteration_order g order1 -> iteration_order g order2 ->
      build_table fuel1 order1 g = Ret (tab1, w1) -> build_table fuel2 order2 g = Ret (tab2, w2) -> tab1 = tab2)
   <-> ll1 (productions g)).
Proof.
  intros Hcl H0. destruct (c28_table_returns g Hcl H0) as (n & Hn). split.
  - intros H p q t Hp Hq Hl Pp Pq.
    destruct (Hn (last_order g p) n (last_order_ok g p Hp) (le_n _)) as (tab1 & w1 & E1).
    destruct (Hn (last_order g q) n (last_order_ok g q Hq) (le_n _)) as (tab2 & w2 & E2).
    pose proof (H _ _ _ _ _ _ _ _ (last_order_ok g p Hp) (last_order_ok g q Hq) E1 E2) as ->.
    pose proof (last_order_wins _ _ _ _ _ _ Hp Hcl E1 Pp) as K1. pose proof (last_order_wins _ _ _ _ _ _ Hq Hcl E2 Pq) as K2.
    rewrite Hl in K1. rewrite K1 in K2. by injection K2.
  - intros Hll order1 order2 fuel1 fuel2 tab1 tab2 w1 w2 Ho1 Ho2 E1 E2.
    assert (w1 = []) as -> by (by eapply (c29_warnings _ _ _ _ _ Ho1 Hcl E1)).
    by destruct (c30_order_indep _ _ _ _ _ _ _ _ Ho1 Ho2 Hcl E1 E2).
Qed.

(** ** Acyclic relations with finitely many sources are well founded *)
Section wf.
  Context (R : nat -> nat -> Prop) (L : gset nat) (HL : forall A B, R A B -> A ∈ L) (Hno : forall A, ~ tc R A A).

  Lemma acyclic_acc A : Acc (fun B A => R A B) A.
  Proof using All.
    enough (forall n V A, size (L ∖ V) <= n -> (forall v, v ∈ V -> tc R v A) -> Acc (fun B A => R A B) A) as K.
    { apply (K (size (L ∖ ∅)) ∅); [done|]. intros v ?%elem_of_empty. done. }
    clear A. induction n as [|n IH]; intros V A Hs Hv; constructor; intros B HB.
    - exfalso. pose proof (HL _ _ HB) as HA.
      assert (A ∉ V) as HV by (intros ?%Hv; by apply (Hno A)).
      assert (size (L ∖ V) = 0) as E by lia. apply size_empty_inv in E. set_solver.
    - pose proof (HL _ _ HB) as HA.
      assert (A ∉ V) as HV by (intros ?%Hv; by apply (Hno A)).
      apply (IH ({[A]} ∪ V)).
      + assert (size (L ∖ ({[A]} ∪ V)) < size (L ∖ V)); [|lia]. apply subset_size. set_solver.
      + intros v [->%elem_of_singleton|Hw]%elem_of_union; [by apply tc_once|]. eapply tc_r; [by apply Hv|done].
  Qed.
End wf.

Lemma table_corner_acc tab t : (forall A, ~ tc (table_corner tab t) A A) -> forall A, Acc (fun B A => table_corner tab t A B) A.
Proof.
  intros Hno. apply (acyclic_acc _ (set_map fst (dom tab))); [|done].
  intros A B (p & α & β & Hp & _). apply elem_of_map. exists (A, t). split; [done|]. by eapply elem_of_dom_2.
Qed.

(** ** Any table at all *)
Section any_table.
  Context (voc : vocabulary) (tab : table) (toks : list token).

  Lemma parse_ast_le f c A r c' mm : parse_ast voc tab toks f c A = Ret (r, c', mm) -> c <= c'.
  Proof using. intros H. pose proof (c37_leaves _ _ _ _ _ _ _ _ _ H) as (? & _). lia. Qed.
  Lemma parse_items_le f α c k m c' k' m' :
    parse_items voc toks (parse_ast voc tab toks f) α c k m = Ret (c', k', m') -> c <= c'.
  Proof using.
    revert c k m. induction α as [|[B|u] α IH]; intros c k m H; simpl in H.
    - injection H as <- _ _. done.
    - apply rbind_Ret in H as ([[r c1] m1] & H1 & H2). apply parse_ast_le in H1. apply IH in H2. lia.
    - apply rbind_Ret in H as (tok & H1 & H2). apply IH in H2. lia.
  Qed.

  (** What consumes nothing vanishes. *)
  Lemma parse_ast_vanishes f c A r mm tok : toks !! c = Some tok ->
    parse_ast voc tab toks f c A = Ret (r, c, mm) -> vanishes tab (token_type tok) [NT A].
  Proof using.
    intros Hlk. revert A r mm. induction f as [|f IH]; intros A r mm H; [done|]. simpl in H. rewrite Hlk in H. simpl in H.
    destruct (tab !! (A, token_type tok)) as [p|] eqn:Ep; simpl in H; [|done].
    apply rbind_Ret in H as ([[c1 k1] m1] & H1 & H2). injection H2 as _ -> _.
    econstructor; [exact Ep| |constructor].
    clear Ep. revert H1. generalize (@nil ast) (@nil mismatch). induction (right p) as [|[B|u] α IHα]; intros k m H1; [constructor|..].
    - simpl in H1. apply rbind_Ret in H1 as ([[r2 c2] m2] & H2 & H3).
      pose proof (parse_ast_le _ _ _ _ _ _ H2). pose proof (parse_items_le _ _ _ _ _ _ _ _ H3). assert (c2 = c) as -> by lia.
      apply IHα in H3. apply IH in H2. inversion H2; subst. by econstructor.
    - simpl in H1. rewrite Hlk in H1. simpl in H1. apply parse_items_le in H1. lia.
  Qed.
  (** What vanishes consumes nothing. *)
  Lemma vanishes_items tok α : vanishes tab (token_type tok) α -> forall c, toks !! c = Some tok -> forall f β k m,
    parse_items voc toks (parse_ast voc tab toks f) (α ++ β) c k m = OutOfFuel \/
    exists k' m', parse_items voc toks (parse_ast voc tab toks f) (α ++ β) c k m =
      parse_items voc toks (parse_ast voc tab toks f) β c k' m'.
  Proof using.
    induction 1 as [|A p α Hp _ IH1 _ IH2]; intros c Hlk f β k m; [by eauto|].
    cbn [app parse_items]. destruct f as [|f]; [by left|].
    assert (parse_ast voc tab toks (S f) c A = OutOfFuel \/ exists r mm, parse_ast voc tab toks (S f) c A = Ret (r, c, mm)) as [->|(r & mm & ->)].
    { cbn [parse_ast]. rewrite Hlk. cbn [unwrap rbind]. rewrite Hp. cbn [unwrap rbind].
      destruct (IH1 c Hlk f [] [] []) as [E|(k' & m' & E)]; rewrite app_nil_r in E; rewrite E; [by left|]. right. by eauto. }
    - by left.
    - cbn [rbind]. apply IH2. done.
  Qed.

  (** A cycle is never left. *)
  Lemma cycle_diverges c tok : toks !! c = Some tok ->
    forall f A, tc (table_corner tab (token_type tok)) A A -> parse_ast voc tab toks f c A = OutOfFuel.
  Proof using.
    intros Hlk f. induction f as [|f IH]; intros A HA; [done|].
    assert (exists B, table_corner tab (token_type tok) A B /\ tc (table_corner tab (token_type tok)) B B) as (B & HB & HBB).
    { inversion HA as [? ? H1|? B ? H1 H2]; subst; [by eauto|]. exists B. split; [done|]. by eapply tc_r. }
    destruct HB as (p & α & β & Hp & Hr & Hv). cbn [parse_ast]. rewrite Hlk. cbn [unwrap rbind]. rewrite Hp. cbn [unwrap rbind]. rewrite Hr.
    destruct (vanishes_items _ _ Hv c Hlk f (NT B :: β) [] []) as [->|(k' & m' & ->)]; [done|].
    cbn [parse_items]. by rewrite IH.
  Qed.

  (** Without a cycle every call returns. *)
  Lemma acyclic_terminates : (forall t A, ~ tc (table_corner tab t) A A) -> forall c A, term voc tab toks c A.
  Proof using.
    intros Hno c A. remember (length toks - c) as k eqn:Hk. revert c A Hk.
    induction k as [k IH] using lt_wf_ind. intros c A Hk.
    destruct (toks !! c) as [tok|] eqn:Hlk.
    2: { exists 1. simpl. by rewrite Hlk. }
    pose proof (lookup_lt_Some _ _ _ Hlk) as Hlt.
    assert (IHc : forall c' A', c < c' -> term voc tab toks c' A').
    { intros c' A' Hc'. destruct (decide (c' < length toks)).
      - apply (IH (length toks - c')); [lia|done].
      - exists 1. simpl. by rewrite lookup_ge_None_2 by lia. }
    assert (forall α c', c < c' -> iterm voc tab toks α c') as Hlater.
    { induction α as [|[B|u] α IHα]; intros c' Hc'; [apply iterm_nil|..].
      - apply iterm_NT; [by apply IHc|]. intros f r c1 mm1 H. apply IHα. apply parse_ast_le in H. lia.
      - apply iterm_T. intros _. apply IHα. lia. }
    clear IH Hk. induction (table_corner_acc tab (token_type tok) (Hno _) A) as [A _ IHA].
    destruct (tab !! (A, token_type tok)) as [p|] eqn:Ep.
    2: { exists 1. simpl. rewrite Hlk. simpl. by rewrite Ep. }
    eapply term_of_iterm; [done|done|].
    assert (forall α β, right p = α ++ β -> vanishes tab (token_type tok) α -> iterm voc tab toks β c) as Hwalk;
      [|by apply (Hwalk [] (right p)); [done|constructor]].
    intros α β. revert α. induction β as [|x β IHβ]; intros α Hr Hα; [apply iterm_nil|].
    destruct x as [B|u].
    2: { apply iterm_T. intros _. apply Hlater. lia. }
    apply iterm_NT.
    - apply IHA. by exists p, α, β.
    - intros f r c1 mm1 H. pose proof (parse_ast_le _ _ _ _ _ _ H).
      destruct (decide (c1 = c)) as [->|]; [|apply Hlater; lia].
      apply (IHβ (α ++ [NT B])); [by rewrite <- (assoc_L (++))|].
      pose proof (parse_ast_vanishes _ _ _ _ _ _ Hlk H) as Hv.
      clear -Hα Hv. induction Hα; [done|]. simpl. by econstructor.
  Qed.
End any_table.

Lemma c35_exact tab :
  (forall v toks i A, exists n, parse_ast v tab toks n i A <> OutOfFuel) <-> (forall t A, ~ tc (table_corner tab t) A A).
Proof.
  split.
  - intros H t A Hc. destruct (H vocabulary_new [token_new t [] []] 0 A) as [n Hn]. apply Hn.
    by apply (cycle_diverges _ _ _ 0 (token_new t [] [])).
  - intros Hno v toks i A. by apply acyclic_terminates.
Qed.
Lemma c35_diverges tab t A v toks i tok fuel : tc (table_corner tab t) A A -> toks !! i = Some tok -> token_type tok = t ->
  parse_ast v tab toks fuel i A = OutOfFuel.
Proof. intros H Hi <-. by eapply cycle_diverges. Qed.

(** ** Without left recursion *)
Lemma vanishes_nullable P tab t α : (forall A t p, tab !! (A, t) = Some p -> p ∈ P /\ left p = A) -> vanishes tab t α -> nullable P α.
Proof.
  intros Hsub. induction 1 as [|A p α Hp _ IH1 _ IH2]; [apply rtc_refl|].
  destruct (Hsub _ _ _ Hp) as [Hin <-]. apply (nullable_app P [NT (left p)] α). split; [|done].
  unfold nullable, derives in *. eapply rtc_l; [apply (rewrites_intro P [] p []); done|]. simpl. by rewrite app_nil_r.
Qed.
Lemma table_corner_left P tab t A B : (forall A t p, tab !! (A, t) = Some p -> p ∈ P /\ left p = A) ->
  table_corner tab t A B -> left_corner P A B.
Proof.
  intros Hsub (p & α & β & Hp & Hr & Hv). destruct (Hsub _ _ _ Hp). exists p, α, β. split_and!; [done..|]. by eapply vanishes_nullable.
Qed.
Lemma c35_no_left_recursion g order fuel tab w v toks i A :
  iteration_order g order -> closed (nonterminals (g_vocabulary g)) (productions g) ->
  build_table fuel order g = Ret (tab, w) -> (forall B, ~ left_recursive (productions g) B) ->
  exists n, forall fuel', n <= fuel' ->
    parse_ast v tab toks fuel' i A <> OutOfFuel /\
    parse_ast v tab toks fuel' i A = parse_ast v tab toks n i A.
Proof.
  intros Ho Hcl Ht Hno. destruct (c28_table_entries _ _ _ _ _ Ho Hcl Ht) as [_ H2].
  destruct (acyclic_terminates v tab toks) with (c := i) (A := A) as [n Hn].
  { intros t B HB. apply (Hno B). apply (tc_congruence (R := table_corner tab t) (fun x => x)); [|exact HB]. intros X Y. apply table_corner_left.
    intros C u p Hp. destruct (H2 _ _ _ Hp) as (? & ? & _). done. }
  exists n. intros fuel' Hle. rewrite (parse_ast_mono _ _ _ n) by done. done.
Qed.

(** ** With it *)
Lemma c35_left_recursion g p β t : closed (nonterminals (g_vocabulary g)) (productions g) -> 0 ∈ nonterminals (g_vocabulary g) ->
  p ∈ productions g -> right p = NT (left p) :: β -> starts (productions g) [NT (left p)] t ->
  exists order, iteration_order g order /\ exists n, forall fuel, n <= fuel -> exists tab w, build_table fuel order g = Ret (tab, w) /\
    forall v toks i tok, toks !! i = Some tok -> token_type tok = t ->
      forall fuel', parse_ast v tab toks fuel' i (left p) = OutOfFuel.
Proof.
  intros Hcl H0 Hp Hr Hs. exists (last_order g p). split; [by apply last_order_ok|].
  destruct (c28_table_returns g Hcl H0) as (n & Hn). exists n. intros fuel Hf.
  destruct (Hn (last_order g p) fuel (last_order_ok g p Hp) Hf) as (tab & w & E). exists tab, w. split; [done|].
  assert (tab !! (left p, t) = Some p) as Ht.
  { eapply last_order_wins; [done|done|exact E|]. left. rewrite Hr. apply starts_cons. by left. }
  intros v toks i tok Hi <- fuel'. induction fuel' as [|f IH]; [done|]. cbn [parse_ast]. rewrite Hi. cbn [unwrap rbind]. rewrite Ht. cbn [unwrap rbind].
  rewrite Hr. cbn [parse_items]. by rewrite IH.
Qed.

(** ** How deep the recursion goes *)
Section depth.
  Context (voc : vocabulary) (tab : table) (toks : list token) (L : gset nat).
  Context (HL : forall A t p, tab !! (A, t) = Some p -> A ∈ L) (Hno : forall t A, ~ tc (table_corner tab t) A A).

  Lemma depth_bound f c A tok (V : gset nat) : toks !! c = Some tok ->
    (forall v, v ∈ V -> tc (table_corner tab (token_type tok)) v A) ->
    (length toks - c - 1) * S (size L) + size (L ∖ V) < f ->
    parse_ast voc tab toks f c A <> OutOfFuel.
  Proof using All.
    revert c A tok V. induction f as [|f IH]; intros c A tok V Hlk HV Hf; [by apply Nat.nlt_0_r in Hf|].
    remember ((length toks - c - 1) * S (size L)) as X eqn:HX.
    cbn [parse_ast]. rewrite Hlk. cbn [unwrap rbind]. destruct (tab !! (A, token_type tok)) as [p|] eqn:Ep; [|done]. cbn [unwrap rbind].
    pose proof (HL _ _ _ Ep) as HA. assert (A ∉ V) as HAV by (intros ?%HV; by eapply Hno).
    assert (size (L ∖ ({[A]} ∪ V)) < size (L ∖ V)) as Hsz by (apply subset_size; set_solver).
    pose proof (lookup_lt_Some _ _ _ Hlk) as Hlt.
    assert (forall c' B, c < c' -> parse_ast voc tab toks f c' B <> OutOfFuel) as Hlater.
    { intros c' B Hc. destruct (toks !! c') as [tok'|] eqn:Hlk'.
      - pose proof (lookup_lt_Some _ _ _ Hlk'). apply (IH _ _ tok' ∅ Hlk'); [intros v ?%elem_of_empty; done|].
        rewrite difference_empty_L.
        pose proof (Nat.mul_le_mono_r (S (length toks - c' - 1)) (length toks - c - 1) (S (size L)) ltac:(lia)) as Hm.
        rewrite <- HX, Nat.mul_succ_l in Hm. remember ((length toks - c' - 1) * S (size L)) as Y. lia.
      - destruct f; [lia|]. simpl. by rewrite Hlk'. }
    assert (forall α β, right p = α ++ β -> vanishes tab (token_type tok) α -> forall k m,
      parse_items voc toks (parse_ast voc tab toks f) β c k m <> OutOfFuel) as Hwalk.
    2: { specialize (Hwalk [] (right p) eq_refl ltac:(constructor) [] []).
         by destruct (parse_items _ _ _ _ _ _ _) as [[[? ?] ?]| |]. }
    assert (forall β c' k m, c < c' -> parse_items voc toks (parse_ast voc tab toks f) β c' k m <> OutOfFuel) as Hi.
    { induction β as [|[B|u] β IHβ]; intros c' k m Hc; cbn [parse_items]; [done|..].
      - specialize (Hlater c' B Hc). destruct (parse_ast voc tab toks f c' B) as [[[r c1] m1]| |] eqn:E; [|done..].
        cbn [rbind]. apply IHβ. apply parse_ast_le in E. lia.
      - destruct (toks !! c'); cbn [unwrap rbind]; [|done]. apply IHβ. lia. }
    intros α β. revert α. induction β as [|[B|u] β IHβ]; intros α Hr Hα k m; cbn [parse_items]; [done|..].
    - assert (parse_ast voc tab toks f c B <> OutOfFuel) as HB.
      { assert (table_corner tab (token_type tok) A B) as HAB by (by exists p, α, β).
        apply (IH _ _ tok ({[A]} ∪ V) Hlk); [|rewrite <- HX; lia].
        intros v [->%elem_of_singleton|Hw]%elem_of_union; [by apply tc_once|]. eapply tc_r; [by apply HV|done]. }
      destruct (parse_ast voc tab toks f c B) as [[[r c1] m1]| |] eqn:E; [|done..]. cbn [rbind].
      pose proof (parse_ast_le _ _ _ _ _ _ _ _ _ E). destruct (decide (c1 = c)) as [->|]; [|apply Hi; lia].
      apply (IHβ (α ++ [NT B])); [by rewrite <- (assoc_L (++))|].
      pose proof (parse_ast_vanishes _ _ _ _ _ _ _ _ _ Hlk E) as Hv.
      clear -Hα Hv. induction Hα; [done|]. simpl. by econstructor.
    - rewrite Hlk. cbn [unwrap rbind]. apply Hi. lia.
  Qed.
  Lemma depth_linear f c A : (length toks - c) * S (size L) < f -> parse_ast voc tab toks f c A <> OutOfFuel.
  Proof using All.
    intros Hf. destruct (toks !! c) as [tok|] eqn:Hlk.
    - pose proof (lookup_lt_Some _ _ _ Hlk). apply (depth_bound f c A tok ∅ Hlk); [intros v ?%elem_of_empty; done|].
      rewrite difference_empty_L. replace (length toks - c) with (S (length toks - c - 1)) in Hf by lia. rewrite Nat.mul_succ_l in Hf.
      remember ((length toks - c - 1) * S (size L)) as Y. lia.
    - destruct f; [by apply Nat.nlt_0_r in Hf|]. simpl. by rewrite Hlk.
  Qed.
End depth.

Lemma fits_mono n m a : fits n a -> n <= m -> fits m a.
Proof.
  revert m a. induction n as [|n IH]; intros [|m] a H Hle; [done|done|lia|]. destruct a; simpl in *; [done| |done].
  eapply Forall_impl; [exact H|]. intros x Hx. apply IH; [done|lia].
Qed.
Lemma parse_ast_fits voc tab toks f c A r c' mm : parse_ast voc tab toks f c A = Ret (r, c', mm) -> Forall (fits f) (children r).
Proof.
  revert c A r c' mm. induction f as [|f IH]; intros c A r c' mm H; [done|]. simpl in H.
  apply rbind_Ret in H as (tok & _ & H). apply rbind_Ret in H as (p & _ & H). apply rbind_Ret in H as ([[c1 k1] m1] & H & E).
  injection E as <- _ _. cbn [children].
  assert (Forall (fits (S f)) ([] : list ast)) as K by constructor. revert K H. generalize c (@nil ast) (@nil mismatch).
  induction (right p) as [|[B|u] α IHα]; intros c2 k m K H; simpl in H.
  - by injection H as _ <- _.
  - apply rbind_Ret in H as ([[r2 c3] m3] & H2 & H3). apply IHα in H3; [done|]. apply IH in H2.
    destruct (get_nonterminal_name_by_id voc B); apply Forall_app; (split; [done|]).
    + by constructor.
    + eapply Forall_impl; [exact H2|]. intros x Hx. by eapply fits_mono; [exact Hx|lia].
  - apply rbind_Ret in H as (tok2 & _ & H3). apply IHα in H3; [done|]. apply Forall_app. split; [done|]. by constructor.
Qed.

Lemma c66_depth g order fuel tab w v toks i A :
  iteration_order g order -> closed (nonterminals (g_vocabulary g)) (productions g) ->
  build_table fuel order g = Ret (tab, w) -> w = [] \/ (forall B, ~ left_recursive (productions g) B) ->
  forall depth, (length toks - i) * S (size (nonterminals (g_vocabulary g))) < depth ->
    parse_ast v tab toks depth i A <> OutOfFuel /\
    (forall depth' r j mm, parse_ast v tab toks depth' i A = Ret (r, j, mm) -> fits (S depth) (Rule r)).
Proof.
  intros Ho Hcl Ht Hor depth Hd.
  assert (forall v toks i A, exists n, parse_ast v tab toks n i A <> OutOfFuel) as Hterm.
  { intros v' toks' i' A'. destruct Hor as [->|Hno].
    - destruct (c34_parse_terminates _ _ _ _ v' toks' i' A' Ho Hcl Ht) as [n Hn]. exists n. by apply (Hn n).
    - destruct (c35_no_left_recursion _ _ _ _ _ v' toks' i' A' Ho Hcl Ht Hno) as [n Hn]. exists n. by apply (Hn n). }
  assert (parse_ast v tab toks depth i A <> OutOfFuel) as H.
  { apply (depth_linear v tab toks (nonterminals (g_vocabulary g))); [|by apply c35_exact|done].
    intros B t p Hp. destruct (c28_table_entries _ _ _ _ _ Ho Hcl Ht) as [_ H2]. destruct (H2 _ _ _ Hp) as (Hin & <- & _). by apply Hcl. }
  split; [done|]. intros depth' r j mm Hr. simpl.
  enough (parse_ast v tab toks depth i A = Ret (r, j, mm)) as E by (by apply parse_ast_fits in E).
  destruct (decide (depth' <= depth)) as [Hle|Hle].
  - rewrite <- Hr. apply parse_ast_mono; [done|]. by rewrite Hr.
  - rewrite <- Hr. symmetry. apply parse_ast_mono; [lia|done].
Qed.

(** ** Examples *)
Lemma ex_g_ll1 : closed (nonterminals (g_vocabulary ex_g)) (productions ex_g) /\ 0 ∈ nonterminals (g_vocabulary ex_g) /\ ll1 (productions ex_g).
Proof.
  split_and!; [exact ex_closed|apply (bool_decide_unpack _); by vm_compute|].
  by apply (c29_warnings _ _ _ _ _ ex_order_ok ex_closed ex_table).
Qed.
(** s: A | A B -- conflicting, but not left-recursive. *)
Lemma g30_no_left_recursion : closed (nonterminals (g_vocabulary g30)) (productions g30) /\ ~ ll1 (productions g30) /\
  forall A, ~ left_recursive (productions g30) A.
Proof.
  assert (forall p, p ∈ productions g30 -> p = Production 0 [T 2] \/ p = Production 0 [T 2; T 3]) as Hin.
  { intros p Hp. apply (prods_forall (fun p => bool_decide (p = Production 0 [T 2] \/ p = Production 0 [T 2; T 3]))) in Hp; [|by vm_compute].
    by apply bool_decide_eq_true in Hp. }
  split_and!; [apply closedb_closed; by vm_compute|..].
  - intros H. assert (Production 0 [T 2] = Production 0 [T 2; T 3]) as E; [|discriminate E].
    apply (H _ _ 2); [apply in_prods; by vm_compute|apply in_prods; by vm_compute|done| |].
    all: left; by eexists; apply rtc_refl.
  - intros A HA. assert (exists B, left_corner (productions g30) A B) as (B & p & α & β & Hp & _ & Hr & Hn).
    { inversion HA; subst; by eauto. }
    destruct (Hin _ Hp) as [-> | ->]; simpl in Hr.
    all: destruct α as [|x [|y α]]; simplify_eq/=; try (destruct α; simplify_eq/=).
Qed.
(** s: s A | B -- left-recursive. *)
Lemma g35_left_recursive : let p := Production 0 [NT 0; T 2] in
  closed (nonterminals (g_vocabulary g35)) (productions g35) /\ 0 ∈ nonterminals (g_vocabulary g35) /\
  p ∈ productions g35 /\ right p = NT (left p) :: [T 2] /\ starts (productions g35) [NT (left p)] 3 /\
  left_recursive (productions g35) 0.
Proof.
  intros p. assert (p ∈ productions g35) as Hp by (apply in_prods; by vm_compute).
  split_and!; [apply closedb_closed; by vm_compute|apply (bool_decide_unpack _); by vm_compute|done|done| |].
  - exists []. eapply rtc_l; [|apply rtc_refl]. apply (rewrites_intro _ [] (Production 0 [T 3]) []). apply in_prods; by vm_compute.
  - apply tc_once. exists p, [], [T 2]. split_and!; [done..|apply rtc_refl].
Qed.
Lemma ex_cycle : tc (table_corner {[ (0, 3) := Production 0 [NT 1; NT 0]; (1, 3) := Production 1 [] ]} 3) 0 0.
Proof.
  apply tc_once. exists (Production 0 [NT 1; NT 0]), [NT 1], []. split_and!; [done..|].
  econstructor; [by rewrite lookup_insert_ne by done; apply lookup_insert|constructor|constructor].
Qed.
Lemma ex_acyclic : forall t A, ~ tc (table_corner ex_tab t) A A.
Proof.
  apply c35_exact. intros v toks i A.
  destruct (c34_parse_terminates _ _ _ _ v toks i A ex_order_ok ex_closed ex_table) as [n Hn]. exists n. by apply (Hn n).
Qed.
Lemma ex_depth : build_table 100 ex_order ex_g = Ret (ex_tab, []) /\ length (ex_toks ++ [tk 1]) = 8 /\ size (nonterminals (g_vocabulary ex_g)) = 3 /\
  parse_ast ex_voc ex_tab (ex_toks ++ [tk 1]) 3 0 0 = OutOfFuel /\
  match parse_ast ex_voc ex_tab (ex_toks ++ [tk 1]) 33 0 0 with Ret (r, 7, []) => True | _ => False end.
Proof. split; [exact ex_table|]. split_and!; by vm_compute. Qed.
