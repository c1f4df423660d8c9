(** ConflictProofs.v -- exactly which conflicts ll1_table reports, and how many. *)
From Verif Require Export GrammarMain.

Lemma ins_fold_warn l tab w p q : fold_left ins l (∅, []) = (tab, w) ->
  ((p, q) ∈ w <-> exists l1 l2 l3 t, l = l1 ++ (q, t) :: l2 ++ (p, t) :: l3 /\ left p = left q /\ forall r, (r, t) ∈ l2 -> left r <> left p).
Proof.
  revert tab w. induction l as [|[p' t] l IH] using rev_ind; intros tab w H.
  - simpl in H. injection H as <- <-. split; [by intros ?%elem_of_nil|]. intros (l1 & l2 & l3 & t & E & _). by destruct l1.
  - rewrite fold_left_app in H. destruct (fold_left ins l (∅, [])) as [tab1 w1] eqn:E.
    specialize (IH _ _ eq_refl). destruct (ins_fold_inv _ _ _ E) as (I1 & I2 & _). clear E.
    simpl in H. unfold ins in H. simpl in H. injection H as _ <-. split.
    + intros Hw. assert ((p, q) ∈ w1 \/ (p = p' /\ tab1 !! (left p', t) = Some q)) as [Hw'|[-> Hq]].
      { destruct (tab1 !! (left p', t)) as [q'|] eqn:Eq; [|by left].
        apply elem_of_app in Hw as [Hw|Hw]; [by left|]. apply elem_of_list_singleton in Hw. injection Hw as -> ->. by right. }
      * apply IH in Hw' as (l1 & l2 & l3 & t' & -> & Hl & Hn). exists l1, l2, (l3 ++ [(p', t)]), t'. split_and!; [|done..].
        by rewrite <- app_assoc; simpl; rewrite <- app_assoc.
      * apply I1 in Hq as [Hl (l1 & l2 & -> & Hn)]. exists l1, l2, [], t. split_and!; [by rewrite <- app_assoc|done|].
        intros r Hr. by apply Hn.
    + intros (l1 & l2 & l3 & t' & E & Hl & Hn). destruct l3 as [|x l3 _] using rev_ind.
      * assert (l = l1 ++ (q, t') :: l2 /\ (p', t) = (p, t')) as [-> [= -> ->]].
        { apply app_inj_tail. rewrite E. by rewrite <- app_assoc. }
        assert (tab1 !! (left p, t') = Some q) as Hq.
        { destruct (I2 q t') as [r Hr]; [set_solver|]. rewrite <- Hl in Hr. rewrite Hr. f_equal.
          destruct (I1 _ _ _ Hr) as [Hlr (k1 & k2 & Ek & Hk)].
          apply app_eq_app in Ek as (m & [[-> Em]|[-> Em]]).
          - destruct m as [|y m]; simpl in Em; injection Em; intros; subst; [done|].
            exfalso. apply (Hk q); [set_solver|done].
          - destruct m as [|y m]; simpl in Em; injection Em; intros; subst; [done|].
            exfalso. apply (Hn r); [set_solver|done]. }
        rewrite Hq. set_solver.
      * assert (l = l1 ++ (q, t') :: l2 ++ (p, t') :: l3) as ->.
        { eapply (app_inj_tail l). rewrite E. rewrite <- !app_assoc. simpl. by rewrite <- app_assoc. }
        assert ((p, q) ∈ w1) as Hw1 by (apply IH; by exists l1, l2, l3, t').
        destruct (tab1 !! _); set_solver.
Qed.

(** The number of warnings: insertions minus cells. *)
Lemma ins_fold_count l tab w : fold_left ins l (∅, []) = (tab, w) -> length w + size (dom tab) = length l.
Proof.
  revert tab w. induction l as [|[p t] l IH] using rev_ind; intros tab w H.
  - simpl in H. injection H as <- <-. rewrite dom_empty_L, size_empty. done.
  - rewrite fold_left_app in H. destruct (fold_left ins l (∅, [])) as [tab1 w1] eqn:E.
    specialize (IH _ _ eq_refl). simpl in H. unfold ins in H. simpl in H. injection H as <- <-.
    rewrite dom_insert_L, app_length. simpl. destruct (tab1 !! (left p, t)) as [q|] eqn:Eq.
    + rewrite app_length. simpl. rewrite subseteq_union_1_L; [lia|]. apply singleton_subseteq_l. by eapply elem_of_dom_2.
    + rewrite size_union, size_singleton; [lia|]. apply disjoint_singleton_l. by apply not_elem_of_dom_2.
Qed.

Lemma pairs_split first follow order l1 q t l : pairs first follow order = l1 ++ (q, t) :: l ->
  exists o1 o2 k1 k2, order = o1 ++ q :: o2 /\ keys first follow q = k1 ++ t :: k2 /\
    l1 = pairs first follow o1 ++ (pair q <$> k1) /\ l = (pair q <$> k2) ++ pairs first follow o2.
Proof.
  revert l1. induction order as [|p order IH]; intros l1 E; [by destruct l1|].
  change (pairs first follow (p :: order)) with ((pair p <$> keys first follow p) ++ pairs first follow order) in E.
  apply app_eq_app in E as (m & [[E1 E2]|[E1 E2]]).
  - destruct m as [|x m]; simpl in E2.
    + rewrite app_nil_r in E1. destruct (IH [] ltac:(by rewrite <- E2)) as (o1 & o2 & k1 & k2 & -> & Hk & Hl & ->).
      exists (p :: o1), o2, k1, k2. split_and!; [done|done| |done]. rewrite <- E1. change (pairs first follow (p :: o1)) with ((pair p <$> keys first follow p) ++ pairs first follow o1).
      rewrite <- app_assoc, <- Hl. by rewrite app_nil_r.
    + injection E2 as <- E2. subst l. apply fmap_app_inv in E1 as (k1 & k2 & -> & E1 & Ek).
      destruct k2 as [|u k2]; [done|]. simpl in E1. injection E1 as -> -> ->. exists [], order, k1, k2.
      split_and!; [done|done|done|done].
  - destruct (IH m E2) as (o1 & o2 & k1 & k2 & -> & Hk & -> & ->).
    exists (p :: o1), o2, k1, k2. split_and!; [done|done| |done]. subst l1.
    change (pairs first follow (p :: o1)) with ((pair p <$> keys first follow p) ++ pairs first follow o1). by rewrite <- app_assoc.
Qed.

Lemma twice_split (t : nat) (X Y a b c : list nat) : NoDup X -> NoDup Y -> X ++ Y = a ++ t :: b ++ t :: c -> t ∈ X /\ t ∈ Y.
Proof.
  intros HX HY E. apply NoDup_ListNoDup in HX, HY. rewrite (NoDup_count_occ Nat.eq_dec) in HX, HY. specialize (HX t). specialize (HY t).
  apply (f_equal (fun l => count_occ Nat.eq_dec l t)) in E. rewrite !count_occ_app in E. simpl in E.
  destruct (Nat.eq_dec t t); [|done]. rewrite count_occ_app in E. simpl in E. destruct (Nat.eq_dec t t); [|done].
  split; apply elem_of_list_In, (count_occ_In Nat.eq_dec); lia.
Qed.
(** The first and the last occurrence of an element *)
Lemma split_first (t : nat) l : t ∈ l -> exists k1 k2, l = k1 ++ t :: k2 /\ t ∉ k1.
Proof.
  induction l as [|x l IH]; [by intros ?%elem_of_nil|]. intros H. destruct (decide (t = x)) as [<-|Hn].
  - exists [], l. split; [done|apply not_elem_of_nil].
  - apply elem_of_cons in H as [->|H]; [done|]. destruct (IH H) as (k1 & k2 & -> & Hk). exists (x :: k1), k2. split; [done|]. by apply not_elem_of_cons.
Qed.
Lemma split_last (t : nat) l : t ∈ l -> exists k1 k2, l = k1 ++ t :: k2 /\ t ∉ k2.
Proof.
  intros H. destruct (split_first t (reverse l)) as (k1 & k2 & E & Hk); [by apply elem_of_reverse|].
  exists (reverse k2), (reverse k1). split; [|by rewrite elem_of_reverse].
  rewrite <- (reverse_involutive l), E, reverse_app, reverse_cons. by rewrite <- app_assoc.
Qed.
Lemma pairs_app first follow o1 o2 : pairs first follow (o1 ++ o2) = pairs first follow o1 ++ pairs first follow o2.
Proof. unfold pairs. by rewrite bind_app. Qed.
Lemma pairs_cons first follow p o : pairs first follow (p :: o) = (pair p <$> keys first follow p) ++ pairs first follow o.
Proof. done. Qed.

Section conflicts.
  Context (P : gset production) (nts : gset nat).
  Context (first : gmap production coll) (follow : gmap nat (gset nat)).
  Context (Hc : cache_exact P first) (Hf : follow_exact P nts follow).
  Context (Hcl : closed nts P).

  (** The keys of a production contain a token twice iff it both starts and follows. *)
  Lemma keys_twice p t : p ∈ P ->
    ((exists k1 k2 k3, keys first follow p = k1 ++ t :: k2 ++ t :: k3 /\ t ∉ k2) <-> starts P (right p) t /\ nullable P (right p) /\ follows P (left p) t).
  Proof using All.
    intros Hp. destruct Hc as [Hd Hex], Hf as [Hd' Hex']. unfold keys.
    assert (p ∈ dom first) as [f Hfp]%elem_of_dom by (by rewrite Hd). rewrite Hfp.
    destruct (Hex _ _ Hfp) as [He Hs].
    assert (left p ∈ dom follow) as [fo Hfo]%elem_of_dom by (rewrite Hd'; by apply Hcl).
    rewrite Hfo. rewrite <- Hs, <- He. fold (follows P (left p) t). rewrite <- (Hex' _ _ Hfo). split.
    - intros (k1 & k2 & k3 & E & _). destruct (allow_epsilon f).
      + apply twice_split in E as [E1 E2]; [|apply NoDup_elements..]. rewrite elem_of_elements in E1, E2. done.
      + apply twice_split in E as [_ E2]; [|apply NoDup_elements|constructor]. by apply elem_of_nil in E2.
    - intros (H1 & H2 & H3). rewrite H2. apply elem_of_elements, split_last in H1 as (a & b & E1 & Hb). apply elem_of_elements, split_first in H3 as (c & d & E2 & Hd2).
      exists a, (b ++ c), d. rewrite E1, E2. split; [|by rewrite elem_of_app; intros [?|?]]. by rewrite <- !app_assoc.
  Qed.

  Lemma warnings_spec order tab w p q : NoDup order -> (forall p, p ∈ order <-> p ∈ P) ->
    ll1_table order first follow = Ret (tab, w) ->
    ((p, q) ∈ w <->
      (exists o1 o2 o3 t, order = o1 ++ q :: o2 ++ p :: o3 /\ left p = left q /\ predicts P p t /\ predicts P q t /\
         forall r, r ∈ o2 -> left r = left p -> ~ predicts P r t) \/
      (p = q /\ p ∈ P /\ exists t, starts P (right p) t /\ nullable P (right p) /\ follows P (left p) t)).
  Proof using All.
    intros Hnd Ho H%ll1_table_pairs. symmetry in H. rewrite (ins_fold_warn _ _ _ p q H). clear H. split.
    - intros (l1 & l2 & l3 & t & E & Hl & Hn). apply pairs_split in E as (o1 & o2 & k1 & k2 & -> & Hk & -> & E).
      assert (q ∈ P) as HqP by (apply Ho; set_solver).
      symmetry in E. apply app_eq_app in E as (m & [[E1 E2]|[E1 E2]]).
      + destruct m as [|x m]; simpl in E2.
        * symmetry in E2. apply (pairs_split first follow o2 [] p t l3) in E2 as (o3 & o4 & k3 & k4 & -> & Hk' & Hm & ->).
          symmetry in Hm. apply app_nil in Hm as [Hm1 Hm2]. destruct k3; [|done]. rewrite app_nil_r in E1.
          assert (p ∈ P) as HpP by (apply Ho; set_solver).
          left. exists o1, o3, o4, t. split_and!; [done|done|..].
          -- apply (elem_of_keys P nts first follow Hc Hf Hcl); [done|]. rewrite Hk'. set_solver.
          -- apply (elem_of_keys P nts first follow Hc Hf Hcl); [done|]. rewrite Hk. set_solver.
          -- intros r Hr Hlr Hpr. apply (elem_of_keys P nts first follow Hc Hf Hcl) in Hpr; [|apply Ho; set_solver].
             assert ((r, t) ∈ pairs first follow o3) as Hin by (by apply elem_of_pairs). rewrite Hm1 in Hin. by apply elem_of_nil in Hin.
        * injection E2 as E2 E3. subst x l3. apply fmap_app_inv in E1 as (k3 & k4 & -> & E4 & ->).
          destruct k4 as [|u k4]; [done|]. simpl in E4. injection E4 as <- <- ->. right. split; [done|]. split; [done|]. exists t.
          apply keys_twice; [done|]. exists k1, k3, k4. split; [done|]. intros Hin. apply (Hn p); [|done]. by apply elem_of_list_fmap_1.
      + apply pairs_split in E2 as (o3 & o4 & k3 & k4 & -> & Hk' & -> & ->).
        assert (p ∈ P) as HpP by (apply Ho; set_solver).
        left. exists o1, o3, o4, t. split_and!; [done|done|..].
        * apply (elem_of_keys P nts first follow Hc Hf Hcl); [done|]. rewrite Hk'. set_solver.
        * apply (elem_of_keys P nts first follow Hc Hf Hcl); [done|]. rewrite Hk. set_solver.
        * intros r Hr Hlr Hpr. apply (elem_of_keys P nts first follow Hc Hf Hcl) in Hpr; [|apply Ho; set_solver].
          apply (Hn r); [|done]. subst l2. apply elem_of_app. right. apply elem_of_app. left. by apply elem_of_pairs.
    - intros [(o1 & o2 & o3 & t & -> & Hl & Hp & Hq & Hn)|(<- & Hp & t & Ht)].
      + assert (q ∈ P) as HqP by (apply Ho; set_solver). assert (p ∈ P) as HpP by (apply Ho; set_solver).
        apply (elem_of_keys P nts first follow Hc Hf Hcl) in Hp, Hq; [|done..].
        apply split_first in Hp as (a & b & Ep & Ha). apply split_last in Hq as (c & d & Eq & Hd).
        exists (pairs first follow o1 ++ (pair q <$> c)), ((pair q <$> d) ++ pairs first follow o2 ++ (pair p <$> a)), ((pair p <$> b) ++ pairs first follow o3), t.
        split_and!; [|done|].
        * rewrite pairs_app, pairs_cons, pairs_app, pairs_cons, Ep, Eq, !fmap_app, !fmap_cons. by repeat first [rewrite <- app_assoc | progress cbn [app]].
        * intros r Hr. rewrite !elem_of_app in Hr. destruct Hr as [Hr|[Hr|Hr]].
          -- apply elem_of_list_fmap in Hr as (u & [= -> <-] & Hu). done.
          -- apply elem_of_pairs in Hr as [Hr1 Hr2]. intros Hlr. apply (Hn r); [done|done|]. apply (elem_of_keys P nts first follow Hc Hf Hcl); [|done].
             apply Ho. set_solver.
          -- apply elem_of_list_fmap in Hr as (u & [= -> <-] & Hu). done.
      + apply keys_twice in Ht as (k1 & k2 & k3 & E & Hn); [|done]. apply Ho in Hp. apply elem_of_list_split in Hp as (o1 & o2 & ->).
        exists (pairs first follow o1 ++ (pair p <$> k1)), (pair p <$> k2), ((pair p <$> k3) ++ pairs first follow o2), t. split_and!; [|done|].
        * rewrite pairs_app, pairs_cons, E, !fmap_app, !fmap_cons, !fmap_app, !fmap_cons. by repeat first [rewrite <- app_assoc | progress cbn [app]].
        * intros r (u & [= -> <-] & Hu)%elem_of_list_fmap. done.
  Qed.
End conflicts.

(** *** The properties *)
Lemma c29_reports g order fuel tab w p q :
  iteration_order g order -> closed (nonterminals (g_vocabulary g)) (productions g) ->
  build_table fuel order g = Ret (tab, w) ->
  ((p, q) ∈ w <->
    (exists o1 o2 o3 t, order = o1 ++ q :: o2 ++ p :: o3 /\ left p = left q /\
       predicts (productions g) p t /\ predicts (productions g) q t /\
       forall r, r ∈ o2 -> left r = left p -> ~ predicts (productions g) r t) \/
    (p = q /\ p ∈ productions g /\
     exists t, starts (productions g) (right p) t /\ nullable (productions g) (right p) /\ follows (productions g) (left p) t)).
Proof.
  intros Ho Hcl H. unfold build_table in H.
  apply rbind_Ret in H as ([first cache] & H1 & H). apply rbind_Ret in H as (follow & H2 & H3).
  pose proof (first_set_exact _ _ _ _ _ Ho H1) as [Hex1 Hex2].
  pose proof (follow_set_exact _ _ _ _ _ Ho Hex1 H2) as Hex3.
  eapply warnings_spec; [exact Hex2|exact Hex3|exact Hcl|by eapply iteration_order_NoDup| |exact H3].
  intros p'. by apply iteration_order_elem.
Qed.
Lemma follow_order_independent g order1 order2 order3 order4 fuel1 fuel2 fuel3 fuel4 out1 out2 follow1 follow2 :
  iteration_order g order1 -> iteration_order g order2 -> iteration_order g order3 -> iteration_order g order4 ->
  first_set fuel1 order1 g = Ret out1 -> follow_set fuel2 order2 g (fst out1) = Ret follow1 ->
  first_set fuel3 order3 g = Ret out2 -> follow_set fuel4 order4 g (fst out2) = Ret follow2 -> follow1 = follow2.
Proof.
  intros H1 H2 H3 H4 F1 W1 F2 W2. destruct out1 as [f1 c1], out2 as [f2 c2].
  destruct (c26_follow_exact _ _ _ _ _ _ _ _ H1 H2 F1 W1) as [D1 E1]. destruct (c26_follow_exact _ _ _ _ _ _ _ _ H3 H4 F2 W2) as [D2 E2].
  apply map_eq. intros A. destruct (follow1 !! A) as [s1|] eqn:L1, (follow2 !! A) as [s2|] eqn:L2.
  - f_equal. apply set_eq. intros t. by rewrite (E1 _ _ L1), (E2 _ _ L2).
  - apply not_elem_of_dom_2 in L2. apply elem_of_dom_2 in L1. congruence.
  - apply not_elem_of_dom_2 in L1. apply elem_of_dom_2 in L2. congruence.
  - done.
Qed.

Lemma pairs_perm first follow o1 o2 : o1 ≡ₚ o2 -> pairs first follow o1 ≡ₚ pairs first follow o2.
Proof. intros H. unfold pairs. by rewrite H. Qed.
Lemma c29_same_number g order1 order2 fuel1 fuel2 tab1 tab2 w1 w2 :
  iteration_order g order1 -> iteration_order g order2 -> closed (nonterminals (g_vocabulary g)) (productions g) ->
  build_table fuel1 order1 g = Ret (tab1, w1) -> build_table fuel2 order2 g = Ret (tab2, w2) -> length w1 = length w2.
Proof.
  intros Ho1 Ho2 Hcl B1 B2.
  assert (dom tab1 = dom tab2) as Hd.
  { destruct (c28_table_entries _ _ _ _ _ Ho1 Hcl B1) as [D1 _]. destruct (c28_table_entries _ _ _ _ _ Ho2 Hcl B2) as [D2 _].
    apply set_eq. intros [A t]. by rewrite !elem_of_dom, D1, D2. }
  unfold build_table in B1, B2.
  apply rbind_Ret in B1 as ([first1 cache1] & F1 & B1). apply rbind_Ret in B1 as (follow1 & W1 & B1).
  apply rbind_Ret in B2 as ([first2 cache2] & F2 & B2). apply rbind_Ret in B2 as (follow2 & W2 & B2).
  pose proof (c24_first_order_independent _ _ _ _ _ _ _ Ho1 Ho2 F1 F2) as [= -> ->].
  pose proof (follow_order_independent _ _ _ _ _ _ _ _ _ _ _ _ _ Ho1 Ho1 Ho2 Ho2 F1 W1 F2 W2) as ->.
  apply ll1_table_pairs in B1, B2. symmetry in B1, B2. apply ins_fold_count in B1, B2. rewrite Hd in B1.
  rewrite (pairs_perm _ _ order1 order2) in B1 by (rewrite Ho1; by symmetry). lia.
Qed.
