(** OrdersProofs.v -- the iteration orders of the FIRST and FOLLOW sets do not matter, except for the order of the conflicts printed. *)
From Verif Require Export Orders TableProofs.

Lemma inserts p l : NoDup l -> forall tab w, exists tab',
  fold_left (table_insert p) l (tab, w) = (tab', w ++ omap (fun t => pair p <$> tab !! (left p, t)) l) /\
  forall k, tab' !! k = if decide (k.1 = left p /\ k.2 ∈ l) then Some p else tab !! k.
Proof.
  induction l as [|t l IH]; intros Hnd tab w.
  - exists tab. split; [by rewrite app_nil_r|]. intros k. destruct (decide _) as [[_ H]|]; [by apply elem_of_nil in H|done].
  - apply NoDup_cons in Hnd as [Ht Hnd]. cbn [fold_left table_insert].
    destruct (IH Hnd (<[(left p, t) := p]> tab) (match tab !! (left p, t) with Some q => w ++ [(p, q)] | None => w end)) as (tab' & E & Hk).
    exists tab'. split.
    + assert (omap (fun t0 => pair p <$> (<[(left p, t) := p]> tab) !! (left p, t0)) l = omap (fun t0 => pair p <$> tab !! (left p, t0)) l) as K.
      { clear -Ht. induction l as [|u l IH]; [done|]. apply not_elem_of_cons in Ht as [Hu Hl]. simpl.
        rewrite lookup_insert_ne by congruence. destruct (tab !! (left p, u)); simpl; [f_equal|]; exact (IH Hl). }
      rewrite E, K. simpl. destruct (tab !! (left p, t)) as [q|]; simpl; [by rewrite <- app_assoc|done].
    + intros [a b]. rewrite Hk. cbn [fst snd]. destruct (decide (a = left p /\ b ∈ l)) as [[-> Hb]|Hn].
      * destruct (decide (left p = left p /\ b ∈ t :: l)) as [|H]; [done|]. exfalso. apply H. split; [done|by apply elem_of_list_further].
      * destruct (decide (a = left p /\ b ∈ t :: l)) as [[-> Hb]|H].
        -- apply elem_of_cons in Hb as [->|Hb]; [by rewrite lookup_insert|]. exfalso. by apply Hn.
        -- rewrite lookup_insert_ne; [done|]. intros [= <- <-]. apply H. split; [done|apply elem_of_list_here].
Qed.
Lemma inserts_perm p l l' tab w w' : NoDup l -> l ≡ₚ l' -> w ≡ₚ w' ->
  exists tab1 w1 w1', fold_left (table_insert p) l (tab, w) = (tab1, w1) /\ fold_left (table_insert p) l' (tab, w') = (tab1, w1') /\ w1 ≡ₚ w1'.
Proof.
  intros Hnd Hp Hw. destruct (inserts p l Hnd tab w) as (t1 & E1 & K1). assert (NoDup l') as Hnd' by (by rewrite <- Hp).
  destruct (inserts p l' Hnd' tab w') as (t2 & E2 & K2). eexists t1, _, _. split; [exact E1|].
  assert (t1 = t2) as ->.
  { apply map_eq. intros k. rewrite K1, K2. destruct (decide (k.1 = left p /\ k.2 ∈ l)) as [[H1 H2]|H]; destruct (decide (k.1 = left p /\ k.2 ∈ l')) as [|H']; try done.
    - exfalso. apply H'. by rewrite <- Hp.
    - exfalso. apply H. by rewrite Hp. }
  split; [exact E2|]. rewrite Hw, Hp. done.
Qed.

Lemma any_step_same first follow tab w w' p : w ≡ₚ w' ->
  (forall st, table_step first follow (tab, w) p = Ret st -> forall st', any_step first follow (tab, w') p st' -> st.1 = st'.1 /\ st.2 ≡ₚ st'.2) /\
  ((exists st, table_step first follow (tab, w) p = Ret st) <-> exists st', any_step first follow (tab, w') p st').
Proof.
  intros Hw. unfold table_step. split.
  - intros st H st' Ha. destruct Ha as [f l Hf He Hl|f l fo l' Hf He Hl Hfo Hl']; rewrite Hf in H; cbn [unwrap rbind] in H; rewrite He in H.
    + injection H as <-. destruct (inserts_perm p (elements (cset f)) l tab w w') as (t1 & w1 & w1' & -> & -> & ?); [apply NoDup_elements|done|done|done].
    + rewrite Hfo in H. cbn [unwrap rbind] in H. injection H as <-.
      destruct (inserts_perm p (elements (cset f)) l tab w w') as (t1 & w1 & w1' & -> & -> & Hw1); [apply NoDup_elements|done|done|].
      destruct (inserts_perm p (elements fo) l' t1 w1 w1') as (t2 & w2 & w2' & -> & -> & Hw2); [apply NoDup_elements|done|done|done].
  - split.
    + intros [st H]. destruct (first !! p) as [f|] eqn:Hf; [|done]. cbn [unwrap rbind] in H. destruct (allow_epsilon f) eqn:He.
      * destruct (follow !! left p) as [fo|] eqn:Hfo; [|done]. eexists. by eapply any_step_follow.
      * eexists. by eapply any_step_first.
    + intros [st' Ha]. destruct Ha as [f l Hf He Hl|f l fo l' Hf He Hl Hfo Hl']; rewrite Hf; cbn [unwrap rbind]; rewrite He; [by eexists|].
      rewrite Hfo. by eexists.
Qed.
Lemma any_rfold first follow order : forall tab w w', w ≡ₚ w' ->
  (forall st, rfold (table_step first follow) order (tab, w) = Ret st -> forall st', any_table first follow order (tab, w') st' -> st.1 = st'.1 /\ st.2 ≡ₚ st'.2) /\
  ((exists st, rfold (table_step first follow) order (tab, w) = Ret st) <-> exists st', any_table first follow order (tab, w') st').
Proof.
  induction order as [|p order IH]; intros tab w w' Hw; cbn [rfold].
  - split.
    + intros st [= <-] st' Ha. inversion Ha; subst. done.
    + split; intros _; eexists; [constructor|done].
  - destruct (any_step_same first follow tab w w' p Hw) as [S1 S2]. split.
    + intros st H st' Ha. apply rbind_Ret in H as ([t1 w1] & H1 & H2). inversion Ha as [|? ? ? [t1' w1'] ? Hs Ht]; subst.
      destruct (S1 _ H1 _ Hs) as [Et Ew]. cbn [fst snd] in Et, Ew. subst t1'. exact (proj1 (IH t1 w1 w1' Ew) st H2 st' Ht).
    + split.
      * intros [st H]. apply rbind_Ret in H as ([t1 w1] & H1 & H2). destruct (proj1 S2 (ex_intro _ _ H1)) as [[t1' w1'] Hs].
        destruct (S1 _ H1 _ Hs) as [Et Ew]. cbn [fst snd] in Et, Ew. subst t1'.
        destruct (proj1 (proj2 (IH t1 w1 w1' Ew)) (ex_intro _ _ H2)) as [st' Ht]. exists st'. by econstructor.
      * intros [st' Ha]. inversion Ha as [|? ? ? [t1' w1'] ? Hs Ht]; subst. destruct (proj2 S2 (ex_intro _ _ Hs)) as [[t1 w1] H1].
        destruct (S1 _ H1 _ Hs) as [Et Ew]. cbn [fst snd] in Et, Ew. subst t1'.
        destruct (proj2 (proj2 (IH t1 w1 w1' Ew)) (ex_intro _ _ Ht)) as [st H2]. exists st. rewrite H1. exact H2.
Qed.

Lemma c29_inner order first follow tab w tab' w' : ll1_table order first follow = Ret (tab, w) -> any_table first follow order (∅, []) (tab', w') ->
  tab' = tab /\ w' ≡ₚ w.
Proof. intros H Ha. destruct (proj1 (any_rfold first follow order ∅ [] [] (Permutation_refl _)) _ H _ Ha) as [E1 E2]. cbn [fst snd] in E1, E2. by rewrite E2. Qed.
Lemma c29_inner_returns order first follow : (exists st, ll1_table order first follow = Ret st) <-> exists st, any_table first follow order (∅, []) st.
Proof. exact (proj2 (any_rfold first follow order ∅ [] [] (Permutation_refl _))). Qed.

(** A -> 2 | 3 | B, B -> 2 | 3 : the two conflicts can be printed in both orders. *)
Definition ex_inner_first : gmap production coll := list_to_map
  [(Production 0 [T 2], Coll false {[2]}); (Production 0 [T 3], Coll false {[3]}); (Production 0 [NT 1], Coll false {[2; 3]})].
Definition ex_inner_order : list production := [Production 0 [T 2]; Production 0 [T 3]; Production 0 [NT 1]].
Lemma ex_inner : exists tab,
  ll1_table ex_inner_order ex_inner_first ∅ = Ret (tab, [(Production 0 [NT 1], Production 0 [T 3]); (Production 0 [NT 1], Production 0 [T 2])]) /\
  any_table ex_inner_first ∅ ex_inner_order (∅, []) (tab, [(Production 0 [NT 1], Production 0 [T 2]); (Production 0 [NT 1], Production 0 [T 3])]).
Proof.
  assert (exists tab, ll1_table ex_inner_order ex_inner_first ∅ = Ret (tab, [(Production 0 [NT 1], Production 0 [T 3]); (Production 0 [NT 1], Production 0 [T 2])])) as [tab E].
  { eexists. vm_compute. reflexivity. }
  assert (exists tab', any_table ex_inner_first ∅ ex_inner_order (∅, []) (tab', [(Production 0 [NT 1], Production 0 [T 2]); (Production 0 [NT 1], Production 0 [T 3])])) as [tab' K].
  { eexists.
    eapply any_table_cons. { eapply (any_step_first _ _ _ _ (Coll false {[2]}) [2]); [by vm_compute|done|by cbn [cset]; rewrite elements_singleton]. }
    eapply any_table_cons. { eapply (any_step_first _ _ _ _ (Coll false {[3]}) [3]); [by vm_compute|done|by cbn [cset]; rewrite elements_singleton]. }
    eapply any_table_cons. { eapply (any_step_first _ _ _ _ (Coll false {[2; 3]}) [2; 3]); [by vm_compute|done|].
      assert (elements (cset (Coll false {[2; 3]})) = [3; 2]) as -> by (by vm_compute). constructor. }
    match goal with |- any_table ?f ?g [] ?a ?b => assert (a = (fst a, snd a)) as Ea by (by destruct a);
      assert (snd a = [(Production 0 [NT 1], Production 0 [T 2]); (Production 0 [NT 1], Production 0 [T 3])]) as Es by (by vm_compute); rewrite Es in Ea; rewrite Ea end.
    constructor. }
  exists tab. split; [exact E|]. by destruct (c29_inner _ _ _ _ _ _ _ E K) as [-> _].
Qed.
