(** TableProofs.v -- correctness of ll1_table. *)
From Verif Require Export FollowProofs.

Definition cache_exact (P : gset production) (cache : gmap production coll) : Prop :=
  dom cache = P /\
  forall p c, cache !! p = Some c ->
    (allow_epsilon c = true <-> nullable P (right p)) /\ (forall t, t ∈ cset c <-> starts P (right p) t).
Definition follow_exact (P : gset production) (nts : gset nat) (follow : gmap nat (gset nat)) : Prop :=
  dom follow = nts /\ forall A s, follow !! A = Some s -> forall t, t ∈ s <-> follows P A t.

(** ** The insertions performed, as one list *)
Definition keys (first : gmap production coll) (follow : gmap nat (gset nat)) (p : production) : list nat :=
  match first !! p with
  | Some f => elements (cset f) ++
      (if allow_epsilon f then match follow !! left p with Some fo => elements fo | None => [] end else [])
  | None => []
  end.
Definition ins (st : table_st) (pt : production * nat) : table_st := table_insert pt.1 st pt.2.
Definition pairs first follow (order : list production) : list (production * nat) :=
  p ← order; pair p <$> keys first follow p.

Lemma fold_left_ins p ts st : fold_left (table_insert p) ts st = fold_left ins (pair p <$> ts) st.
Proof. revert st. induction ts as [|t ts IH]; intros st; simpl; [done|]. apply IH. Qed.

Lemma table_step_keys first follow st p st' :
  table_step first follow st p = Ret st' -> st' = fold_left ins (pair p <$> keys first follow p) st.
Proof.
  unfold table_step, keys. destruct (first !! p) as [f|]; simpl; [|done].
  destruct (allow_epsilon f).
  - destruct (follow !! left p) as [fo|]; simpl; [|done]. intros H. injection H as <-.
    by rewrite !fold_left_ins, fmap_app, fold_left_app.
  - intros H. injection H as <-. rewrite app_nil_r. apply fold_left_ins.
Qed.

Lemma table_rfold_pairs first follow order st st' :
  rfold (table_step first follow) order st = Ret st' ->
  st' = fold_left ins (pairs first follow order) st.
Proof.
  revert st. induction order as [|p order IH]; intros st H; simpl in H.
  - by injection H as <-.
  - apply rbind_Ret in H as (st1 & H1 & H2). apply table_step_keys in H1 as ->.
    apply IH in H2 as ->. unfold pairs. rewrite bind_cons, fold_left_app. done.
Qed.

Lemma ll1_table_pairs order first follow st :
  ll1_table order first follow = Ret st -> st = fold_left ins (pairs first follow order) (∅, []).
Proof. apply table_rfold_pairs. Qed.

Definition tkey (pt : production * nat) : nat * nat := (left pt.1, pt.2).

Lemma NoDup_fmap_inv {A B} (f : A -> B) l x y :
  NoDup (f <$> l) -> x ∈ l -> y ∈ l -> f x = f y -> x = y.
Proof.
  induction l as [|z l IH]; [set_solver|]. rewrite fmap_cons, NoDup_cons. intros [H1 H2] Hx Hy Hf.
  apply elem_of_cons in Hx as [->|Hx]; apply elem_of_cons in Hy as [->|Hy]; [done|..].
  - exfalso. apply H1. rewrite Hf. by apply elem_of_list_fmap_1.
  - exfalso. apply H1. rewrite <- Hf. by apply elem_of_list_fmap_1.
  - by apply IH.
Qed.

Lemma ins_fold_inv l tab w :
  fold_left ins l (∅, []) = (tab, w) ->
  (forall A t p, tab !! (A, t) = Some p -> left p = A /\
     exists l1 l2, l = l1 ++ (p, t) :: l2 /\ forall q, (q, t) ∈ l2 -> left q <> A) /\
  (forall p t, (p, t) ∈ l -> is_Some (tab !! (left p, t))) /\
  (w = [] <-> NoDup (tkey <$> l)) /\
  (forall p q, (p, q) ∈ w -> exists t, (p, t) ∈ l /\ (q, t) ∈ l /\ left p = left q).
Proof.
  revert tab w. induction l as [|[p t] l IH] using rev_ind; intros tab w H.
  - simpl in H. injection H as <- <-. split_and!.
    + intros A t p H. exfalso. eapply (lookup_empty_Some (M:=gmap (nat*nat))), H.
    + set_solver.
    + split; [intros _; constructor|done].
    + set_solver.
  - rewrite fold_left_app in H. destruct (fold_left ins l (∅, [])) as [tab1 w1] eqn:E.
    destruct (IH _ _ eq_refl) as (I1 & I2 & I3 & I4). clear IH E.
    simpl in H. unfold ins in H. simpl in H. injection H as <- <-. split_and!.
    + intros A t' q Hq. destruct (decide ((left p, t) = (A, t'))) as [Heq|Hne].
      * injection Heq as <- <-. rewrite lookup_insert in Hq. injection Hq as <-. split; [done|].
        exists l, []. split; [done|]. set_solver.
      * rewrite lookup_insert_ne in Hq by done. apply I1 in Hq as [Hl (l1 & l2 & -> & Hl2)].
        split; [done|]. exists l1, (l2 ++ [(p, t)]). split; [by rewrite <- (assoc_L (++))|].
        intros q' Hq' HA. apply elem_of_app in Hq' as [Hq'|Hq']; [by eapply Hl2|].
        apply elem_of_list_singleton in Hq'. injection Hq' as -> ->. apply Hne. by rewrite HA.
    + intros q u [Hq|Hq]%elem_of_app.
      * destruct (decide ((left p, t) = (left q, u))) as [Heq|Hne].
        -- rewrite Heq. rewrite lookup_insert. eauto.
        -- rewrite lookup_insert_ne by done. auto.
      * apply elem_of_list_singleton in Hq. simplify_eq. rewrite lookup_insert. eauto.
    + rewrite fmap_app. simpl. destruct (tab1 !! (left p, t)) as [q|] eqn:Eq.
      * split; [by intros [_ ?]%app_nil|]. intros Hnd. exfalso. apply NoDup_app in Hnd as (_ & Hnd & _).
        apply I1 in Eq as [Hl (l1 & l2 & -> & _)]. apply (Hnd (left p, t)); [|set_solver].
        apply elem_of_list_fmap. exists (q, t). split; [unfold tkey; simpl; by rewrite Hl|set_solver].
      * rewrite I3. split.
        -- intros Hnd. apply NoDup_app. split_and!; [done| |apply NoDup_singleton].
           intros k (x & -> & Hx)%elem_of_list_fmap Hk. apply elem_of_list_singleton in Hk.
           destruct x as [q u]. apply I2 in Hx. unfold tkey in Hk. simpl in Hk.
           rewrite Hk, Eq in Hx. by destruct Hx.
        -- intros Hnd. by apply NoDup_app in Hnd as [? _].
    + intros p' q' Hw.
      assert ((p', q') ∈ w1 \/ (p' = p /\ tab1 !! (left p, t) = Some q')) as [Hw'|[-> Hq]].
      { destruct (tab1 !! (left p, t)) as [q|] eqn:Eq; [|by left].
        apply elem_of_app in Hw as [Hw|Hw]; [by left|]. apply elem_of_list_singleton in Hw.
        simplify_eq. by right. }
      * destruct (I4 _ _ Hw') as (u & ? & ? & ?). exists u. set_solver.
      * apply I1 in Hq as [Hl (l1 & l2 & -> & _)]. exists t. split_and!; [set_solver..|done].
Qed.

Lemma elem_of_pairs first follow order p t :
  (p, t) ∈ pairs first follow order <-> p ∈ order /\ t ∈ keys first follow p.
Proof.
  unfold pairs. rewrite elem_of_list_bind. split.
  - intros (q & (u & Heq & Hu)%elem_of_list_fmap & Hq). by simplify_eq.
  - intros [Hp Ht]. exists p. split; [|done]. by apply elem_of_list_fmap_1.
Qed.

Section table.
  Context (P : gset production) (nts : gset nat).
  Context (first : gmap production coll) (follow : gmap nat (gset nat)).
  Context (Hc : cache_exact P first) (Hf : follow_exact P nts follow).
  Context (Hcl : closed nts P).

  Lemma elem_of_keys p t : p ∈ P -> t ∈ keys first follow p <-> predicts P p t.
  Proof using All.
    intros Hp. destruct Hc as [Hd Hex]. unfold keys, predicts.
    assert (p ∈ dom first) as [f Hfp]%elem_of_dom by (by rewrite Hd). rewrite Hfp.
    destruct (Hex _ _ Hfp) as [He Hs]. rewrite elem_of_app, elem_of_elements, Hs.
    destruct Hf as [Hd' Hex'].
    assert (left p ∈ dom follow) as [fo Hfo]%elem_of_dom by (rewrite Hd'; by apply Hcl).
    rewrite Hfo. destruct (allow_epsilon f) eqn:Ef.
    - rewrite elem_of_elements, (Hex' _ _ Hfo). rewrite <- He. tauto.
    - assert (~ nullable P (right p)) by (rewrite <- He; done). set_solver.
  Qed.

  (** A token both starting and following a nullable nonterminal is an LL(1) conflict. *)
  Lemma ll1_no_self_conflict n A t :
    ll1 P -> nullable P [NT A] -> follows P A t -> ~ fst_ P n [NT A] t.
  Proof using.
    intros Hll. revert A. induction n as [n IH] using lt_wf_ind. intros A Hn Hfo Hfst.
    assert (exists p m, p ∈ P /\ left p = A /\ m < n /\ fst_ P m (right p) t) as (p & m & Hp & Hl & Hm & Hfp).
    { inversion Hfst as [|n' p β' t' Hp H1|n' A' β' t' Hn' H1]; subst.
      - exists p, n'. split_and!; [done|done|lia|done].
      - inversion H1. }
    apply nullable_NT in Hn as (q & Hq & Hlq & Hnq).
    assert (p = q) as ->.
    { apply (Hll p q t); [done|done|congruence| |].
      - left. apply starts_iff. eauto.
      - right. by rewrite Hlq. }
    clear Hp Hl. subst A.
    (* walk the nullable right-hand side *)
    assert (forall α β, right q = α ++ β -> fst_ P m β t -> False) as Hwalk; [|by eapply (Hwalk [] (right q))].
    intros α β. revert α. induction β as [|x β IHβ]; intros α Hr Hβ; [inversion Hβ|].
    rewrite Hr in Hnq. apply nullable_app in Hnq as [_ Hnq]. apply nullable_cons in Hnq as [Hnx Hnβ].
    destruct x as [B|u]; [|by apply nullable_T in Hnx].
    assert (fst_ P m [NT B] t \/ fst_ P m β t) as [H|H].
    { inversion Hβ as [|n' p β' t' Hp H1|n' A' β' t' Hn' H1]; subst; [left; by constructor|by right]. }
    - apply (IH m Hm B Hnx); [|done]. apply follows_iff. eapply fol_follow; [exact Hq|exact Hr|exact Hnβ|].
      by apply follows_iff.
    - eapply (IHβ (α ++ [NT B])); [by rewrite <- (assoc_L (++))|done].
  Qed.
  Lemma ll1_self p t :
    ll1 P -> p ∈ P -> nullable P (right p) -> follows P (left p) t -> ~ starts P (right p) t.
  Proof using.
    intros Hll Hp Hn Hfo Hst. 
    assert (starts P [NT (left p)] t) as [n Hfst]%starts_iff by (apply starts_NT; eauto).
    eapply ll1_no_self_conflict; [done| |done|done]. apply nullable_NT. eauto.
  Qed.

  Lemma NoDup_keys p : ll1 P -> p ∈ P -> NoDup (keys first follow p).
  Proof using All.
    intros Hll Hp. pose proof (fun t => elem_of_keys p t Hp) as Hk. unfold keys in *.
    destruct Hc as [Hd Hex], Hf as [Hd' Hex'].
    assert (p ∈ dom first) as [f Hfp]%elem_of_dom by (by rewrite Hd). rewrite Hfp in *.
    destruct (Hex _ _ Hfp) as [He Hs].
    apply NoDup_app. split_and!; [apply NoDup_elements| |].
    - destruct (allow_epsilon f) eqn:Ef; [|set_solver].
      destruct (follow !! left p) as [fo|] eqn:Efo; [|set_solver].
      intros t Ht%elem_of_elements Ht'%elem_of_elements. eapply (ll1_self p t); [done|done|by apply He| |by apply Hs].
      by apply (Hex' _ _ Efo).
    - destruct (allow_epsilon f); [|constructor].
      destruct (follow !! left p); [apply NoDup_elements|constructor].
  Qed.

  Lemma NoDup_pairs order :
    ll1 P -> NoDup order -> (forall p, p ∈ order -> p ∈ P) -> NoDup (tkey <$> pairs first follow order).
  Proof using All.
    intros Hll Hnd Ho. induction order as [|p order IH]; [constructor|].
    apply NoDup_cons in Hnd as [Hp Hnd]. unfold pairs. rewrite bind_cons, fmap_app.
    apply NoDup_app. split_and!.
    - rewrite <- list_fmap_compose. apply NoDup_fmap_2_strong.
      + intros t u _ _ H. unfold tkey in H. by simplify_eq/=.
      + apply NoDup_keys; [done|]. apply Ho. set_solver.
    - intros k (x & -> & (t & -> & Ht)%elem_of_list_fmap)%elem_of_list_fmap (y & Hk & Hy)%elem_of_list_fmap.
      destruct y as [q u]. apply elem_of_pairs in Hy as [Hq Hu]. unfold tkey in Hk. simpl in Hk. injection Hk as Hk1 <-.
      apply elem_of_keys in Ht; [|apply Ho; set_solver]. apply elem_of_keys in Hu; [|apply Ho; set_solver].
      assert (p = q) as ->; [|done]. eapply Hll; [apply Ho; set_solver..|done|done|done].
    - apply IH; [done|set_solver].
  Qed.

  Lemma ll1_table_returns order :
    (forall p, p ∈ order -> p ∈ P) -> exists st, ll1_table order first follow = Ret st.
  Proof using All.
    unfold ll1_table. generalize ((∅, []) : table_st) as st0.
    induction order as [|p order IH]; intros st0 Ho; simpl; [eauto|].
    assert (p ∈ P) as Hp by (apply Ho; set_solver).
    destruct Hc as [Hd Hex], Hf as [Hd' Hex'].
    assert (p ∈ dom first) as [f Hfp]%elem_of_dom by (by rewrite Hd).
    assert (left p ∈ dom follow) as [fo Hfo]%elem_of_dom by (rewrite Hd'; by apply Hcl).
    unfold table_step at 1. rewrite Hfp, Hfo. simpl.
    destruct (allow_epsilon f); simpl; apply IH; set_solver.
  Qed.

  Lemma ll1_table_spec order tab w :
    NoDup order -> (forall p, p ∈ order <-> p ∈ P) ->
    ll1_table order first follow = Ret (tab, w) ->
    (forall A t p, tab !! (A, t) = Some p ->
       p ∈ P /\ left p = A /\ predicts P p t /\
       exists o1 o2, order = o1 ++ p :: o2 /\ forall q, q ∈ o2 -> left q = A -> ~ predicts P q t) /\
    (forall p t, p ∈ P -> predicts P p t -> is_Some (tab !! (left p, t))) /\
    (w = [] <-> ll1 P) /\
    (forall p q, (p, q) ∈ w -> p ∈ P /\ q ∈ P /\ left p = left q /\
        exists t, predicts P p t /\ predicts P q t).
  Proof using All.
    intros Hnd Ho H%ll1_table_pairs. symmetry in H.
    destruct (ins_fold_inv _ _ _ H) as (I1 & I2 & I3 & I4). split_and!.
    - intros A t p Hp. destruct (I1 _ _ _ Hp) as [Hl (l1 & l2 & Heq & Hl2)].
      assert ((p, t) ∈ pairs first follow order) as Hpt by (rewrite Heq; set_solver).
      apply elem_of_pairs in Hpt as [Hpo Hk]. pose proof Hpo as HpP. apply Ho in HpP.
      split_and!; [done|done|by apply elem_of_keys|].
      apply elem_of_list_split in Hpo as (o1 & o2 & ->). exists o1, o2. split; [done|].
      intros q Hq Hlq Hpred. 
      assert (q ∈ P) as HqP by (apply Ho; set_solver).
      assert (p ∉ o1 /\ p ∉ o2) as [Hpo1 Hpo2].
      { apply NoDup_app in Hnd as (_ & Hnd1 & Hnd2). apply NoDup_cons in Hnd2 as [Hnd2 _].
        split; [|done]. intros Hin. apply (Hnd1 p Hin). set_solver. }
      (* the pair (q,t) occurs after all pairs of p *)
      unfold pairs in Heq. rewrite bind_app, bind_cons in Heq.
      change (o1 ≫= (fun p => pair p <$> keys first follow p)) with (pairs first follow o1) in Heq.
      change (o2 ≫= (fun p => pair p <$> keys first follow p)) with (pairs first follow o2) in Heq.
      apply app_three_inv in Heq as [(a2 & Ha & _)|[(r1 & r2 & Hr & _ & ->)|(b1 & Hb & _)]].
      + apply Hpo1. assert ((p, t) ∈ pairs first follow o1) as Hin by (rewrite Ha; set_solver).
        by apply elem_of_pairs in Hin as [? _].
      + apply (Hl2 q); [|done]. apply elem_of_app. right. apply elem_of_pairs. split; [done|]. by apply elem_of_keys.
      + apply Hpo2. assert ((p, t) ∈ pairs first follow o2) as Hin by (rewrite Hb; set_solver).
        by apply elem_of_pairs in Hin as [? _].
    - intros p t Hp Hpr. apply I2, elem_of_pairs. split; [by apply Ho|by apply elem_of_keys].
    - rewrite I3. split.
      + intros Hndp p q t Hp Hq Hl Hpp Hpq.
        assert ((p, t) = (q, t)) as Heq; [|by injection Heq].
        eapply (NoDup_fmap_inv tkey); [done|apply elem_of_pairs..|].
        * split; [by apply Ho|by apply elem_of_keys].
        * split; [by apply Ho|by apply elem_of_keys].
        * unfold tkey. simpl. by rewrite Hl.
      + intros Hll. apply NoDup_pairs; [done|done|]. intros p. apply Ho.
    - intros p q Hw. destruct (I4 _ _ Hw) as (t & Hp & Hq & Hl).
      apply elem_of_pairs in Hp as [Hp Hkp], Hq as [Hq Hkq]. apply Ho in Hp, Hq.
      split_and!; [done..|]. exists t. split; by apply elem_of_keys.
  Qed.
End table.

(** ** All three stages together *)
Definition table_fuel (g : grammar) : nat := first_fuel g `max` follow_fuel g.

Lemma iteration_order_NoDup g order : iteration_order g order -> NoDup order.
Proof. unfold iteration_order. intros ->. apply NoDup_elements. Qed.

Lemma build_table_spec fuel order g tab w :
  iteration_order g order -> closed (nonterminals (g_vocabulary g)) (productions g) ->
  build_table fuel order g = Ret (tab, w) ->
  let P := productions g in
  (forall A t p, tab !! (A, t) = Some p ->
     p ∈ P /\ left p = A /\ predicts P p t /\
     exists o1 o2, order = o1 ++ p :: o2 /\ forall q, q ∈ o2 -> left q = A -> ~ predicts P q t) /\
  (forall p t, p ∈ P -> predicts P p t -> is_Some (tab !! (left p, t))) /\
  (w = [] <-> ll1 P) /\
  (forall p q, (p, q) ∈ w -> p ∈ P /\ q ∈ P /\ left p = left q /\
      exists t, predicts P p t /\ predicts P q t).
Proof.
  intros Ho Hcl H. unfold build_table in H.
  apply rbind_Ret in H as ([first cache] & H1 & H). apply rbind_Ret in H as (follow & H2 & H3).
  pose proof (first_set_exact _ _ _ _ _ Ho H1) as [Hex1 Hex2].
  pose proof (follow_set_exact _ _ _ _ _ Ho Hex1 H2) as Hex3.
  eapply ll1_table_spec; [exact Hex2|exact Hex3|exact Hcl|by eapply iteration_order_NoDup| |exact H3].
  intros p. by apply iteration_order_elem.
Qed.

Lemma build_table_returns fuel order g :
  iteration_order g order -> closed (nonterminals (g_vocabulary g)) (productions g) ->
  0 ∈ nonterminals (g_vocabulary g) -> table_fuel g <= fuel ->
  exists tab w, build_table fuel order g = Ret (tab, w).
Proof.
  intros Ho Hcl H0 Hf. unfold table_fuel in Hf.
  destruct (first_set_returns fuel order g Ho Hcl) as (first & cache & H1); [lia|].
  pose proof (first_set_exact _ _ _ _ _ Ho H1) as [Hex1 Hex2].
  destruct (follow_set_returns fuel order g first Ho Hcl H0 Hex1) as (follow & H2); [lia|].
  pose proof (follow_set_exact _ _ _ _ _ Ho Hex1 H2) as Hex3.
  destruct (ll1_table_returns _ _ _ _ Hex2 Hex3 Hcl order) as ([tab w] & H3).
  { intros p. by apply iteration_order_elem. }
  exists tab, w. unfold build_table. rewrite H1. simpl. rewrite H2. simpl. exact H3.
Qed.

Lemma build_table_ll1 fuel order g tab w :
  iteration_order g order -> closed (nonterminals (g_vocabulary g)) (productions g) ->
  ll1 (productions g) -> build_table fuel order g = Ret (tab, w) ->
  w = [] /\ forall A t p, tab !! (A, t) = Some p <->
     p ∈ productions g /\ left p = A /\ predicts (productions g) p t.
Proof.
  intros Ho Hcl Hll H. destruct (build_table_spec _ _ _ _ _ Ho Hcl H) as (S1 & S2 & S3 & _).
  split; [by apply S3|]. intros A t p. split.
  - intros Hp. destruct (S1 _ _ _ Hp) as (? & ? & ? & _). done.
  - intros (Hp & <- & Hpr). destruct (S2 _ _ Hp Hpr) as [q Hq]. rewrite Hq. f_equal.
    destruct (S1 _ _ _ Hq) as (? & ? & ? & _). by eapply Hll.
Qed.

Lemma build_table_order_indep fuel1 fuel2 order1 order2 g tab1 tab2 w1 w2 :
  iteration_order g order1 -> iteration_order g order2 ->
  closed (nonterminals (g_vocabulary g)) (productions g) -> ll1 (productions g) ->
  build_table fuel1 order1 g = Ret (tab1, w1) -> build_table fuel2 order2 g = Ret (tab2, w2) ->
  tab1 = tab2 /\ w1 = [] /\ w2 = [].
Proof.
  intros Ho1 Ho2 Hcl Hll H1 H2.
  apply build_table_ll1 in H1 as [-> E1]; [|done..]. apply build_table_ll1 in H2 as [-> E2]; [|done..].
  split; [|done]. apply map_eq. intros [A t]. apply option_eq. intros p. by rewrite E1, E2.
Qed.
