(** FollowProofs.v -- correctness of follow_set. *)
From Verif Require Export FirstProofs.

(** An exact FIRST map, as returned by first_set. *)
Definition first_exact (P : gset production) (nts : gset nat) (first : gmap nat coll) : Prop :=
  dom first = nts /\
  forall A c, first !! A = Some c ->
    (allow_epsilon c = true <-> nullable P [NT A]) /\ (forall t, t ∈ cset c <-> starts P [NT A] t).

Lemma first_set_first_exact fuel order g result cache :
  iteration_order g order -> first_set fuel order g = Ret (result, cache) ->
  first_exact (productions g) (nonterminals (g_vocabulary g)) result.
Proof. intros Ho H. by apply first_set_exact in H as [H _]. Qed.

Lemma str_eps_exact P nts first α :
  first_exact P nts first -> str_ok first α = true -> str_eps first α = true <-> nullable P α.
Proof.
  intros [_ Hex] Hok. split.
  - apply str_eps_sound. intros A c HA. by apply Hex.
  - revert Hok. induction α as [|[A|t] α IH]; simpl; [done| |].
    + destruct (first !! A) as [c|] eqn:E; [|done]. intros Hok [Hn Hα]%nullable_cons.
      apply (Hex _ _ E) in Hn. rewrite Hn in *. simpl. auto.
    + intros _ H. by apply nullable_T in H.
Qed.
Lemma str_set_exact P nts first α t :
  first_exact P nts first -> str_ok first α = true -> t ∈ str_set first α <-> starts P α t.
Proof.
  intros [_ Hex] Hok. split.
  - apply str_set_sound; [intros A c HA; by apply Hex|intros A c u HA; by apply Hex].
  - revert Hok. induction α as [|[A|u] α IH]; simpl.
    + intros _ H. by apply starts_nil in H.
    + destruct (first !! A) as [c|] eqn:E; [|done]. intros Hok [Hs|[Hn Hα]]%starts_cons.
      * apply (Hex _ _ E) in Hs. set_solver.
      * apply (Hex _ _ E) in Hn. rewrite Hn in *. set_solver.
    + intros _ ->%starts_T. set_solver.
Qed.
Lemma str_ok_closed P nts first α :
  first_exact P nts first -> (forall b, NT b ∈ α -> b ∈ nts) -> str_ok first α = true.
Proof.
  intros [Hd Hex] Hcl. induction α as [|[A|u] α IH]; simpl; [done| |done].
  assert (A ∈ dom first) as [c ->]%elem_of_dom by (rewrite Hd; apply Hcl; set_solver).
  destruct (allow_epsilon c); [|done]. apply IH. set_solver.
Qed.

(** get_first_for_string is exact for an exact map. *)
Lemma gffs_exact P nts first α :
  first_exact P nts first -> (forall b, NT b ∈ α -> b ∈ nts) ->
  exists c, get_first_for_string α first = Ret c /\
    (allow_epsilon c = true <-> nullable P α) /\ (forall t, t ∈ cset c <-> starts P α t).
Proof.
  intros Hex Hcl. pose proof (str_ok_closed _ _ _ _ Hex Hcl) as Hok.
  rewrite gffs_spec, Hok. eexists. split; [done|]. simpl. split.
  - by eapply str_eps_exact.
  - intros t. by eapply str_set_exact.
Qed.

(** ** One nonterminal occurrence *)
Definition fadd (first : gmap nat coll) (s : gset nat) (β : list item) : gset nat :=
  str_set first β ∪ (if str_eps first β then s else ∅).

Lemma follow_rhs_NT first lft b β result m :
  follow_rhs first lft (NT b :: β) (result, m) =
    match str_ok first β, result !! lft, result !! b with
    | true, Some s, Some t =>
        follow_rhs first lft β
          (<[b := fadd first s β ∪ t]> result, negb (bool_decide (fadd first s β ⊆ t)) || m)
    | _, _, _ => Panic
    end.
Proof.
  simpl. rewrite gffs_spec. destruct (str_ok first β) eqn:Eok; simpl; [|done].
  destruct (result !! lft) as [s|]; simpl; [|done].
  destruct (result !! b) as [t|]; simpl; [|done].
  unfold fadd. rewrite insert_all_spec. destruct (str_eps first β); simpl.
  - rewrite insert_all_spec. simpl. f_equal. f_equal; [f_equal; set_solver|].
    destruct (decide (str_set first β ⊆ t)).
    + rewrite (bool_decide_true (str_set first β ⊆ t)) by done. simpl. do 2 f_equal.
      apply bool_decide_ext. set_solver.
    + rewrite (bool_decide_false (str_set first β ⊆ t)) by done.
      rewrite (bool_decide_false (_ ∪ _ ⊆ t)) by set_solver. simpl. by rewrite orb_true_r.
  - f_equal. f_equal; [f_equal; set_solver|]. do 2 f_equal. apply bool_decide_ext. set_solver.
Qed.
Lemma follow_rhs_T first lft t β st : follow_rhs first lft (T t :: β) st = follow_rhs first lft β st.
Proof. done. Qed.
Global Arguments follow_rhs : simpl never.

(** Sets as collections, to reuse the growth order. *)
Definition fc (r : gmap nat (gset nat)) : gmap nat coll := Coll false <$> r.
Lemma fc_lookup r k s : r !! k = Some s -> fc r !! k = Some (Coll false s).
Proof. intros H. unfold fc. by rewrite lookup_fmap, H. Qed.
Lemma fc_insert r k s : fc (<[k := s]> r) = <[k := Coll false s]> (fc r).
Proof. unfold fc. by rewrite fmap_insert. Qed.
Lemma fc_dom r : dom (fc r) = dom r.
Proof. unfold fc. by rewrite dom_fmap_L. Qed.
Lemma fc_inj r r' : fc r = fc r' -> r = r'.
Proof.
  intros H. apply map_eq. intros k. apply (f_equal (lookup k)) in H. unfold fc in H.
  rewrite !lookup_fmap in H. destruct (r !! k), (r' !! k); simpl in H; by simplify_eq.
Qed.

Section follow.
  Context (P : gset production) (nts : gset nat) (first : gmap nat coll).
  Context (Hfirst : first_exact P nts first).

  Record follow_inv (result : gmap nat (gset nat)) : Prop := {
    fo_dom : dom result = nts;
    fo_sound : forall B s t, result !! B = Some s -> t ∈ s -> fol P B t;
  }.

  (** The obligation of one occurrence right p = α ++ NT b :: β. *)
  Definition occ_closed (result : gmap nat (gset nat)) (lft b : nat) (β : list item) : Prop :=
    exists s t, result !! lft = Some s /\ result !! b = Some t /\
      str_ok first β = true /\ fadd first s β ⊆ t.

  Lemma follow_rhs_inv p α rhs result m result' m' :
    p ∈ P -> right p = α ++ rhs -> follow_inv result ->
    follow_rhs first (left p) rhs (result, m) = Ret (result', m') ->
    follow_inv result' /\ map_le (fc result) (fc result') /\
    (m' = false -> m = false /\ result' = result /\
       forall α' b β, rhs = α' ++ NT b :: β -> occ_closed result (left p) b β) /\
    (m' = true -> m = true \/ result <> result').
  Proof.
    intros Hp. revert α result m. induction rhs as [|[b|t] β IH]; intros α result m Hr Hinv H.
    - injection H as <- <-. split_and!; [done|apply map_le_refl| |auto].
      intros ->. split_and!; [done..|]. intros α' b β Heq. by destruct α'.
    - rewrite follow_rhs_NT in H.
      destruct (str_ok first β) eqn:Eok; [|done].
      destruct (result !! left p) as [s|] eqn:El; [|done].
      destruct (result !! b) as [t|] eqn:Eb; [|done].
      assert (Hinv1 : follow_inv (<[b := fadd first s β ∪ t]> result)).
      { destruct Hinv as [Hd Hs]. split.
        - rewrite dom_insert_L, Hd. apply elem_of_dom_2 in Eb. set_solver.
        - intros B s' u HB Hu. destruct (decide (B = b)) as [->|].
          + rewrite lookup_insert in HB. injection HB as <-.
            apply elem_of_union in Hu as [Hu|Hu]; [|by eapply Hs].
            unfold fadd in Hu. apply elem_of_union in Hu as [Hu|Hu].
            * eapply fol_first; [done|done|]. by eapply str_set_exact.
            * destruct (str_eps first β) eqn:Ee; [|set_solver].
              eapply fol_follow; [done|done| |by eapply Hs]. by eapply str_eps_exact.
          + rewrite lookup_insert_ne in HB by done. by eapply Hs. }
      assert (Hle : map_le (fc result) (fc (<[b := fadd first s β ∪ t]> result))).
      { rewrite fc_insert. eapply map_le_insert; [by apply fc_lookup|]. split; simpl; [done|set_solver]. }
      assert (Hr' : right p = (α ++ [NT b]) ++ β) by (by rewrite <- (assoc_L (++))).
      destruct (IH _ _ _ Hr' Hinv1 H) as (Hinv' & Hle' & Hf & Ht).
      split_and!; [done|by eapply map_le_trans| |].
      + intros Hm. destruct (Hf Hm) as (Hm1 & -> & Hocc).
        apply orb_false_iff in Hm1 as [Hm1 ->]. apply negb_false_iff, bool_decide_eq_true in Hm1.
        assert (fadd first s β ∪ t = t) as E by set_solver. rewrite E in *.
        rewrite insert_id in * by done. split_and!; [done..|].
        intros α' b' β' Heq. destruct α' as [|x α']; simplify_eq/=.
        * exists s, t. done.
        * by eapply Hocc.
      + intros Hm. destruct m; [by left|]. right. intros <-.
        destruct (decide (fadd first s β ⊆ t)) as [Hsub|Hsub].
        * rewrite bool_decide_true in Ht by done.
          assert (fadd first s β ∪ t = t) as E by set_solver.
          rewrite E, insert_id in Ht by done. destruct (Ht Hm); done.
        * destruct Hle' as [_ Hle']. specialize (Hle' b (Coll false (fadd first s β ∪ t)) (Coll false t)).
          destruct Hle' as [_ Hle']; [apply fc_lookup; by rewrite lookup_insert|by apply fc_lookup|].
          simpl in Hle'. set_solver.
    - rewrite follow_rhs_T in H.
      assert (Hr' : right p = (α ++ [T t]) ++ β) by (by rewrite <- (assoc_L (++))).
      destruct (IH _ _ _ Hr' Hinv H) as (Hinv' & Hle' & Hf & Ht).
      split_and!; [done..| |done]. intros Hm. destruct (Hf Hm) as (-> & -> & Hocc).
      split_and!; [done..|]. intros α' b' β' Heq. destruct α' as [|x α']; simplify_eq/=.
      by eapply Hocc.
  Qed.

  Lemma follow_round_inv order result m result' m' :
    (forall p, p ∈ order -> p ∈ P) -> follow_inv result ->
    rfold (follow_step first) order (result, m) = Ret (result', m') ->
    follow_inv result' /\ map_le (fc result) (fc result') /\
    (m' = false -> m = false /\ result' = result /\
       forall p α b β, p ∈ order -> right p = α ++ NT b :: β -> occ_closed result (left p) b β) /\
    (m' = true -> m = true \/ result <> result').
  Proof.
    revert result m. induction order as [|p order IH]; intros result m Ho Hinv H; simpl in H.
    - injection H as <- <-. split_and!; [done|apply map_le_refl| |auto].
      intros ->. split_and!; [done..|]. intros p α b β Hp. set_solver.
    - apply rbind_Ret in H as ([r1 m1] & H1 & H2). unfold follow_step in H1.
      destruct (follow_rhs_inv p [] (right p) _ _ _ _ (Ho _ (elem_of_list_here _ _)) eq_refl Hinv H1)
        as (Hinv1 & Hle1 & Hf1 & Ht1).
      destruct (IH _ _ (fun q Hq => Ho q (elem_of_list_further _ _ _ Hq)) Hinv1 H2) as (Hinv' & Hle' & Hf & Ht).
      split_and!; [done|by eapply map_le_trans| |].
      + intros Hm. destruct (Hf Hm) as (Hm1 & -> & Hocc). destruct (Hf1 Hm1) as (-> & -> & Hocc1).
        split_and!; [done..|]. intros q α b β [->|Hq]%elem_of_cons Heq; [by eapply Hocc1|by eapply Hocc].
      + intros Hm. destruct (decide (result = result')) as [<-|]; [|by right]. left.
        assert (result = r1) as <-.
        { apply fc_inj. apply map_eq. intros k.
          destruct Hle1 as [Hd1 Hle1], Hle' as [Hd2 Hle2].
          destruct (fc result !! k) as [c|] eqn:Ec.
          - assert (k ∈ dom (fc r1)) as [d Hd]%elem_of_dom by (rewrite <- Hd1; by eapply elem_of_dom_2).
            rewrite Hd. f_equal. destruct (Hle1 _ _ _ Ec Hd), (Hle2 _ _ _ Hd Ec).
            apply coll_ext; [tauto|set_solver].
          - symmetry. apply not_elem_of_dom. rewrite <- Hd1. by apply not_elem_of_dom. }
        destruct (Ht Hm) as [->|?]; [|done]. destruct (Ht1 eq_refl); done.
  Qed.

  Lemma follow_loop_inv fuel order result result' :
    (forall p, p ∈ order <-> p ∈ P) -> follow_inv result ->
    follow_loop fuel order first result = Ret result' ->
    follow_inv result' /\ map_le (fc result) (fc result') /\
    forall p α b β, p ∈ P -> right p = α ++ NT b :: β -> occ_closed result' (left p) b β.
  Proof.
    intros Ho. revert result. induction fuel as [|fuel IH]; intros result Hinv H; simpl in H; [done|].
    apply rbind_Ret in H as ([r1 m1] & H1 & H2).
    destruct (follow_round_inv _ _ _ _ _ (fun p => proj1 (Ho p)) Hinv H1) as (Hinv1 & Hle & Hf & _).
    destruct m1.
    - destruct (IH _ Hinv1 H2) as (? & ? & ?). split_and!; [done|by eapply map_le_trans|done].
    - injection H2 as <-. destruct (Hf eq_refl) as (_ & -> & Hocc). split_and!; [done..|].
      intros p α b β Hp. by apply Hocc, Ho.
  Qed.

  Lemma follow_complete result B t :
    (exists s, result !! 0 = Some s /\ 1 ∈ s) ->
    (forall p α b β, p ∈ P -> right p = α ++ NT b :: β -> occ_closed result (left p) b β) ->
    fol P B t -> exists s, result !! B = Some s /\ t ∈ s.
  Proof.
    intros H0 Hocc. induction 1 as [|p α B β t Hp Hr Hs|p α B β t Hp Hr Hn _ IH]; [done|..].
    - destruct (Hocc _ _ _ _ Hp Hr) as (s & u & Hs' & Hu & Hok & Hsub).
      exists u. split; [done|]. apply Hsub. unfold fadd. apply elem_of_union. left. by eapply str_set_exact.
    - destruct (Hocc _ _ _ _ Hp Hr) as (s & u & Hs' & Hu & Hok & Hsub).
      exists u. split; [done|]. apply Hsub. unfold fadd. apply elem_of_union. right.
      rewrite (proj2 (str_eps_exact _ _ _ _ Hfirst Hok) Hn). destruct IH as (s' & ? & ?). by simplify_eq.
  Qed.

  Lemma follow_inv_init :
    0 ∈ nts -> follow_inv (<[0 := {[1]} ∪ ∅]> (gset_to_gmap ∅ nts)).
  Proof.
    intros H0. split.
    - rewrite dom_insert_L, dom_gset_to_gmap. set_solver.
    - intros B s t HB Ht. destruct (decide (B = 0)) as [->|].
      + rewrite lookup_insert in HB. injection HB as <-. assert (t = 1) as -> by set_solver. constructor.
      + rewrite lookup_insert_ne in HB by done. apply lookup_gset_to_gmap_Some in HB as [_ <-]. set_solver.
  Qed.

  (** Termination *)
  Lemma fol_terms B t : fol P B t -> t = 1 \/ t ∈ prod_terms P.
  Proof.
    induction 1 as [|p α B β t Hp Hr Hs|p α B β t Hp Hr Hn _ IH]; [by left| |done].
    right. apply starts_terms in Hs as [Hs|Hs]; [|done]. apply elem_of_prod_terms. exists p.
    split; [done|]. rewrite Hr. set_solver.
  Qed.
  Lemma follow_inv_weight result :
    follow_inv result ->
    mweight (fc result) (dom (fc result)) <= size nts * size ({[1]} ∪ prod_terms P).
  Proof.
    intros [Hd Hs]. unfold mweight. rewrite fc_dom, Hd.
    change (size nts) with (length (elements nts)). apply sum_list_with_bound.
    intros A HA%elem_of_elements. rewrite <- Hd in HA. apply elem_of_dom in HA as [s HA].
    rewrite (fc_lookup _ _ _ HA). simpl. apply subseteq_size.
    intros t Ht. eapply Hs in Ht; [|done]. apply fol_terms in Ht. set_solver.
  Qed.
  Lemma follow_rhs_not_fuel lft rhs st : follow_rhs first lft rhs st <> OutOfFuel.
  Proof.
    revert st. induction rhs as [|[b|t] β IH]; intros [result m]; [done| |].
    - rewrite follow_rhs_NT. destruct (str_ok first β), (result !! lft), (result !! b); try done; apply IH.
    - apply IH.
  Qed.
  Lemma follow_loop_terminates fuel order result :
    (forall p, p ∈ order -> p ∈ P) -> follow_inv result ->
    size nts * size ({[1]} ∪ prod_terms P) < fuel + mweight (fc result) (dom (fc result)) ->
    follow_loop fuel order first result <> OutOfFuel.
  Proof.
    intros Ho. revert result. induction fuel as [|fuel IH]; intros result Hinv Hf.
    - pose proof (follow_inv_weight _ Hinv). lia.
    - simpl. destruct (rfold (follow_step first) order (result, false)) as [[r1 m1]| |] eqn:E; simpl; [|done|].
      + destruct m1; [|done]. destruct (follow_round_inv _ _ _ _ _ Ho Hinv E) as (Hinv1 & Hle & _ & Ht).
        apply IH; [done|]. destruct (Ht eq_refl) as [?|Hne]; [done|].
        assert (fc result <> fc r1) as Hne' by (by intros ?%fc_inj).
        pose proof (mweight_lt _ _ Hle Hne'). lia.
      + exfalso. revert E. apply rfold_not_fuel. intros. apply follow_rhs_not_fuel.
  Qed.

  (** Panics *)
  Lemma follow_rhs_no_panic lft rhs result m :
    dom result = nts -> lft ∈ nts -> (forall b, NT b ∈ rhs -> b ∈ nts) ->
    follow_rhs first lft rhs (result, m) <> Panic.
  Proof.
    revert result m. induction rhs as [|[b|t] β IH]; intros result m Hd Hl Hcl; [done| |].
    - rewrite follow_rhs_NT.
      assert (str_ok first β = true) as -> by (eapply str_ok_closed; [done|set_solver]).
      pose proof Hl as Hl'. rewrite <- Hd in Hl'. apply elem_of_dom in Hl' as [s ->].
      assert (b ∈ nts) as Hb by set_solver. pose proof Hb as Hb'.
      rewrite <- Hd in Hb'. apply elem_of_dom in Hb' as [t ->].
      apply IH; [|done|set_solver]. rewrite dom_insert_L, Hd. set_solver.
    - rewrite follow_rhs_T. apply IH; [done..|set_solver].
  Qed.
  Lemma follow_round_no_panic order result m :
    closed nts P -> (forall p, p ∈ order -> p ∈ P) -> follow_inv result ->
    rfold (follow_step first) order (result, m) <> Panic.
  Proof.
    intros Hcl. revert result m. induction order as [|p order IH]; intros result m Ho Hinv; simpl; [done|].
    destruct (follow_step first (result, m) p) as [[r1 m1]| |] eqn:E; simpl; [| |done].
    - apply IH; [set_solver|]. 
      by eapply (follow_rhs_inv p [] (right p)) in E as (? & _); [|apply Ho; set_solver|..].
    - exfalso. revert E. apply follow_rhs_no_panic; [apply Hinv|..];
        destruct (Hcl p (Ho _ (elem_of_list_here _ _))); done.
  Qed.
  Lemma follow_loop_no_panic fuel order result :
    closed nts P -> (forall p, p ∈ order -> p ∈ P) -> follow_inv result ->
    follow_loop fuel order first result <> Panic.
  Proof.
    intros Hcl Ho. revert result. induction fuel as [|fuel IH]; intros result Hinv; simpl; [done|].
    destruct (rfold (follow_step first) order (result, false)) as [[r1 m1]| |] eqn:E; simpl; [| |done].
    - destruct m1; [|done]. apply IH. by eapply follow_round_inv in E as (? & _).
    - exfalso. revert E. by apply follow_round_no_panic.
  Qed.
End follow.

Lemma follow_set_unfold fuel order g first :
  follow_set fuel order g first =
    if decide (0 ∈ nonterminals (g_vocabulary g))
    then follow_loop fuel order first (<[0 := {[1]} ∪ ∅]> (gset_to_gmap ∅ (nonterminals (g_vocabulary g))))
    else Panic.
Proof.
  unfold follow_set. rewrite lookup_gset_to_gmap. case_decide.
  - rewrite option_guard_True by done. done.
  - rewrite option_guard_False by done. done.
Qed.

Definition follow_fuel (g : grammar) : nat :=
  S (size (nonterminals (g_vocabulary g)) * size ({[1]} ∪ prod_terms (productions g))).

Lemma follow_set_exact fuel order g first result :
  iteration_order g order ->
  first_exact (productions g) (nonterminals (g_vocabulary g)) first ->
  follow_set fuel order g first = Ret result ->
  dom result = nonterminals (g_vocabulary g) /\
  forall A s, result !! A = Some s -> forall t, t ∈ s <-> follows (productions g) A t.
Proof.
  intros Ho Hex H. rewrite follow_set_unfold in H. case_decide as H0; [|done].
  destruct (follow_loop_inv _ _ _ Hex _ _ _ _
    (fun p => iteration_order_elem g order p Ho) (follow_inv_init _ _ _ Hex H0) H) as (Hinv & Hle & Hocc).
  destruct Hinv as [Hd Hs]. split; [done|]. intros A s HA t. rewrite follows_iff. split; [by eapply Hs|].
  intros Hf. eapply follow_complete in Hf; [|done| |done].
  - destruct Hf as (s' & ? & ?). by simplify_eq.
  - assert (0 ∈ dom result) as [s0 Hs0]%elem_of_dom by (by rewrite Hd).
    exists s0. split; [done|].
    destruct Hle as [_ Hle]. edestruct (Hle 0) as [_ Hsub].
    + apply fc_lookup. by rewrite lookup_insert.
    + by apply fc_lookup.
    + simpl in Hsub. set_solver.
Qed.

Lemma follow_set_terminates fuel order g first :
  iteration_order g order ->
  first_exact (productions g) (nonterminals (g_vocabulary g)) first ->
  follow_fuel g <= fuel -> follow_set fuel order g first <> OutOfFuel.
Proof.
  intros Ho Hex Hf. rewrite follow_set_unfold. case_decide as H0; [|done].
  eapply (follow_loop_terminates (productions g) (nonterminals (g_vocabulary g))); [done| | |].
  - intros p. by apply iteration_order_elem.
  - by eapply follow_inv_init.
  - unfold follow_fuel in Hf. lia.
Qed.

Lemma follow_set_returns fuel order g first :
  iteration_order g order -> closed (nonterminals (g_vocabulary g)) (productions g) ->
  0 ∈ nonterminals (g_vocabulary g) ->
  first_exact (productions g) (nonterminals (g_vocabulary g)) first ->
  follow_fuel g <= fuel -> exists result, follow_set fuel order g first = Ret result.
Proof.
  intros Ho Hcl H0 Hex Hf.
  destruct (follow_set fuel order g first) as [r| |] eqn:E; [eauto|..].
  - exfalso. rewrite follow_set_unfold in E. rewrite decide_True in E by done. revert E.
    eapply follow_loop_no_panic; [done|done| |by eapply follow_inv_init].
    intros p. by apply iteration_order_elem.
  - by apply follow_set_terminates in E.
Qed.

(** follow_set panics on a grammar without rules *)
Lemma follow_set_no_start fuel order g first :
  0 ∉ nonterminals (g_vocabulary g) -> follow_set fuel order g first = Panic.
Proof. intros H. rewrite follow_set_unfold. by rewrite decide_False. Qed.

Lemma follow_set_unique fuel1 fuel2 order1 order2 g first r1 r2 :
  iteration_order g order1 -> iteration_order g order2 ->
  first_exact (productions g) (nonterminals (g_vocabulary g)) first ->
  follow_set fuel1 order1 g first = Ret r1 -> follow_set fuel2 order2 g first = Ret r2 -> r1 = r2.
Proof.
  intros Ho1 Ho2 Hex H1 H2.
  apply follow_set_exact in H1 as [D1 E1]; [|done..].
  apply follow_set_exact in H2 as [D2 E2]; [|done..].
  apply map_eq. intros k. destruct (r1 !! k) as [c|] eqn:Hc.
  - assert (k ∈ dom r2) as [d Hd]%elem_of_dom by (rewrite D2, <- D1; by eapply elem_of_dom_2).
    rewrite Hd. f_equal. apply set_eq. intros t. by rewrite (E1 _ _ Hc), (E2 _ _ Hd).
  - symmetry. apply not_elem_of_dom. rewrite D2, <- D1. by apply not_elem_of_dom.
Qed.
