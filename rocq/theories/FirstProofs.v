(** FirstProofs.v -- correctness of first_set. *)
From Verif Require Export GrammarLemmas.

Lemma bool_iff (a b : bool) : (Is_true a <-> Is_true b) -> a = b.
Proof. destruct a, b; simpl; tauto. Qed.

Lemma insert_list_spec xs s m :
  insert_list xs (s, m) =
    (list_to_set xs ∪ s, negb (bool_decide ((list_to_set xs : gset nat) ⊆ s)) || m).
Proof.
  revert s m. induction xs as [|x xs IH]; intros s m.
  - simpl. rewrite (left_id_L ∅ (∪)). by rewrite bool_decide_true by set_solver.
  - unfold insert_list in *. simpl. rewrite IH. f_equal; [set_solver|].
    destruct (decide (x ∈ s)).
    + rewrite (bool_decide_true (x ∈ s)) by done. simpl.
      f_equal. f_equal. apply bool_decide_ext. set_solver.
    + rewrite (bool_decide_false (x ∈ s)) by done.
      rewrite (bool_decide_false ({[x]} ∪ _ ⊆ _)) by set_solver.
      simpl. by rewrite orb_true_r.
Qed.

Lemma insert_all_spec c s m :
  insert_all c (s, m) = (c ∪ s, negb (bool_decide (c ⊆ s)) || m).
Proof. unfold insert_all. rewrite insert_list_spec. by rewrite list_to_set_elements_L. Qed.

(** The order in which an inner HashSet is iterated does not matter. *)
Lemma insert_all_perm c xs sm : xs ≡ₚ elements c -> insert_list xs sm = insert_all c sm.
Proof.
  intros Hp. destruct sm as [s m]. rewrite insert_all_spec, insert_list_spec.
  assert (list_to_set xs = c) as ->; [|done].
  rewrite <- (list_to_set_elements_L c). by apply list_to_set_perm_L.
Qed.

Lemma rbind_Ret {A B} (m : res A) (k : A -> res B) b :
  rbind m k = Ret b <-> exists a, m = Ret a /\ k a = Ret b.
Proof.
  split.
  - destruct m as [a| |]; simpl; [eauto|done|done].
  - intros (a & -> & H). done.
Qed.
Lemma unwrap_Ret {A} (o : option A) a : unwrap o = Ret a <-> o = Some a.
Proof. destruct o; simpl; split; intros; by simplify_eq. Qed.
Lemma unwrap_Panic {A} (o : option A) : unwrap o = Panic <-> o = None.
Proof. destruct o; simpl; split; intros; by simplify_eq. Qed.
Lemma unwrap_not_fuel {A} (o : option A) : unwrap o <> OutOfFuel.
Proof. by destruct o. Qed.

(** ** get_first_for_string *)

(** Pure reading of the three loops over a right-hand side. *)
Fixpoint str_eps (first : gmap nat coll) (α : list item) : bool :=
  match α with
  | [] => true
  | NT A :: α' => match first !! A with Some c => allow_epsilon c && str_eps first α' | None => false end
  | T _ :: _ => false
  end.
Fixpoint str_set (first : gmap nat coll) (α : list item) : gset nat :=
  match α with
  | [] => ∅
  | NT A :: α' =>
      match first !! A with
      | Some c => cset c ∪ (if allow_epsilon c then str_set first α' else ∅)
      | None => ∅
      end
  | T t :: _ => {[t]}
  end.
(** every lookup made by the loops succeeds *)
Fixpoint str_ok (first : gmap nat coll) (α : list item) : bool :=
  match α with
  | [] => true
  | NT A :: α' =>
      match first !! A with
      | Some c => if allow_epsilon c then str_ok first α' else true
      | None => false
      end
  | T t :: _ => true
  end.

Lemma gffs_go_spec first α e s :
  get_first_for_string_go α first (Coll e s) =
    if str_ok first α then Ret (Coll (e && str_eps first α) (str_set first α ∪ s)) else Panic.
Proof.
  revert e s. induction α as [|[A|t] α IH]; intros e s; simpl.
  - rewrite andb_true_r. by rewrite (left_id_L ∅ (∪)).
  - destruct (first !! A) as [[e' s']|]; simpl; [|done].
    rewrite insert_all_spec. simpl.
    destruct e'; simpl.
    + rewrite IH. destruct (str_ok first α); [|done].
      f_equal. f_equal. set_solver.
    + rewrite andb_false_r. f_equal. f_equal. set_solver.
  - rewrite andb_false_r. done.
Qed.

Lemma gffs_spec first α :
  get_first_for_string α first =
    if str_ok first α then Ret (Coll (str_eps first α) (str_set first α)) else Panic.
Proof.
  unfold get_first_for_string. rewrite gffs_go_spec. simpl.
  destruct (str_ok _ _); [|done]. f_equal. f_equal. by rewrite (right_id_L ∅ (∪)).
Qed.

Lemma rhs_eps_spec first α :
  rhs_allows_epsilon α first = if str_ok first α then Ret (str_eps first α) else Panic.
Proof.
  induction α as [|[A|t] α IH]; simpl; [done| |done].
  destruct (first !! A) as [[e s]|]; simpl; [|done]. by destruct e.
Qed.

Lemma rhs_first_spec first α s m :
  rhs_first α first (s, m) =
    if str_ok first α
    then Ret (str_set first α ∪ s, negb (bool_decide (str_set first α ⊆ s)) || m) else Panic.
Proof.
  revert s m. induction α as [|[A|t] α IH]; intros s m; simpl.
  - rewrite (left_id_L ∅ (∪)). by rewrite bool_decide_true by set_solver.
  - destruct (first !! A) as [[e' s']|]; simpl; [|done].
    rewrite insert_all_spec.
    destruct e'; simpl.
    + rewrite IH. destruct (str_ok first α); [|done].
      f_equal. f_equal; [set_solver|].
      destruct (decide (s' ⊆ s)).
      * rewrite (bool_decide_true (s' ⊆ s)) by done. simpl. do 2 f_equal.
        apply bool_decide_ext. set_solver.
      * rewrite (bool_decide_false (s' ⊆ s)) by done.
        rewrite (bool_decide_false (s' ∪ _ ⊆ s)) by set_solver. simpl. by rewrite orb_true_r.
    + f_equal. f_equal; [set_solver|]. do 2 f_equal. apply bool_decide_ext. set_solver.
  - f_equal. f_equal. do 2 f_equal. apply bool_decide_ext. set_solver.
Qed.

Lemma gfsfner_spec p t first :
  get_first_set_for_non_epsilon_rule p t first =
    if str_ok first (right p)
    then Ret (Coll (str_eps first (right p)) (str_set first (right p) ∪ cset t),
              negb (bool_decide (str_set first (right p) ⊆ cset t))
                || negb (eqb (allow_epsilon t) (str_eps first (right p))))
    else Panic.
Proof.
  unfold get_first_set_for_non_epsilon_rule. rewrite rhs_eps_spec.
  destruct (str_ok first (right p)) eqn:E; simpl; [|done].
  rewrite rhs_first_spec, E. done.
Qed.

(** The step of first_set as an equation. *)
Lemma first_step_spec result cache m p :
  first_step (result, cache, m) p =
    match cache !! p, str_ok result (right p), result !! left p with
    | Some t, true, Some r =>
        let e := str_eps result (right p) in
        let s := str_set result (right p) in
        Ret (<[left p := Coll (e || allow_epsilon r) (s ∪ cset t ∪ cset r)]> result,
             <[p := Coll e (s ∪ cset t)]> cache,
             negb (bool_decide (s ∪ cset t ⊆ cset r))
               || (e && negb (allow_epsilon r))
               || negb (bool_decide (s ⊆ cset t))
               || negb (eqb (allow_epsilon t) e)
               || m)
    | _, _, _ => Panic
    end.
Proof.
  unfold first_step. destruct (cache !! p) as [t|]; simpl; [|done].
  rewrite gfsfner_spec. destruct (str_ok result (right p)); simpl; [|done].
  destruct (result !! left p) as [r|]; simpl; [|done].
  rewrite insert_all_spec. generalize (str_eps result (right p)) as e. intros e.
  generalize (bool_decide (str_set result (right p) ⊆ cset t)) as b1. intros b1.
  generalize (bool_decide (str_set result (right p) ∪ cset t ⊆ cset r)) as b2. intros b2.
  by destruct e, (allow_epsilon r), (allow_epsilon t), b1, b2, m.
Qed.

Global Arguments first_step : simpl never.

Global Instance coll_eq_dec : EqDecision coll.
Proof. solve_decision. Defined.

(** ** Growth order on states *)
Definition coll_le (c d : coll) : Prop :=
  (allow_epsilon c = true -> allow_epsilon d = true) /\ cset c ⊆ cset d.
Global Instance coll_le_preorder : PreOrder coll_le.
Proof.
  split; [by intros c; split|]. intros c d e [??] [??]. split; [auto|set_solver].
Qed.
Definition map_le `{Countable K} (f g : gmap K coll) : Prop :=
  dom f = dom g /\ forall k c d, f !! k = Some c -> g !! k = Some d -> coll_le c d.
Lemma map_le_refl `{Countable K} (f : gmap K coll) : map_le f f.
Proof. split; [done|]. intros k c d ??. simplify_eq. done. Qed.
Lemma map_le_trans `{Countable K} (f g h : gmap K coll) : map_le f g -> map_le g h -> map_le f h.
Proof.
  intros [H1 H2] [H3 H4]. split; [congruence|]. intros k c d Hc Hd.
  assert (k ∈ dom g) as [e He]%elem_of_dom by (rewrite <- H1; by eapply elem_of_dom_2).
  etrans; [by eapply H2|by eapply H4].
Qed.
Lemma map_le_lookup `{Countable K} (f g : gmap K coll) k c :
  map_le f g -> f !! k = Some c -> exists d, g !! k = Some d /\ coll_le c d.
Proof.
  intros [H1 H2] Hc. assert (k ∈ dom g) as [e He]%elem_of_dom by (rewrite <- H1; by eapply elem_of_dom_2).
  eauto.
Qed.
Lemma map_le_insert `{Countable K} (f : gmap K coll) k c d :
  f !! k = Some c -> coll_le c d -> map_le f (<[k := d]> f).
Proof.
  intros Hc Hle. split.
  - rewrite dom_insert_L. apply elem_of_dom_2 in Hc. set_solver.
  - intros k' c' d' Hc' Hd'. destruct (decide (k = k')) as [->|].
    + rewrite lookup_insert in Hd'. by simplify_eq.
    + rewrite lookup_insert_ne in Hd' by done. by simplify_eq.
Qed.

Lemma str_eps_mono f g α : map_le f g -> str_eps f α = true -> str_eps g α = true.
Proof.
  intros Hle. induction α as [|[A|t] α IH]; simpl; [done| |done].
  destruct (f !! A) as [c|] eqn:E; [|done].
  destruct (map_le_lookup _ _ _ _ Hle E) as (d & -> & [Hd _]).
  rewrite !andb_true_iff. intros [??]. auto.
Qed.
Lemma str_set_mono f g α : map_le f g -> str_set f α ⊆ str_set g α.
Proof.
  intros Hle. induction α as [|[A|t] α IH]; simpl; [done| |done].
  destruct (f !! A) as [c|] eqn:E; [|set_solver].
  destruct (map_le_lookup _ _ _ _ Hle E) as (d & -> & [Hd Hs]).
  destruct (allow_epsilon c) eqn:Ec.
  - rewrite (Hd eq_refl). set_solver.
  - set_solver.
Qed.

(** ** Invariant *)
Section first.
  Context (P : gset production) (nts : gset nat).

  Record first_inv (result : gmap nat coll) (cache : gmap production coll) : Prop := {
    fi_dom : dom result = nts;
    fi_cdom : dom cache = P;
    fi_res : forall A c, result !! A = Some c ->
      (allow_epsilon c = true -> nullable P [NT A]) /\
      (forall t, t ∈ cset c -> starts P [NT A] t);
    fi_cache : forall p c, cache !! p = Some c ->
      (allow_epsilon c = true -> str_eps result (right p) = true) /\
      cset c ⊆ str_set result (right p);
  }.

  Lemma str_eps_sound result α :
    (forall A c, result !! A = Some c -> allow_epsilon c = true -> nullable P [NT A]) ->
    str_eps result α = true -> nullable P α.
  Proof.
    intros Hres. induction α as [|[A|t] α IH]; simpl; [intros; apply nullable_nil| |done].
    destruct (result !! A) as [c|] eqn:E; [|done]. rewrite andb_true_iff. intros [H1 H2].
    apply nullable_cons. eauto.
  Qed.
  Lemma str_set_sound result α t :
    (forall A c, result !! A = Some c -> allow_epsilon c = true -> nullable P [NT A]) ->
    (forall A c t, result !! A = Some c -> t ∈ cset c -> starts P [NT A] t) ->
    t ∈ str_set result α -> starts P α t.
  Proof.
    intros Hres Hres2. induction α as [|[A|u] α IH]; simpl; [set_solver| |].
    - destruct (result !! A) as [c|] eqn:E; [|set_solver]. intros [H|H]%elem_of_union.
      + apply starts_cons. left. eauto.
      + destruct (allow_epsilon c) eqn:Ec; [|set_solver]. apply starts_cons. right. eauto.
    - intros ->%elem_of_singleton. by apply starts_T.
  Qed.

  Lemma first_step_inv result cache m p result' cache' m' :
    p ∈ P -> first_inv result cache ->
    first_step (result, cache, m) p = Ret (result', cache', m') ->
    first_inv result' cache' /\ map_le result result' /\ map_le cache cache'.
  Proof.
    intros Hp [Hd Hcd Hres Hc]. rewrite first_step_spec.
    destruct (cache !! p) as [t|] eqn:Et; [|done].
    destruct (str_ok result (right p)); [|done].
    destruct (result !! left p) as [r|] eqn:Er; [|done].
    intros H. cbv zeta in H. injection H as <- <- _.
    assert (Hn : forall A c, result !! A = Some c -> allow_epsilon c = true -> nullable P [NT A])
      by (intros; by eapply Hres).
    assert (Hst : forall A c t, result !! A = Some c -> t ∈ cset c -> starts P [NT A] t)
      by (intros; by eapply Hres).
    destruct (Hc _ _ Et) as [Hte Hts]. destruct (Hres _ _ Er) as [Hre Hrs].
    assert (Hle : map_le result
      (<[left p := Coll (str_eps result (right p) || allow_epsilon r)
          (str_set result (right p) ∪ cset t ∪ cset r)]> result)).
    { eapply map_le_insert; [done|]. split; simpl; [|set_solver]. intros ->. by rewrite orb_true_r. }
    split_and!; [|done|].
    2: { eapply map_le_insert; [done|]. split; simpl; [auto|set_solver]. }
    split.
    - rewrite dom_insert_L, Hd. apply elem_of_dom_2 in Er. set_solver.
    - rewrite dom_insert_L, Hcd. set_solver.
    - intros A c HA. destruct (decide (A = left p)) as [->|].
      + rewrite lookup_insert in HA. injection HA as <-. simpl. split.
        * intros [H|H]%orb_true_iff; [|auto]. apply nullable_NT. exists p. split_and!; [done..|].
          by eapply str_eps_sound.
        * intros u [[H|H]%elem_of_union|H]%elem_of_union; [..|by auto];
            (apply starts_NT; exists p; split_and!; [done..|]); eapply str_set_sound; eauto.
      + rewrite lookup_insert_ne in HA by done. eauto.
    - intros q c Hq. destruct (decide (q = p)) as [->|].
      + rewrite lookup_insert in Hq. injection Hq as <-. simpl. split.
        * intros. by eapply str_eps_mono.
        * pose proof (str_set_mono _ _ (right p) Hle). set_solver.
      + rewrite lookup_insert_ne in Hq by done. destruct (Hc _ _ Hq) as [H1 H2]. split.
        * intros. eapply str_eps_mono; eauto.
        * pose proof (str_set_mono _ _ (right q) Hle). set_solver.
  Qed.

  (** No modification: the state is unchanged and the production's facts are all present. *)
  Definition first_closed (result : gmap nat coll) (cache : gmap production coll) (p : production) : Prop :=
    exists t r, cache !! p = Some t /\ result !! left p = Some r /\
      str_ok result (right p) = true /\
      allow_epsilon t = str_eps result (right p) /\ str_set result (right p) = cset t /\
      (allow_epsilon t = true -> allow_epsilon r = true) /\ cset t ⊆ cset r.

  Lemma first_step_false result cache m p result' cache' :
    first_inv result cache ->
    first_step (result, cache, m) p = Ret (result', cache', false) ->
    m = false /\ result' = result /\ cache' = cache /\ first_closed result cache p.
  Proof.
    intros [Hd Hcd Hres Hc]. rewrite first_step_spec.
    destruct (cache !! p) as [t|] eqn:Et; [|done].
    destruct (str_ok result (right p)) eqn:Eok; [|done].
    destruct (result !! left p) as [r|] eqn:Er; [|done].
    destruct (Hc _ _ Et) as [Hte Hts].
    intros H. cbv zeta in H. injection H as <- <- Hf.
    apply orb_false_iff in Hf as [Hf ->]. apply orb_false_iff in Hf as [Hf H4].
    apply orb_false_iff in Hf as [Hf H3]. apply orb_false_iff in Hf as [H1 H2].
    apply negb_false_iff, bool_decide_eq_true in H1, H3. apply negb_false_iff, eqb_prop in H4.
    destruct t as [te ts], r as [re rs]. simpl in *. subst te.
    assert (str_set result (right p) ∪ ts = ts) as Heq by set_solver.
    assert (str_eps result (right p) || re = re) as Heq2.
    { destruct (str_eps result (right p)); simpl in *; [|done]. by destruct re. }
    rewrite Heq in *. rewrite Heq2.
    assert (ts ∪ rs = rs) as -> by set_solver.
    rewrite !insert_id by done. split_and!; [done..|].
    exists (Coll (str_eps result (right p)) ts), (Coll re rs). simpl. split_and!; try done.
    - set_solver.
    - intros Ht. rewrite Ht in H2. simpl in H2. by destruct re.
  Qed.

  Lemma first_step_flag result cache p result' cache' m' :
    first_step (result, cache, true) p = Ret (result', cache', m') -> m' = true.
  Proof.
    rewrite first_step_spec.
    destruct (cache !! p) as [t|]; [|done].
    destruct (str_ok result (right p)); [|done].
    destruct (result !! left p) as [r|]; [|done].
    intros H. cbv zeta in H. injection H as _ _ <-. by rewrite !orb_true_r.
  Qed.

  Lemma first_round_inv order result cache m result' cache' m' :
    (forall p, p ∈ order -> p ∈ P) -> first_inv result cache ->
    rfold first_step order (result, cache, m) = Ret (result', cache', m') ->
    first_inv result' cache' /\ map_le result result' /\ map_le cache cache' /\
    (m' = false -> m = false /\ result' = result /\ cache' = cache /\
       forall p, p ∈ order -> first_closed result cache p).
  Proof.
    revert result cache m. induction order as [|p order IH]; intros result cache m Ho Hinv H; simpl in H.
    - simplify_eq. split_and!; [done|apply map_le_refl..|]. intros ->. split_and!; [done..|]. set_solver.
    - apply rbind_Ret in H as ([[r1 c1] m1] & H1 & H2).
      destruct (first_step_inv _ _ _ _ _ _ _ (Ho _ (elem_of_list_here _ _)) Hinv H1) as (Hinv1 & Hle1 & Hle2).
      destruct (IH _ _ _ (fun q Hq => Ho q (elem_of_list_further _ _ _ Hq)) Hinv1 H2) as (Hinv' & Hle1' & Hle2' & Hf).
      split_and!; [done|by eapply map_le_trans|by eapply map_le_trans|].
      intros Hm. destruct (Hf Hm) as (-> & -> & -> & Hcl).
      destruct (first_step_false _ _ _ _ _ _ Hinv H1) as (-> & -> & -> & Hcl1).
      split_and!; [done..|]. intros q [->|Hq]%elem_of_cons; [done|by apply Hcl].
  Qed.

  Lemma first_loop_inv fuel order result cache result' cache' :
    (forall p, p ∈ order <-> p ∈ P) -> first_inv result cache ->
    first_loop fuel order result cache = Ret (result', cache') ->
    first_inv result' cache' /\ forall p, p ∈ P -> first_closed result' cache' p.
  Proof.
    intros Ho. revert result cache. induction fuel as [|fuel IH]; intros result cache Hinv H; simpl in H; [done|].
    apply rbind_Ret in H as ([[r1 c1] m1] & H1 & H2).
    destruct (first_round_inv _ _ _ _ _ _ _ ltac:(intros; by apply Ho) Hinv H1) as (Hinv1 & _ & _ & Hf).
    destruct m1; [by eapply IH|]. simplify_eq/=.
    destruct (Hf eq_refl) as (_ & -> & -> & Hcl). split; [done|]. intros p Hp. apply Hcl, Ho, Hp.
  Qed.

  (** Completeness at a closed state *)
  Lemma closed_nul result cache n α :
    (forall p, p ∈ P -> first_closed result cache p) -> nul P n α -> str_eps result α = true.
  Proof.
    intros Hcl. induction 1 as [n|n p α Hp H1 IH1 H2 IH2]; [done|]. simpl.
    destruct (Hcl p Hp) as (t & r & Ht & Hr & Hok & He & Hs & Her & Hsr). rewrite Hr.
    apply andb_true_iff. split; [|done]. apply Her. by rewrite He.
  Qed.
  Lemma closed_nullable result cache α :
    (forall p, p ∈ P -> first_closed result cache p) -> nullable P α -> str_eps result α = true.
  Proof. intros ? [n Hn]%nullable_iff. by eapply closed_nul. Qed.
  Lemma closed_starts result cache n α t :
    (forall p, p ∈ P -> first_closed result cache p) -> fst_ P n α t -> t ∈ str_set result α.
  Proof.
    intros Hcl. induction 1 as [n t β|n p β t Hp _ IH|n A β t Hn _ IH]; simpl.
    - set_solver.
    - destruct (Hcl p Hp) as (tt & r & Ht & Hr & Hok & He & Hs & Her & Hsr). rewrite Hr. set_solver.
    - apply (closed_nullable _ _ _ Hcl) in Hn. simpl in Hn.
      destruct (result !! A) as [c|]; [|done]. rewrite andb_true_r in Hn. rewrite Hn. set_solver.
  Qed.

  Lemma first_inv_init :
    first_inv (gset_to_gmap (Coll false ∅) nts) (gset_to_gmap (Coll false ∅) P).
  Proof.
    split.
    - by rewrite dom_gset_to_gmap.
    - by rewrite dom_gset_to_gmap.
    - intros A c [_ <-]%lookup_gset_to_gmap_Some. simpl. split; [done|set_solver].
    - intros p c [_ <-]%lookup_gset_to_gmap_Some. simpl. split; [done|set_solver].
  Qed.
End first.

Lemma iteration_order_elem g order p :
  iteration_order g order -> p ∈ order <-> p ∈ productions g.
Proof. unfold iteration_order. intros ->. by rewrite elem_of_elements. Qed.

(** Main correctness statement: whatever [first_set] returns is exact. *)
Lemma first_set_exact fuel order g result cache :
  iteration_order g order -> first_set fuel order g = Ret (result, cache) ->
  (dom result = nonterminals (g_vocabulary g) /\
   forall A c, result !! A = Some c ->
     (allow_epsilon c = true <-> nullable (productions g) [NT A]) /\
     (forall t, t ∈ cset c <-> starts (productions g) [NT A] t)) /\
  (dom cache = productions g /\
   forall p c, cache !! p = Some c ->
     (allow_epsilon c = true <-> nullable (productions g) (right p)) /\
     (forall t, t ∈ cset c <-> starts (productions g) (right p) t)).
Proof.
  intros Hord H.
  pose proof (first_loop_inv _ _ _ _ _ _ _ _
    (fun p => iteration_order_elem g order p Hord) (first_inv_init _ _) H) as [Hinv Hcl].
  destruct Hinv as [Hd Hcd Hres Hc].
  assert (Hn : forall A c, result !! A = Some c -> allow_epsilon c = true -> nullable (productions g) [NT A])
    by (intros; by eapply Hres).
  assert (Hst : forall A c t, result !! A = Some c -> t ∈ cset c -> starts (productions g) [NT A] t)
    by (intros; by eapply Hres).
  split; split; [done| |done|].
  - intros A c HA. split.
    + split; [eauto|]. intros Hnu. eapply closed_nullable in Hnu; [|done].
      simpl in Hnu. rewrite HA in Hnu. by rewrite andb_true_r in Hnu.
    + intros t. split; [eauto|]. intros [n Hf]%starts_iff. eapply closed_starts in Hf; [|done].
      simpl in Hf. rewrite HA in Hf. destruct (allow_epsilon c); set_solver.
  - intros p c Hp. assert (p ∈ productions g) as HpP by (rewrite <- Hcd; by eapply elem_of_dom_2).
    destruct (Hcl p HpP) as (t & r & Ht & Hr & Hok & He & Hs & Her & Hsr). simplify_eq. split.
    + rewrite He. split; [by apply str_eps_sound|]. by eapply closed_nullable.
    + intros t. rewrite <- Hs. split.
      * by apply str_set_sound.
      * intros [n Hf]%starts_iff. by eapply closed_starts.
Qed.

(** ** Termination *)
Definition weight (o : option coll) : nat :=
  match o with None => 0 | Some c => (if allow_epsilon c then 1 else 0) + size (cset c) end.
Lemma weight_le c d : coll_le c d -> weight (Some c) <= weight (Some d).
Proof.
  intros [H1 H2]. simpl. apply subseteq_size in H2.
  destruct (allow_epsilon c), (allow_epsilon d); try lia.
Qed.
Lemma weight_lt c d : coll_le c d -> c <> d -> weight (Some c) < weight (Some d).
Proof.
  intros [H1 H2] Hne. simpl. pose proof (subseteq_size _ _ H2).
  destruct (decide (cset d ⊆ cset c)) as [Hs|Hs].
  - assert (cset c = cset d) as E by set_solver. rewrite E.
    destruct c as [ce cs], d as [de ds]. simpl in *. subst.
    destruct ce, de; try done; [|lia]. by specialize (H1 eq_refl).
  - assert (cset c ⊂ cset d) as Hss by done. apply subset_size in Hss.
    destruct (allow_epsilon c), (allow_epsilon d); try lia.
Qed.
Definition mweight `{Countable K} (f : gmap K coll) (ks : gset K) : nat :=
  sum_list_with (fun k => weight (f !! k)) (elements ks).

Lemma sum_list_with_le {A} (f g : A -> nat) l :
  (forall x, x ∈ l -> f x <= g x) -> sum_list_with f l <= sum_list_with g l.
Proof.
  induction l as [|x l IH]; simpl; [lia|]. intros H.
  pose proof (H x ltac:(set_solver)). specialize (IH ltac:(set_solver)). lia.
Qed.
Lemma sum_list_with_lt {A} (f g : A -> nat) l x :
  (forall x, x ∈ l -> f x <= g x) -> x ∈ l -> f x < g x -> sum_list_with f l < sum_list_with g l.
Proof.
  induction l as [|y l IH]; simpl; [set_solver|]. intros H Hx Hlt.
  pose proof (H y ltac:(set_solver)). 
  pose proof (sum_list_with_le f g l ltac:(set_solver)).
  apply elem_of_cons in Hx as [->|Hx]; [lia|]. specialize (IH ltac:(set_solver) Hx Hlt). lia.
Qed.
Lemma sum_list_with_bound {A} (f : A -> nat) l b :
  (forall x, x ∈ l -> f x <= b) -> sum_list_with f l <= length l * b.
Proof.
  induction l as [|x l IH]; simpl; [lia|]. intros H.
  pose proof (H x ltac:(set_solver)). specialize (IH ltac:(set_solver)). lia.
Qed.

Lemma mweight_le `{Countable K} (f g : gmap K coll) : map_le f g -> mweight f (dom f) <= mweight g (dom g).
Proof.
  intros Hle. pose proof Hle as [Hd _]. rewrite <- Hd. apply sum_list_with_le.
  intros k [c Hc]%elem_of_elements%elem_of_dom. rewrite Hc.
  destruct (map_le_lookup _ _ _ _ Hle Hc) as (d & -> & Hcd). by apply weight_le.
Qed.
Lemma mweight_lt `{Countable K} (f g : gmap K coll) :
  map_le f g -> f <> g -> mweight f (dom f) < mweight g (dom g).
Proof.
  intros Hle Hne. pose proof Hle as [Hd _].
  assert (exists k, k ∈ dom f /\ f !! k <> g !! k) as (k & Hk & Hkne).
  { destruct (decide (set_Forall (fun k => weight (f !! k) = weight (g !! k)) (dom f))) as [Hall|Hex].
    - exfalso. apply Hne. apply map_eq. intros k. destruct (f !! k) as [c|] eqn:Hc.
      + destruct (map_le_lookup _ _ _ _ Hle Hc) as (d & Hd' & Hcd). rewrite Hd'.
        specialize (Hall k ltac:(by eapply elem_of_dom_2)). simpl in Hall. rewrite Hc, Hd' in Hall.
        destruct (decide (allow_epsilon c = allow_epsilon d /\ cset c = cset d)) as [[E1 E2]|E].
        * destruct c, d. simpl in *. by subst.
        * assert (c <> d) as Hcd' by (intros ->; by apply E). pose proof (weight_lt _ _ Hcd Hcd'). lia.
      + symmetry. apply not_elem_of_dom. rewrite <- Hd. by apply not_elem_of_dom.
    - apply not_set_Forall_Exists in Hex; [|apply _]. destruct Hex as (k & Hk & Hkne).
      exists k. split; [done|]. intros E. apply Hkne. simpl. by rewrite E. }
  unfold mweight. rewrite <- Hd. eapply sum_list_with_lt with (x := k).
  - intros k' [c Hc]%elem_of_elements%elem_of_dom. rewrite Hc.
    destruct (map_le_lookup _ _ _ _ Hle Hc) as (d & -> & Hcd). by apply weight_le.
  - by apply elem_of_elements.
  - apply elem_of_dom in Hk as [c Hc]. destruct (map_le_lookup _ _ _ _ Hle Hc) as (d & Hd' & Hcd).
    rewrite Hc, Hd' in *. apply weight_lt; congruence.
Qed.

Lemma first_step_grow P nts result cache m p result' cache' :
  p ∈ P -> first_inv P nts result cache ->
  first_step (result, cache, m) p = Ret (result', cache', true) ->
  m = true \/ result <> result' \/ cache <> cache'.
Proof.
  intros Hp Hinv H. destruct m; [by left|]. right.
  revert H. rewrite first_step_spec.
  destruct (cache !! p) as [t|] eqn:Et; [|done].
  destruct (str_ok result (right p)) eqn:Eok; [|done].
  destruct (result !! left p) as [r|] eqn:Er; [|done].
  intros H. cbv zeta in H.
  destruct (decide (cache !! p = cache' !! p)) as [E1|E1]; [|right; by intros <-].
  destruct (decide (result !! left p = result' !! left p)) as [E2|E2]; [|left; by intros <-].
  exfalso. injection H as <- <- Hf. rewrite lookup_insert, Et in E1. rewrite lookup_insert, Er in E2.
  injection E1 as E1. injection E2 as E2.
  destruct t as [te ts], r as [re rs]. injection E1 as E1 E3. injection E2 as E2 E4.
  simpl in *. rewrite <- E1 in *. rewrite <- E3 in *.
  rewrite !bool_decide_true in Hf by set_solver. rewrite eqb_reflx in Hf. simpl in Hf.
  destruct te, re; simpl in *; done.
Qed.

Lemma first_round_grow P nts order result cache m result' cache' :
  (forall p, p ∈ order -> p ∈ P) -> first_inv P nts result cache ->
  rfold first_step order (result, cache, m) = Ret (result', cache', true) ->
  m = true \/ mweight result (dom result) + mweight cache (dom cache) <
              mweight result' (dom result') + mweight cache' (dom cache').
Proof.
  revert result cache m. induction order as [|p order IH]; intros result cache m Ho Hinv H; simpl in H.
  - simplify_eq. by left.
  - apply rbind_Ret in H as ([[r1 c1] m1] & H1 & H2).
    destruct (first_step_inv _ _ _ _ _ _ _ _ _ (Ho _ (elem_of_list_here _ _)) Hinv H1) as (Hinv1 & Hle1 & Hle2).
    destruct (first_round_inv _ _ _ _ _ _ _ _ _ (fun q Hq => Ho q (elem_of_list_further _ _ _ Hq)) Hinv1 H2) as (_ & Hle3 & Hle4 & _).
    pose proof (mweight_le _ _ Hle1). pose proof (mweight_le _ _ Hle2).
    pose proof (mweight_le _ _ Hle3). pose proof (mweight_le _ _ Hle4).
    destruct (IH _ _ _ (fun q Hq => Ho q (elem_of_list_further _ _ _ Hq)) Hinv1 H2) as [->|Hlt]; [|right; lia].
    destruct (first_step_grow _ _ _ _ _ _ _ _ (Ho _ (elem_of_list_here _ _)) Hinv H1) as [->|[Hne|Hne]]; [by left|right..].
    + pose proof (mweight_lt _ _ Hle1 Hne). lia.
    + pose proof (mweight_lt _ _ Hle2 Hne). lia.
Qed.

(** Terminals occurring in the productions. *)
Definition item_terms (i : item) : gset nat := match i with T t => {[t]} | NT _ => ∅ end.
Definition prod_terms (P : gset production) : gset nat :=
  ⋃ ((fun p => ⋃ (item_terms <$> right p)) <$> elements P).
Lemma elem_of_prod_terms P t : t ∈ prod_terms P <-> exists p, p ∈ P /\ T t ∈ right p.
Proof.
  unfold prod_terms. rewrite elem_of_union_list. split.
  - intros (X & (p & -> & Hp)%elem_of_list_fmap & Ht).
    apply elem_of_union_list in Ht as (Y & (i & -> & Hi)%elem_of_list_fmap & Ht).
    destruct i as [A|u]; simpl in Ht; [set_solver|]. apply elem_of_singleton in Ht as ->.
    exists p. split; [by apply elem_of_elements|done].
  - intros (p & Hp & Hi). eexists. split; [apply elem_of_list_fmap; eexists; split; [reflexivity|by apply elem_of_elements]|].
    apply elem_of_union_list. eexists. split; [apply elem_of_list_fmap; eexists; split; [reflexivity|done]|]. simpl. set_solver.
Qed.
Lemma fst_terms P n α t : fst_ P n α t -> T t ∈ α \/ t ∈ prod_terms P.
Proof.
  induction 1 as [n t β|n p β t Hp _ IH|n A β t Hn _ IH].
  - left. set_solver.
  - right. destruct IH as [H|H]; [|done]. apply elem_of_prod_terms. eauto.
  - destruct IH; [left; set_solver|by right].
Qed.
Lemma starts_terms P α t : starts P α t -> T t ∈ α \/ t ∈ prod_terms P.
Proof. intros [n H]%starts_iff. by eapply fst_terms. Qed.

Definition first_fuel (g : grammar) : nat :=
  S (S ((size (nonterminals (g_vocabulary g)) + size (productions g)) * S (size (prod_terms (productions g))))).

Lemma first_inv_weight P nts result cache :
  first_inv P nts result cache ->
  mweight result (dom result) + mweight cache (dom cache) <=
  (size nts + size P) * S (size (prod_terms P)).
Proof.
  intros [Hd Hcd Hres Hc]. rewrite Nat.mul_add_distr_r. apply Nat.add_le_mono.
  - unfold mweight. rewrite Hd. change (size nts) with (length (elements nts)). apply sum_list_with_bound.
    intros A HA%elem_of_elements. rewrite <- Hd in HA. apply elem_of_dom in HA as [c HA]. rewrite HA. simpl.
    assert (cset c ⊆ prod_terms P) as Hs%subseteq_size.
    { intros t Ht. eapply Hres in Ht; [|done]. apply starts_terms in Ht as [Ht|Ht]; [set_solver|done]. }
    destruct (allow_epsilon c); lia.
  - unfold mweight. rewrite Hcd. change (size P) with (length (elements P)). apply sum_list_with_bound.
    intros p Hp%elem_of_elements. pose proof Hp as Hp'. rewrite <- Hcd in Hp. apply elem_of_dom in Hp as [c Hp]. rewrite Hp. simpl.
    assert (cset c ⊆ prod_terms P) as Hs%subseteq_size.
    { intros t Ht. destruct (Hc _ _ Hp) as [_ Hs]. apply Hs in Ht.
      apply (str_set_sound P) in Ht; [|intros; by eapply Hres..].
      apply starts_terms in Ht as [Ht|Ht]; [|done]. apply elem_of_prod_terms. eauto. }
    destruct (allow_epsilon c); lia.
Qed.

Lemma first_step_not_fuel st p : first_step st p <> OutOfFuel.
Proof.
  destruct st as [[result cache] m]. rewrite first_step_spec.
  destruct (cache !! p), (str_ok result (right p)), (result !! left p); done.
Qed.
Lemma rfold_not_fuel {A S} (f : S -> A -> res S) l s :
  (forall s a, f s a <> OutOfFuel) -> rfold f l s <> OutOfFuel.
Proof.
  intros Hf. revert s. induction l as [|a l IH]; intros s; simpl; [done|].
  specialize (Hf s a). destruct (f s a); simpl; [apply IH|done|done].
Qed.

Lemma first_loop_terminates P nts fuel order result cache :
  (forall p, p ∈ order -> p ∈ P) -> first_inv P nts result cache ->
  (size nts + size P) * S (size (prod_terms P)) <
    fuel + (mweight result (dom result) + mweight cache (dom cache)) ->
  first_loop fuel order result cache <> OutOfFuel.
Proof.
  intros Ho. revert result cache. induction fuel as [|fuel IH]; intros result cache Hinv Hf.
  - pose proof (first_inv_weight _ _ _ _ Hinv). lia.
  - simpl. destruct (rfold first_step order (result, cache, false)) as [[[r1 c1] m1]| |] eqn:E; simpl; [|done|].
    + destruct m1; [|done].
      destruct (first_round_inv _ _ _ _ _ _ _ _ _ Ho Hinv E) as (Hinv1 & _).
      destruct (first_round_grow _ _ _ _ _ _ _ _ Ho Hinv E) as [?|Hlt]; [done|].
      apply IH; [done|]. simpl. lia.
    + exfalso. revert E. apply rfold_not_fuel. apply first_step_not_fuel.
Qed.

Lemma first_set_terminates fuel order g :
  iteration_order g order -> first_fuel g <= fuel -> first_set fuel order g <> OutOfFuel.
Proof.
  intros Hord Hf. unfold first_set.
  eapply (first_loop_terminates (productions g) (nonterminals (g_vocabulary g))).
  - intros p. by apply iteration_order_elem.
  - apply first_inv_init.
  - unfold first_fuel in Hf. lia.
Qed.

(** ** Panics *)
Definition bad_first (nts : gset nat) (P : gset production) : Prop :=
  exists p, p ∈ P /\
    (left p ∉ nts \/ exists α b β, right p = α ++ NT b :: β /\ nullable P α /\ b ∉ nts).

Lemma str_ok_false first α :
  str_ok first α = false <->
  exists α1 b β, α = α1 ++ NT b :: β /\ str_eps first α1 = true /\ first !! b = None.
Proof.
  induction α as [|[A|t] α IH]; simpl.
  - split; [done|]. intros (α1 & b & β & H & _). by destruct α1.
  - destruct (first !! A) as [c|] eqn:E.
    + destruct (allow_epsilon c) eqn:Ec.
      * rewrite IH. split.
        -- intros (α1 & b & β & -> & H1 & H2). exists (NT A :: α1), b, β. simpl. rewrite E, Ec. done.
        -- intros (α1 & b & β & Heq & H1 & H2). destruct α1 as [|x α1]; simplify_eq/=.
           rewrite E, Ec in H1. exists α1, b, β. done.
      * split; [done|]. intros (α1 & b & β & Heq & H1 & H2). destruct α1 as [|x α1]; simplify_eq/=.
        rewrite E, Ec in H1. done.
    + split; [|done]. intros _. exists [], A, α. done.
  - split; [done|]. intros (α1 & b & β & Heq & H1 & H2). destruct α1 as [|x α1]; simplify_eq/=.
Qed.

Lemma first_round_panic P nts order result cache m :
  (forall p, p ∈ order -> p ∈ P) -> first_inv P nts result cache ->
  rfold first_step order (result, cache, m) = Panic -> bad_first nts P.
Proof.
  revert result cache m. induction order as [|p order IH]; intros result cache m Ho Hinv H; simpl in H; [done|].
  destruct (first_step (result, cache, m) p) as [[[r1 c1] m1]| |] eqn:E; simpl in H.
  - destruct (first_step_inv _ _ _ _ _ _ _ _ _ (Ho _ (elem_of_list_here _ _)) Hinv E) as (Hinv1 & _).
    eapply IH; [|done..]. set_solver.
  - assert (Hp : p ∈ P) by (apply Ho; set_solver). rewrite first_step_spec in E.
    destruct Hinv as [Hd Hcd Hres Hc].
    destruct (cache !! p) as [t|] eqn:Et.
    2: { apply not_elem_of_dom in Et. rewrite Hcd in Et. done. }
    exists p. split; [done|].
    destruct (str_ok result (right p)) eqn:Eok.
    + destruct (result !! left p) eqn:El; [done|]. left. rewrite <- Hd. by apply not_elem_of_dom.
    + right. apply str_ok_false in Eok as (α1 & b & β & Heq & H1 & H2).
      exists α1, b, β. split_and!; [done| |].
      * eapply str_eps_sound; [|done]. intros; by eapply Hres.
      * rewrite <- Hd. by apply not_elem_of_dom.
  - by apply first_step_not_fuel in E.
Qed.

Lemma first_loop_panic P nts fuel order result cache :
  (forall p, p ∈ order -> p ∈ P) -> first_inv P nts result cache ->
  first_loop fuel order result cache = Panic -> bad_first nts P.
Proof.
  intros Ho. revert result cache. induction fuel as [|fuel IH]; intros result cache Hinv H; simpl in H; [done|].
  destruct (rfold first_step order (result, cache, false)) as [[[r1 c1] m1]| |] eqn:E; simpl in H.
  - destruct (first_round_inv _ _ _ _ _ _ _ _ _ Ho Hinv E) as (Hinv1 & _).
    destruct m1; [|done]. by eapply IH.
  - by eapply first_round_panic.
  - done.
Qed.

Lemma first_set_panics fuel order g :
  iteration_order g order -> first_fuel g <= fuel ->
  first_set fuel order g = Panic <-> bad_first (nonterminals (g_vocabulary g)) (productions g).
Proof.
  intros Hord Hf. split.
  - intros H. eapply first_loop_panic; [|apply first_inv_init|exact H].
    intros p. by apply iteration_order_elem.
  - intros (p & Hp & Hbad).
    destruct (first_set fuel order g) as [[result cache]| |] eqn:E; [|done|by apply first_set_terminates in E].
    exfalso.
    pose proof (first_loop_inv _ _ _ _ _ _ _ _
      (fun p => iteration_order_elem g order p Hord) (first_inv_init _ _) E) as [[Hd _ _ _] Hcl].
    destruct (Hcl p Hp) as (t & r & Ht & Hr & Hok & He & Hs & Her & Hsr).
    destruct Hbad as [Hl|(α & b & β & Heq & Hn & Hb)].
    + apply Hl. rewrite <- Hd. by eapply elem_of_dom_2.
    + apply not_true_iff_false in Hok; [done|]. apply str_ok_false. exists α, b, β. split_and!; [done| |].
      * by eapply closed_nullable.
      * apply not_elem_of_dom. by rewrite Hd.
Qed.

Lemma closed_not_bad nts P : closed nts P -> ~ bad_first nts P.
Proof.
  intros Hc (p & Hp & [Hl|(α & b & β & Heq & _ & Hb)]).
  - by destruct (Hc p Hp).
  - apply Hb. apply (Hc p Hp). rewrite Heq. set_solver.
Qed.

Lemma first_set_returns fuel order g :
  iteration_order g order -> closed (nonterminals (g_vocabulary g)) (productions g) ->
  first_fuel g <= fuel -> exists result cache, first_set fuel order g = Ret (result, cache).
Proof.
  intros Hord Hcl Hf. destruct (first_set fuel order g) as [[result cache]| |] eqn:E; [eauto|..].
  - apply first_set_panics in E; [|done..]. by apply closed_not_bad in E.
  - by apply first_set_terminates in E.
Qed.

(** The result does not depend on fuel or iteration order. *)
Lemma coll_ext c d : (allow_epsilon c = true <-> allow_epsilon d = true) -> cset c = cset d -> c = d.
Proof.
  destruct c as [ce cs], d as [de ds]. simpl. intros H <-. f_equal. apply bool_iff.
  by rewrite !Is_true_true.
Qed.
Lemma first_set_unique fuel1 fuel2 order1 order2 g r1 r2 :
  iteration_order g order1 -> iteration_order g order2 ->
  first_set fuel1 order1 g = Ret r1 -> first_set fuel2 order2 g = Ret r2 -> r1 = r2.
Proof.
  destruct r1 as [m1 c1], r2 as [m2 c2]. intros Ho1 Ho2 H1 H2.
  apply first_set_exact in H1 as [[D1 E1] [D1' E1']]; [|done].
  apply first_set_exact in H2 as [[D2 E2] [D2' E2']]; [|done].
  f_equal; apply map_eq; intros k.
  - destruct (m1 !! k) as [c|] eqn:Hc.
    + assert (k ∈ dom m2) as [d Hd]%elem_of_dom by (rewrite D2, <- D1; by eapply elem_of_dom_2).
      rewrite Hd. f_equal. apply coll_ext.
      * rewrite (proj1 (E1 _ _ Hc)), (proj1 (E2 _ _ Hd)). done.
      * apply set_eq. intros t. rewrite (proj2 (E1 _ _ Hc)), (proj2 (E2 _ _ Hd)). done.
    + symmetry. apply not_elem_of_dom. rewrite D2, <- D1. by apply not_elem_of_dom.
  - destruct (c1 !! k) as [c|] eqn:Hc.
    + assert (k ∈ dom c2) as [d Hd]%elem_of_dom by (rewrite D2', <- D1'; by eapply elem_of_dom_2).
      rewrite Hd. f_equal. apply coll_ext.
      * rewrite (proj1 (E1' _ _ Hc)), (proj1 (E2' _ _ Hd)). done.
      * apply set_eq. intros t. rewrite (proj2 (E1' _ _ Hc)), (proj2 (E2' _ _ Hd)). done.
    + symmetry. apply not_elem_of_dom. rewrite D2', <- D1'. by apply not_elem_of_dom.
Qed.
