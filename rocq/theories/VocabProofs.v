(** VocabProofs.v -- the vocabulary is a pair of partial bijections. *)
From Verif Require Export SpecVocab.

(** The invariant of every reachable vocabulary. *)
Record vinv (v : vocabulary) : Prop := {
  vi_t : forall n i, t_name_to_id v !! n = Some i <-> t_id_to_name v !! i = Some n;
  vi_n : forall n i, nt_name_to_id v !! n = Some i <-> nt_id_to_name v !! i = Some n;
  vi_td : forall i, i ∈ terminals v <-> is_Some (t_id_to_name v !! i);
  vi_nd : forall i, is_Some (nt_id_to_name v !! i) -> i ∈ nonterminals v;
}.

Lemma vinv_empty : vinv vocabulary_empty.
Proof.
  split; simpl.
  - intros n i. by rewrite !lookup_empty.
  - intros n i. by rewrite !lookup_empty.
  - intros i. rewrite lookup_empty. split; [set_solver|by intros [? ?]].
  - intros i. rewrite lookup_empty. by intros [? ?].
Qed.

Lemma bij_insert (m1 : gmap str nat) (m2 : gmap nat str) n i :
  m1 !! n = None -> m2 !! i = None ->
  (forall n i, m1 !! n = Some i <-> m2 !! i = Some n) ->
  forall n' i', <[n := i]> m1 !! n' = Some i' <-> <[i := n]> m2 !! i' = Some n'.
Proof.
  intros H1 H2 Hb n' i'. rewrite !lookup_insert_Some, Hb. split.
  - intros [[-> ->]|[Hn H]]; [by left|]. right. split; [|done]. intros ->. congruence.
  - intros [[-> ->]|[Hn H]]; [by left|]. right. split; [|done]. intros ->. apply Hb in H. congruence.
Qed.

Lemma not_Some {A} (o : option A) : ~ is_Some o -> o = None.
Proof. by apply eq_None_not_Some. Qed.

Lemma vinv_add_terminal v id name : vinv v -> vinv (fst (add_terminal v id name)).
Proof.
  intros [Ht Hn Htd Hnd]. unfold add_terminal.
  case_bool_decide as E1; [done|]. case_bool_decide as E2; [done|]. apply not_Some in E1.
  split; simpl; [|done| |done].
  - apply bij_insert; [done| |done]. apply not_Some. by rewrite <- Htd.
  - intros i. rewrite elem_of_union, elem_of_singleton, Htd, lookup_insert_is_Some.
    destruct (decide (id = i)); naive_solver.
Qed.
Lemma vinv_add_named v id name : vinv v -> vinv (fst (add_named_nonterminal v id name)).
Proof.
  intros [Ht Hn Htd Hnd]. unfold add_named_nonterminal.
  case_bool_decide as E1; [done|]. case_bool_decide as E2; [done|]. apply not_Some in E1.
  split; simpl; [done| |done|].
  - apply bij_insert; [done| |done]. apply not_Some. intros H. by apply Hnd in H.
  - intros i. rewrite elem_of_union, elem_of_singleton, lookup_insert_is_Some.
    intros [->|[_ H]]; [by left|right; by apply Hnd].
Qed.
Lemma vinv_add_unnamed v id : vinv v -> vinv (fst (add_unnamed_nonterminal v id)).
Proof.
  intros [Ht Hn Htd Hnd]. unfold add_unnamed_nonterminal.
  case_bool_decide as E1; [done|]. case_bool_decide as E2; [done|].
  split; simpl; [done|done|done|]. intros i H. apply elem_of_union_r. by apply Hnd.
Qed.
Lemma vinv_step v o : vinv v -> vinv (fst (vstep v o)).
Proof. destruct o; [apply vinv_add_terminal|apply vinv_add_named|apply vinv_add_unnamed]. Qed.
Lemma vinv_run ops v : vinv v -> vinv (vrun v ops).
Proof. revert v. induction ops as [|o ops IH]; intros v H; simpl; [done|]. by apply IH, vinv_step. Qed.
Lemma vinv_new : vinv vocabulary_new.
Proof. by apply vinv_add_terminal, vinv_add_terminal, vinv_empty. Qed.
Lemma vinv_reach ops : vinv (vrun vocabulary_new ops).
Proof. apply vinv_run, vinv_new. Qed.

Lemma vrun_app v ops1 ops2 : vrun v (ops1 ++ ops2) = vrun (vrun v ops1) ops2.
Proof. revert v. induction ops1 as [|o ops IH]; intros v; simpl; [done|]. apply IH. Qed.

(** ** C01 *)
Lemma c01 ops :
  let v := vrun vocabulary_new ops in
  (forall n i, get_terminal_id_by_name v n = Some i <-> get_terminal_name_by_id v i = Some n) /\
  (forall n i, get_nonterminal_id_by_name v n = Some i <-> get_nonterminal_name_by_id v i = Some n).
Proof. destruct (vinv_reach ops) as [Ht Hn _ _]. done. Qed.

(** ** C02 *)
Lemma c02_terminal v id name v' b :
  add_terminal v id name = (v', b) ->
  (b = true <-> get_terminal_id_by_name v name = None /\ is_terminal_id v id = false) /\
  (b = false -> v' = v) /\
  (b = true ->
     nonterminals_same v v' /\
     (forall n, get_terminal_id_by_name v' n =
        if decide (n = name) then Some id else get_terminal_id_by_name v n) /\
     (forall i, get_terminal_name_by_id v' i =
        if decide (i = id) then Some name else get_terminal_name_by_id v i) /\
     (forall i, is_terminal_id v' i = bool_decide (i = id) || is_terminal_id v i)).
Proof.
  unfold add_terminal, get_terminal_id_by_name, is_terminal_id.
  case_bool_decide as E1.
  { intros [= <- <-]. split_and!; [|done|done]. destruct E1 as [? E1]. rewrite E1. naive_solver. }
  case_bool_decide as E2.
  { intros [= <- <-]. split_and!; [|done|done]. naive_solver. }
  intros [= <- <-]. split_and!; [|done|].
  { split; [|done]. intros _. split; [by apply not_Some|done]. }
  intros _. split_and!; [done|..]; simpl.
  - intros n. case_decide; [subst; apply lookup_insert|by apply lookup_insert_ne].
  - intros n. unfold get_terminal_name_by_id. simpl.
    case_decide; [subst; apply lookup_insert|by apply lookup_insert_ne].
  - intros i. repeat case_bool_decide; set_solver.
Qed.

Lemma c02_named v id name v' b :
  add_named_nonterminal v id name = (v', b) ->
  (b = true <-> get_nonterminal_id_by_name v name = None /\ is_nonterminal_id v id = false) /\
  (b = false -> v' = v) /\
  (b = true ->
     terminals_same v v' /\
     (forall n, get_nonterminal_id_by_name v' n =
        if decide (n = name) then Some id else get_nonterminal_id_by_name v n) /\
     (forall i, get_nonterminal_name_by_id v' i =
        if decide (i = id) then Some name else get_nonterminal_name_by_id v i) /\
     (forall i, is_nonterminal_id v' i = bool_decide (i = id) || is_nonterminal_id v i)).
Proof.
  unfold add_named_nonterminal, get_nonterminal_id_by_name, is_nonterminal_id.
  case_bool_decide as E1.
  { intros [= <- <-]. split_and!; [|done|done]. destruct E1 as [? E1]. rewrite E1. naive_solver. }
  case_bool_decide as E2.
  { intros [= <- <-]. split_and!; [|done|done]. naive_solver. }
  intros [= <- <-]. split_and!; [|done|].
  { split; [|done]. intros _. split; [by apply not_Some|done]. }
  intros _. split_and!; [done|..]; simpl.
  - intros n. case_decide; [subst; apply lookup_insert|by apply lookup_insert_ne].
  - intros n. unfold get_nonterminal_name_by_id. simpl.
    case_decide; [subst; apply lookup_insert|by apply lookup_insert_ne].
  - intros i. repeat case_bool_decide; set_solver.
Qed.

Lemma c02_unnamed ops id v' b :
  let v := vrun vocabulary_new ops in
  add_unnamed_nonterminal v id = (v', b) ->
  (b = true <-> is_nonterminal_id v id = false) /\
  (b = false -> v' = v) /\
  (b = true ->
     terminals_same v v' /\
     (forall n, get_nonterminal_id_by_name v' n = get_nonterminal_id_by_name v n) /\
     (forall i, get_nonterminal_name_by_id v' i = get_nonterminal_name_by_id v i) /\
     get_nonterminal_name_by_id v' id = None /\
     (forall i, is_nonterminal_id v' i = bool_decide (i = id) || is_nonterminal_id v i)).
Proof.
  intros v. pose proof (vinv_reach ops) as [_ _ _ Hnd]. fold v in Hnd. clearbody v.
  unfold add_unnamed_nonterminal, is_nonterminal_id.
  case_bool_decide as E1.
  { intros [= <- <-]. split_and!; [|done|done]. apply Hnd in E1. rewrite bool_decide_true by done. done. }
  case_bool_decide as E2.
  { intros [= <- <-]. split_and!; done. }
  intros [= <- <-]. split_and!; [done|done|].
  intros _. split_and!; [done|done|done| |]; simpl.
  - by apply not_Some.
  - intros i. repeat case_bool_decide; set_solver.
Qed.

(** A binding survives every later call. *)
Lemma step_keeps v o : vinv v ->
  (forall n i, get_terminal_id_by_name v n = Some i -> get_terminal_id_by_name (fst (vstep v o)) n = Some i) /\
  (forall n i, get_nonterminal_id_by_name v n = Some i -> get_nonterminal_id_by_name (fst (vstep v o)) n = Some i) /\
  (forall i, is_terminal_id v i = true -> is_terminal_id (fst (vstep v o)) i = true) /\
  (forall i, is_nonterminal_id v i = true -> get_nonterminal_name_by_id (fst (vstep v o)) i = get_nonterminal_name_by_id v i) /\
  (forall i, is_nonterminal_id v i = true -> is_nonterminal_id (fst (vstep v o)) i = true).
Proof.
  intros Hv. destruct o as [id n|id n|id]; simpl.
  - destruct (add_terminal v id n) as [v' b] eqn:E.
    destruct (c02_terminal _ _ _ _ _ E) as (Hb & Hf & Ht). destruct b; simpl.
    + destruct (Ht eq_refl) as ([N1 [N2 N3]] & T1 & T2 & T3). destruct Hb as [Hb _].
      destruct (Hb eq_refl) as [Hb1 Hb2]. split_and!.
      * intros n' i' H. rewrite T1. case_decide; congruence.
      * intros n' i' H. by rewrite N1.
      * intros i' H. rewrite T3, H. apply orb_true_r.
      * intros i' H. by rewrite N2.
      * intros i' H. by rewrite N3.
    + rewrite Hf by done. done.
  - destruct (add_named_nonterminal v id n) as [v' b] eqn:E.
    destruct (c02_named _ _ _ _ _ E) as (Hb & Hf & Ht). destruct b; simpl.
    + destruct (Ht eq_refl) as ([N1 [N2 N3]] & T1 & T2 & T3). destruct Hb as [Hb _].
      destruct (Hb eq_refl) as [Hb1 Hb2]. split_and!.
      * intros n' i' H. by rewrite N1.
      * intros n' i' H. rewrite T1. case_decide; congruence.
      * intros i' H. by rewrite N3.
      * intros i' H. rewrite T2. case_decide; congruence.
      * intros i' H. rewrite T3, H. apply orb_true_r.
    + rewrite Hf by done. done.
  - unfold add_unnamed_nonterminal. case_bool_decide; [done|]. case_bool_decide; [done|].
    split_and!; try done. intros i. unfold is_nonterminal_id. simpl. rewrite !bool_decide_eq_true. set_solver.
Qed.
Lemma c02_permanent ops more :
  let v := vrun vocabulary_new ops in
  let v' := vrun vocabulary_new (ops ++ more) in
  (forall n i, get_terminal_id_by_name v n = Some i -> get_terminal_id_by_name v' n = Some i) /\
  (forall n i, get_nonterminal_id_by_name v n = Some i -> get_nonterminal_id_by_name v' n = Some i) /\
  (forall i, is_terminal_id v i = true -> is_terminal_id v' i = true) /\
  (forall i, is_nonterminal_id v i = true ->
     is_nonterminal_id v' i = true /\ get_nonterminal_name_by_id v' i = get_nonterminal_name_by_id v i).
Proof.
  intros v v'. unfold v'. rewrite vrun_app. fold v.
  assert (Hv : vinv v) by apply vinv_reach. clearbody v. clear v' ops. revert v Hv.
  induction more as [|o more IH]; intros v Hv; simpl; [done|].
  destruct (step_keeps v o Hv) as (K1 & K2 & K3 & K4 & K5).
  destruct (IH _ (vinv_step v o Hv)) as (I1 & I2 & I3 & I4).
  split_and!; [eauto..|]. intros i Hi. destruct (I4 i (K5 i Hi)) as [? E]. split; [done|].
  by rewrite E, K4.
Qed.

(** ** C03 *)
Lemma c03 ops :
  let v := vrun vocabulary_new ops in
  get_terminal_name_by_id v 0 = Some (lit "_START") /\ get_terminal_id_by_name v (lit "_START") = Some 0 /\
  get_terminal_name_by_id v 1 = Some (lit "_STOP") /\ get_terminal_id_by_name v (lit "_STOP") = Some 1.
Proof.
  intros v. destruct (c02_permanent [] ops) as (H & _). simpl in H. fold v in H.
  destruct (c01 ops) as [Hb _]. fold v in Hb.
  assert (H0 : get_terminal_id_by_name v (lit "_START") = Some 0) by (apply H; by vm_compute).
  assert (H1 : get_terminal_id_by_name v (lit "_STOP") = Some 1) by (apply H; by vm_compute).
  split_and!; try done; by apply Hb.
Qed.

(** ** C04 *)
Lemma succeeded_snoc ops o o' :
  succeeded (ops ++ [o']) o <-> succeeded ops o \/ (o = o' /\ snd (vstep (vrun vocabulary_new ops) o) = true).
Proof.
  split.
  - intros (b & a & E & H). destruct a as [|x a _] using rev_ind.
    + apply app_inj_tail in E as [-> ->]. by right.
    + left. rewrite app_comm_cons, (assoc_L (++)) in E. apply app_inj_tail in E as [-> _]. by exists b, a.
  - intros [(b & a & -> & H)|[-> H]].
    + exists b, (a ++ [o']). by rewrite <- (assoc_L (++)).
    + by exists ops, [].
Qed.

Lemma c04_members ops :
  let v := vrun vocabulary_new ops in
  (forall i, is_terminal_id v i = true <-> i <= 1 \/ exists n, succeeded ops (AddTerminal i n)) /\
  (forall i, is_nonterminal_id v i = true <->
     (exists n, succeeded ops (AddNamed i n)) \/ succeeded ops (AddUnnamed i)) /\
  (forall i n, get_nonterminal_name_by_id v i = Some n <-> succeeded ops (AddNamed i n)).
Proof.
  induction ops as [|o ops IH] using rev_ind; simpl.
  - assert (Hno : forall o, ~ succeeded [] o).
    { intros o (b & a & E & _). by destruct b. }
    split_and!.
    + intros i. split.
      * intros H. left. unfold is_terminal_id in H. apply bool_decide_eq_true in H.
        assert (i = 0 \/ i = 1) as [->| ->]; [|lia..].
        change (terminals vocabulary_new) with ({[1]} ∪ ({[0]} ∪ ∅) : gset nat) in H. set_solver.
      * intros [H|[n H]]; [|by apply Hno in H].
        assert (i = 0 \/ i = 1) as [->| ->] by lia; by vm_compute.
    + intros i. split.
      * unfold is_nonterminal_id. rewrite bool_decide_eq_true.
        change (nonterminals vocabulary_new) with (∅ : gset nat). set_solver.
      * intros [[n H]|H]; by apply Hno in H.
    + intros i n. split.
      * unfold get_nonterminal_name_by_id. change (nt_id_to_name vocabulary_new) with (∅ : gmap nat str).
        by rewrite lookup_empty.
      * intros H; by apply Hno in H.
  - rewrite vrun_app. simpl. simpl in IH. destruct IH as (I1 & I2 & I3).
    set (v := vrun vocabulary_new ops) in *.
    assert (Hs : forall o', succeeded (ops ++ [o]) o' <-> succeeded ops o' \/ (o' = o /\ snd (vstep v o') = true)).
    { intros o'. apply succeeded_snoc. }
    setoid_rewrite Hs. clear Hs.
    destruct o as [id n|id n|id]; simpl.
    + destruct (add_terminal v id n) as [v' b] eqn:E.
      destruct (c02_terminal _ _ _ _ _ E) as (Hb & Hf & Ht). simpl. destruct b.
      * destruct (Ht eq_refl) as ([N1 [N2 N3]] & T1 & T2 & T3). split_and!.
        -- intros i. rewrite T3, orb_true_iff, bool_decide_eq_true, I1. split.
           ++ intros [->|[H|[n' H]]]; [right; exists n; right; by rewrite E|by left|right; eauto].
           ++ intros [H|[n' [H|[[= -> ->] H]]]]; [by right; left|right; right; eauto|by left].
        -- intros i. rewrite N3, I2. naive_solver.
        -- intros i n'. rewrite N2, I3. naive_solver.
      * rewrite Hf by done. split_and!.
        -- intros i. rewrite I1. split; [naive_solver|].
           intros [H|[n' [H|[[= -> ->] H]]]]; [naive_solver..|]. rewrite E in H. done.
        -- intros i. rewrite I2. naive_solver.
        -- intros i n'. rewrite I3. naive_solver.
    + destruct (add_named_nonterminal v id n) as [v' b] eqn:E.
      destruct (c02_named _ _ _ _ _ E) as (Hb & Hf & Ht). simpl. destruct b.
      * destruct (Ht eq_refl) as ([N1 [N2 N3]] & T1 & T2 & T3). split_and!.
        -- intros i. rewrite N3, I1. naive_solver.
        -- intros i. rewrite T3, orb_true_iff, bool_decide_eq_true, I2. split.
           ++ intros [->|[[n' H]|H]]; [left; exists n; right; by rewrite E|naive_solver..].
           ++ intros [[n' [H|[[= -> ->] H]]]|[H|[[=] _]]]; [right; left; eauto|by left|by right; right].
        -- intros i n'. rewrite T2. case_decide as Ei.
           ++ subst. split.
              ** intros [= ->]. right. by rewrite E.
              ** intros [H|[[= ->] _]]; [|done]. apply I3 in H. destruct Hb as [Hb _]. destruct (Hb eq_refl) as [_ Hb2].
                 assert (is_nonterminal_id v id = true) as Hc; [|congruence]. apply I2. left. exists n'. by apply I3.
           ++ rewrite I3. naive_solver.
      * rewrite Hf by done. split_and!.
        -- intros i. rewrite I1. naive_solver.
        -- intros i. rewrite I2. split; [naive_solver|].
           intros [[n' [H|[[= -> ->] H]]]|[H|[[=] _]]]; [naive_solver| |naive_solver]. by rewrite E in H.
        -- intros i n'. rewrite I3. split; [naive_solver|].
           intros [H|[[= -> ->] H]]; [done|]. by rewrite E in H.
    + destruct (add_unnamed_nonterminal v id) as [v' b] eqn:E.
      destruct (c02_unnamed ops id v' b E) as (Hb & Hf & Ht). fold v in Hb, Hf, Ht. simpl. destruct b.
      * destruct (Ht eq_refl) as ([N1 [N2 N3]] & T1 & T2 & T4 & T3). split_and!.
        -- intros i. rewrite N3, I1. naive_solver.
        -- intros i. rewrite T3, orb_true_iff, bool_decide_eq_true, I2. split.
           ++ intros [->|[[n' H]|H]]; [right; right; by rewrite E|naive_solver..].
           ++ intros [[n' [H|[[=] H]]]|[H|[[= ->] _]]]; [right; left; eauto|by right; right|by left].
        -- intros i n'. rewrite T2, I3. naive_solver.
      * rewrite Hf by done. split_and!.
        -- intros i. rewrite I1. naive_solver.
        -- intros i. rewrite I2. split; [naive_solver|].
           intros [[n' [H|[[=] H]]]|[H|[[= ->] H]]]; [naive_solver..|]. by rewrite E in H.
        -- intros i n'. rewrite I3. naive_solver.
Qed.

Lemma c04_names ops i :
  let v := vrun vocabulary_new ops in
  (is_terminal_id v i = true -> exists n, get_terminal_name v i = Ret n /\ get_terminal_id_by_name v n = Some i) /\
  (is_terminal_id v i = false -> get_terminal_name v i = Panic) /\
  (forall n, succeeded ops (AddNamed i n) -> get_nonterminal_name_with_default v i = n) /\
  ((forall n, ~ succeeded ops (AddNamed i n)) -> get_nonterminal_name_with_default v i = usize_to_string i).
Proof.
  intros v. destruct (vinv_reach ops) as [Ht Hn Htd Hnd]. fold v in Ht, Hn, Htd, Hnd.
  destruct (c04_members ops) as (_ & _ & H3). fold v in H3.
  unfold is_terminal_id, get_terminal_name, get_terminal_id_by_name. split_and!.
  - intros H%bool_decide_eq_true. apply Htd in H as [n H]. exists n. rewrite H. split; [done|by apply Ht].
  - intros H%bool_decide_eq_false. rewrite Htd in H. apply not_Some in H. by rewrite H.
  - intros n H. apply H3 in H. unfold get_nonterminal_name_with_default. unfold get_nonterminal_name_by_id in H. by rewrite H.
  - intros H. unfold get_nonterminal_name_with_default. destruct (nt_id_to_name v !! i) as [n|] eqn:E; [|done].
    exfalso. by apply (H n), H3.
Qed.

(** The remaining queries. *)
Lemma c04_queries ops :
  let v := vrun vocabulary_new ops in
  (forall n, is_terminal_name_defined v n = true <-> n = lit "_START" \/ n = lit "_STOP" \/ exists i, succeeded ops (AddTerminal i n)) /\
  (forall n, is_nonterminal_name_defined v n = true <-> exists i, succeeded ops (AddNamed i n)) /\
  (forall i, i ∈ get_all_terminals v <-> i <= 1 \/ exists n, succeeded ops (AddTerminal i n)) /\
  (forall i, i ∈ get_all_nonterminals v <-> (exists n, succeeded ops (AddNamed i n)) \/ succeeded ops (AddUnnamed i)).
Proof.
  intros v. destruct (c04_members ops) as (I1 & I2 & I3). fold v in I1, I2, I3.
  pose proof (vinv_reach ops) as Hv. fold v in Hv. split_and!.
  - intros n. unfold is_terminal_name_defined. rewrite bool_decide_eq_true. unfold v. clear. induction ops as [|o ops IH] using rev_ind.
    + simpl. assert (Hno : forall o, ~ succeeded [] o) by (intros o (b & a & E & _); by destruct b).
      change (t_name_to_id vocabulary_new) with (<[lit "_STOP" := 1]> (<[lit "_START" := 0]> ∅) : gmap str nat). split.
      * intros [i Hi]. apply lookup_insert_Some in Hi as [[<- _]|[_ Hi]]; [by right; left|].
        apply lookup_insert_Some in Hi as [[<- _]|[_ Hi]]; [by left|]. by rewrite lookup_empty in Hi.
      * intros [->|[->|[i Hi]]]; [exists 0; by vm_compute|exists 1; by vm_compute|by apply Hno in Hi].
    + rewrite vrun_app. cbn [vrun fold_left]. setoid_rewrite succeeded_snoc. set (v := vrun vocabulary_new ops) in *.
      destruct o as [id m|id m|id]; cbn [vstep].
      * destruct (add_terminal v id m) as [v' b] eqn:E. destruct (c02_terminal _ _ _ _ _ E) as (Hb & Hf & Ht). cbn [fst].
        destruct b.
        -- destruct (Ht eq_refl) as (_ & T1 & _ & _). unfold get_terminal_id_by_name in T1. rewrite T1. case_decide as Em.
           ++ subst m. split; [|eauto]. intros _. right. right. exists id. right. cbn [vstep]. by rewrite E.
           ++ rewrite IH. split; [naive_solver|]. intros [->|[->|(i & [H|[[= -> ->] _]])]]; [naive_solver..|done].
        -- rewrite Hf by done. rewrite IH. split; [naive_solver|].
           intros [->|[->|(i & [H|[[= -> ->] H]])]]; [naive_solver..|]. cbn [vstep] in H. by rewrite E in H.
      * destruct (add_named_nonterminal v id m) as [v' b] eqn:E. destruct (c02_named _ _ _ _ _ E) as (Hb & Hf & Ht). cbn [fst].
        assert (t_name_to_id v' !! n = t_name_to_id v !! n) as ->; [|rewrite IH; naive_solver].
        destruct b; [|by rewrite Hf]. destruct (Ht eq_refl) as ([N1 _] & _). apply N1.
      * destruct (add_unnamed_nonterminal v id) as [v' b] eqn:E. destruct (c02_unnamed ops id v' b E) as (Hb & Hf & Ht). fold v in Hb, Hf, Ht. cbn [fst].
        assert (t_name_to_id v' !! n = t_name_to_id v !! n) as ->; [|rewrite IH; naive_solver].
        destruct b; [|by rewrite Hf]. destruct (Ht eq_refl) as ([N1 _] & _). apply N1.
  - intros n. unfold is_nonterminal_name_defined. rewrite bool_decide_eq_true. split.
    + intros [i Hi]. exists i. apply I3. by apply (vi_n _ Hv).
    + intros [i Hi]. apply I3 in Hi. apply (vi_n _ Hv) in Hi. by eexists.
  - intros i. unfold get_all_terminals. rewrite <- I1. unfold is_terminal_id. by rewrite bool_decide_eq_true.
  - intros i. unfold get_all_nonterminals. rewrite <- I2. unfold is_nonterminal_id. by rewrite bool_decide_eq_true.
Qed.
