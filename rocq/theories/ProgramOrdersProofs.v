(** ProgramOrdersProofs.v -- C88: the iteration orders of the FIRST and FOLLOW sets only change the order of the conflict lines. *)
From Verif Require Export ProgramOrders SpecProgram OrdersProofs.

Lemma table_fuel order cache follow : ll1_table order cache follow <> OutOfFuel.
Proof.
  unfold ll1_table. generalize (∅ : table, [] : list (production * production)). induction order as [|p l IH]; intros st; [done|]. cbn [rfold].
  assert (table_step cache follow st p <> OutOfFuel) as K.
  { unfold table_step. destruct (cache !! p) as [f|]; cbn [unwrap rbind]; [|done]. destruct (allow_epsilon f); [|done]. destruct (follow !! left p); done. }
  destruct (table_step cache follow st p); cbn [rbind]; [apply IH|done..].
Qed.
Lemma any_build_same fuel order g x : any_build fuel order g x ->
  match build_table fuel order g, x with
  | Ret (tab, w), Ret (tab', w') => tab = tab' /\ w ≡ₚ w'
  | Panic, Panic | OutOfFuel, OutOfFuel => True
  | _, _ => False
  end.
Proof.
  unfold any_build, build_table. destruct (first_set fuel order g) as [[first cache]| |]; cbn [rbind]; [|by intros ->..].
  destruct (follow_set fuel order g first) as [follow| |]; cbn [rbind]; [|by intros ->..].
  pose proof (c29_inner_returns order cache follow) as Hr. destruct x as [[tab' w']| |]; [| |done].
  - intros H. assert (exists st, ll1_table order cache follow = Ret st) as [[tab w] E] by (apply Hr; by eexists). rewrite E.
    destruct (c29_inner order cache follow tab w tab' w' E H) as [-> Hw]. by split.
  - intros H. destruct (ll1_table order cache follow) as [st| |] eqn:E; [|done|].
    + exfalso. apply H, Hr. by eexists.
    + by apply (table_fuel order cache follow).
Qed.
Lemma any_build_own fuel order g : any_build fuel order g (build_table fuel order g).
Proof.
  unfold any_build, build_table. destruct (first_set fuel order g) as [[first cache]| |]; cbn [rbind]; [|done..].
  destruct (follow_set fuel order g first) as [follow| |]; cbn [rbind]; [|done..].
  destruct (ll1_table order cache follow) as [st| |] eqn:E; [|intros H; apply (c29_inner_returns order cache follow) in H as [st H]; by rewrite E in H|by apply table_fuel in E].
  revert E. unfold ll1_table. generalize (∅ : table, [] : list (production * production)). induction order as [|p l IH]; intros st0 E; cbn [rfold] in E.
  - injection E as <-. constructor.
  - apply rbind_Ret in E as (st1 & E1 & E2). econstructor; [|exact (IH _ E2)]. unfold table_step in E1.
    destruct (cache !! p) as [f|] eqn:Ef; cbn [unwrap rbind] in E1; [|done]. destruct (allow_epsilon f) eqn:Ee.
    + destruct (follow !! left p) as [fo|] eqn:Efo; cbn [unwrap rbind] in E1; [|done]. injection E1 as <-. by eapply any_step_follow.
    + injection E1 as <-. by eapply any_step_first.
Qed.

Lemma pbind_lines {A B} l (m : res A) (k : A -> printed B) : pbind (l, m) k = (l ++ fst (pbind (pres m) k), snd (pbind (pres m) k)).
Proof. destruct m as [a| |]; cbn; [by destruct (k a)|by rewrite app_nil_r..]. Qed.
Lemma pbind_ret {A B} (a : A) (k : A -> printed B) : pbind (pres (Ret a)) k = k a.
Proof. cbn. by destruct (k a). Qed.
(** The lines: conflicts are printed between the report on the grammar file and the rest. *)
Lemma main_on_same build nd huge order fuel o d s : (forall g, any_build fuel order g (build g)) ->
  exists a c c' b x, print_main_on build nd huge fuel o d s = (a ++ map line_conflict c' ++ b, x) /\ print_main nd huge order fuel o d s = (a ++ map line_conflict c ++ b, x) /\ c' ≡ₚ c.
Proof.
  intros Hb. unfold print_main_on, print_main.
  destruct (read_tree huge o d _) as [ast| |]; [|by exists [], [], [], []; eexists..]. rewrite !pbind_ret.
  destruct (print_load_tree ast) as [l [[g x]| |]]; [|by exists l, [], [], []; eexists; rewrite app_nil_r..].
  rewrite !(pbind_lines l), !pbind_ret.
  pose proof (any_build_same _ _ _ _ (Hb g)) as H. destruct (build_table fuel order g) as [[tab w]| |], (build g) as [[tab' w']| |]; try done.
  - destruct H as [<- Hw]. rewrite !pbind_ret, (pbind_lines (map line_conflict w')), (pbind_lines (map line_conflict w)). cbn [fst snd].
    eexists l, w, w', _, _. split; [reflexivity|]. split; [reflexivity|]. by rewrite Hw.
  - exists l, [], [], [], Panic. done.
  - exists l, [], [], [], OutOfFuel. done.
Qed.

Lemma c88_any nd huge order fuel o d s lines e d' : any_effect nd huge order fuel o d s lines e d' ->
  exists a c c' b, lines = a ++ map line_conflict c' ++ b /\ c' ≡ₚ c /\ main_effect nd huge order fuel o d s = (unlines (a ++ map line_conflict c ++ b), e, d').
Proof.
  intros (build & Hb & H). destruct (main_on_same build nd huge order fuel o d s Hb) as (a & c & c' & b & x & E1 & E2 & Hp).
  rewrite E1 in H. destruct H as [<- H]. exists a, c, c', b. split; [done|]. split; [done|]. unfold main_effect. rewrite E2.
  change (concat (map println ?l)) with (unlines l). destruct x as [r| |].
  - by rewrite H.
  - by destruct H as [-> ->].
  - by destruct H as [-> ->].
Qed.
Lemma c88_any_own nd huge order fuel o d s : let '(lines, x) := print_main nd huge order fuel o d s in
  let '(_, e, d') := main_effect nd huge order fuel o d s in any_effect nd huge order fuel o d s lines e d'.
Proof.
  unfold main_effect. destruct (print_main nd huge order fuel o d s) as [lines x] eqn:E.
  assert (forall e d', match x with Ret r => draw o d r (lit "parser") (lit "parser2.html") = (e, d') | Panic => e = Panic /\ d' = d | OutOfFuel => e = OutOfFuel /\ d' = d end ->
    any_effect nd huge order fuel o d s lines e d') as K.
  { intros e d' H. exists (build_table fuel order). split; [intros g; apply any_build_own|]. change (print_main_on (build_table fuel order) nd huge fuel o d s) with (print_main nd huge order fuel o d s).
    rewrite E. by split. }
  destruct x as [r| |]; [|by apply K..]. destruct (draw o d r _ _) as [e d'] eqn:Ed. by apply K.
Qed.
