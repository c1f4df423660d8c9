(** FooProofs.v -- C76: what the fixture's visitor and listener print. *)
From Verif Require Export SpecFoo CollectProofs.

Fixpoint tree_ind' (P : rule_ctx -> Prop)
    (H : forall n cs i, (forall c, Rule c ∈ cs -> P c) -> P (RuleCtx n cs i)) (r : rule_ctx) {struct r} : P r.
Proof.
  destruct r as [n cs i]. apply H. induction cs as [|a cs IH]; [intros c Hc; by apply elem_of_nil in Hc|].
  intros c Hc. apply elem_of_cons in Hc as [E|Hc]; [|by apply IH].
  destruct a as [t|c'|t]; [discriminate E| |discriminate E]. injection E as ->. by apply tree_ind'.
Qed.

Definition visit_all (cs : list ast) (out : list str) : list str :=
  fold_left (fun out a => match a with Rule c => foo_visit c out | _ => out end) cs out.
Lemma foo_visit_eq n cs i out : foo_visit (RuleCtx n cs i) out =
  visit_all cs (out ++ (if i =? 3 then match foo_number (RuleCtx n cs i) with Some t => [text t] | None => [] end else [])).
Proof.
  assert (forall out, (fix go (cs : list ast) (out : list str) : list str :=
           match cs with
           | [] => out
           | child :: cs' => let out := match child with Terminal _ => out | Rule c => foo_visit c out | Error _ => out end in go cs' out
           end) cs out = visit_all cs out) as E.
  { unfold visit_all. induction cs as [|[?|?|?] cs IH]; intros o; cbn; [done|apply IH..]. }
  cbn [foo_visit rule_index]. rewrite !E. unfold FOO_START, FOO_EXPR, FOO_STMT.
  destruct (Nat.eqb_spec i 1) as [->|]; [by rewrite app_nil_r|]. destruct (Nat.eqb_spec i 3) as [->|].
  - destruct (foo_number _); [done|by rewrite app_nil_r].
  - destruct (i =? 2); by rewrite app_nil_r.
Qed.
Lemma numbers_eq n cs i : numbers (RuleCtx n cs i) =
  (if i =? 3 then match head (leaves_of 1 (RuleCtx n cs i)) with Some t => [text t] | None => [] end else []) ++
  concat (map (fun a => match a with Rule c => numbers c | _ => [] end) cs).
Proof.
  unfold numbers at 1. cbn [opening_order omap list_omap rule_index].
  match goal with |- context [omap ?f _] => set (F := f) end.
  assert (omap F ((fix go (cs : list ast) : list rule_ctx :=
         match cs with
         | [] => []
         | Rule c :: cs' => opening_order c ++ go cs'
         | _ :: cs' => go cs'
         end) cs) = concat (map (fun a => match a with Rule c => numbers c | _ => [] end) cs)) as E.
  { induction cs as [|[?|c|?] cs IH]; cbn [map concat]; [done|exact IH| |exact IH]. rewrite omap_app, IH. done. }
  change (list_omap _ _ F) with (omap (M := list) F). rewrite E. destruct (i =? 3); [|done]. by destruct (head _).
Qed.
Lemma c76_visitor r out : foo_visit r out = out ++ numbers r.
Proof.
  revert out. induction r as [n cs i IH] using tree_ind'. intros out. rewrite foo_visit_eq, numbers_eq.
  assert (foo_number (RuleCtx n cs i) = head (leaves_of 1 (RuleCtx n cs i))) as ->.
  { unfold foo_number. apply get_terminal_leaves. }
  rewrite app_assoc. match goal with |- _ = ?o ++ _ => generalize o end. clear out. unfold visit_all.
  induction cs as [|[t|c|t] cs IHcs]; intros out; cbn [fold_left map concat app].
  - by rewrite app_nil_r.
  - apply IHcs. intros c Hc. apply IH. by apply elem_of_list_further.
  - rewrite IH by (apply elem_of_list_here). rewrite IHcs by (intros c' Hc'; apply IH; by apply elem_of_list_further). by rewrite app_assoc.
  - apply IHcs. intros c Hc. apply IH. by apply elem_of_list_further.
Qed.

Definition walk_all (cs : list ast) (out : list str) : list str :=
  fold_left (fun out a => match a with Rule c => foo_walk c out | _ => out end) cs out.
Lemma foo_walk_eq n cs i out : foo_walk (RuleCtx n cs i) out = foo_exit (RuleCtx n cs i) (walk_all cs (foo_enter (RuleCtx n cs i) out)).
Proof.
  cbn [foo_walk]. unfold walk_all. generalize (foo_enter (RuleCtx n cs i) out). intros o. apply (f_equal (foo_exit (RuleCtx n cs i))). revert o.
  clear out. induction cs as [|[?|?|?] cs IH]; intros o; cbn; [done|apply IH..].
Qed.
Definition below (cs : list ast) : list outline := concat (map (fun a => match a with Rule c => outline_of c | _ => [] end) cs).
Lemma outline_eq n cs i : outline_of (RuleCtx n cs i) = match i with 2 => [Stmt (below cs)] | 3 => [Expr (below cs)] | _ => below cs end.
Proof.
  cbn [outline_of]. assert ((fix go (cs : list ast) : list outline :=
           match cs with
           | [] => []
           | Rule c :: cs' => outline_of c ++ go cs'
           | _ :: cs' => go cs'
           end) cs = below cs) as ->; [|done]. unfold below. induction cs as [|[?|?|?] cs IH]; cbn [map concat]; [done|exact IH|by rewrite IH|exact IH].
Qed.
Lemma announced_app l1 a l2 b : announced l1 a -> announced l2 b -> announced (l1 ++ l2) (a ++ b).
Proof.
  intros H Hb. induction H as [|k l a1 b1 Ha IHa Hl IHl|k l a1 b1 Ha IHa Hl IHl]; [done|..]; rewrite <- !app_assoc; by constructor.
Qed.
Lemma c76_listener r out : exists lines, foo_walk r out = out ++ lines /\ announced (outline_of r) lines.
Proof.
  revert out. induction r as [n cs i IH] using tree_ind'. intros out. rewrite foo_walk_eq, outline_eq.
  assert (forall out, exists lines, walk_all cs out = out ++ lines /\ announced (below cs) lines) as Hall.
  { unfold walk_all, below. clear out. induction cs as [|[t|c|t] cs IHcs]; intros out; cbn [fold_left map concat app].
    - exists []. split; [by rewrite app_nil_r|constructor].
    - apply IHcs. intros c Hc. apply IH. by apply elem_of_list_further.
    - destruct (IH c (elem_of_list_here _ _) out) as (l1 & -> & H1).
      destruct (IHcs (fun c' Hc' => IH c' (elem_of_list_further _ _ _ Hc')) (out ++ l1)) as (l2 & -> & H2).
      exists (l1 ++ l2). split; [by rewrite app_assoc|by apply announced_app].
    - apply IHcs. intros c Hc. apply IH. by apply elem_of_list_further. }
  unfold foo_enter, foo_exit, FOO_START, FOO_EXPR, FOO_STMT. cbn [rule_index].
  destruct (decide (i = 2)) as [->|H2]; [|destruct (decide (i = 3)) as [->|H3]].
  - cbn [Nat.eqb]. destruct (Hall (out ++ [lit "enter stmt"])) as (l & -> & Hl). exists ([lit "enter stmt"] ++ l ++ [lit "exit stmt"] ++ []).
    split; [by rewrite <- !app_assoc|by constructor; [|constructor]].
  - cbn [Nat.eqb]. destruct (Hall (out ++ [lit "enter expr"])) as (l & -> & Hl). exists ([lit "enter expr"] ++ l ++ [lit "exit expr"] ++ []).
    split; [by rewrite <- !app_assoc|by constructor; [|constructor]].
  - destruct (Hall out) as (l & E & Hl). exists l. rewrite (proj2 (Nat.eqb_neq i 3)), (proj2 (Nat.eqb_neq i 2)) by done.
    split; [by destruct (i =? 1)|]. by destruct i as [|[|[|[|i]]]].
Qed.

(** Reading the lines back. *)
Definition enters (x : str) : bool := bool_decide (x = lit "enter stmt") || bool_decide (x = lit "enter expr").
Lemma announced_read l1 a1 : announced l1 a1 -> forall l2 a2 r1 r2, announced l2 a2 ->
  (forall x, head r1 = Some x -> enters x = false) -> (forall x, head r2 = Some x -> enters x = false) ->
  a1 ++ r1 = a2 ++ r2 -> l1 = l2 /\ r1 = r2.
Proof.
  intros H. induction H as [|k l a b Ha IHa Hl IHl|k l a b Ha IHa Hl IHl]; intros l2 a2 r1 r2 H2 Hr1 Hr2 E.
  - destruct H2; [done|..]; cbn in E; subst r1; by specialize (Hr1 _ eq_refl).
  - destruct H2 as [|k2 l2 a2 b2 Ha2 Hl2|k2 l2 a2 b2 Ha2 Hl2]; [cbn in E; subst r2; by specialize (Hr2 _ eq_refl)| |discriminate E].
    rewrite <- !app_assoc in E. apply app_inv_head in E.
    destruct (IHa _ _ ([lit "exit stmt"] ++ b ++ r1) ([lit "exit stmt"] ++ b2 ++ r2) Ha2) as [-> E2]; [intros x [= <-]; done|intros x [= <-]; done|done|].
    apply app_inv_head in E2. destruct (IHl _ _ r1 r2 Hl2 Hr1 Hr2 E2) as [-> ->]. done.
  - destruct H2 as [|k2 l2 a2 b2 Ha2 Hl2|k2 l2 a2 b2 Ha2 Hl2]; [cbn in E; subst r2; by specialize (Hr2 _ eq_refl)|discriminate E|].
    rewrite <- !app_assoc in E. apply app_inv_head in E.
    destruct (IHa _ _ ([lit "exit expr"] ++ b ++ r1) ([lit "exit expr"] ++ b2 ++ r2) Ha2) as [-> E2]; [intros x [= <-]; done|intros x [= <-]; done|done|].
    apply app_inv_head in E2. destruct (IHl _ _ r1 r2 Hl2 Hr1 Hr2 E2) as [-> ->]. done.
Qed.
Lemma announced_fun l a b : announced l a -> announced l b -> a = b.
Proof.
  intros H. revert b. induction H as [|k l a1 b1 Ha IHa Hl IHl|k l a1 b1 Ha IHa Hl IHl]; intros b Hb; inversion Hb; subst; [done|..];
    by rewrite (IHa _ ltac:(eassumption)), (IHl _ ltac:(eassumption)).
Qed.
Lemma c76_lines_iff r1 r2 : foo_walk r1 [] = foo_walk r2 [] <-> outline_of r1 = outline_of r2.
Proof.
  destruct (c76_listener r1 []) as (l1 & -> & H1), (c76_listener r2 []) as (l2 & -> & H2). cbn [app]. split.
  - intros ->. eapply (announced_read _ _ H1 _ _ [] [] H2); done.
  - intros E. rewrite E in H1. by eapply announced_fun.
Qed.
Lemma c76_test : test_foo foo_ast = [lit "start (stmt (expr ('(' Number ')' ) ';' ) )"; lit "234"; lit "enter stmt"; lit "enter expr"; lit "exit expr"; lit "exit stmt"].
Proof. vm_compute. reflexivity. Qed.
Lemma c76_order r : exists lines, test_foo r = [rule_display r] ++ numbers r ++ lines /\ announced (outline_of r) lines.
Proof.
  unfold test_foo. destruct (c76_listener r (foo_visit r [rule_display r])) as (lines & -> & H). exists lines.
  split; [|exact H]. by rewrite c76_visitor, <- app_assoc.
Qed.
