(** VisitorLemmas.v -- visitors whose overrides do not call back fold over the outermost nodes;
    fuel of the production visitor. *)
From Verif Require Export SpecVisitor TreeProofs.

Section fold.
  Context {S : Type} (v : visitor S unit).
  Context (Hterm : forall t s, v_terminal v t s = Ret (tt, s)).
  Context (Herr : forall t s, v_errornode v t s = Ret (tt, s)).
  Context (Hdef : forall s, v_default_result v s = Ret (tt, s)).
  Context (Hagg : forall a b s, v_aggregate_result v a b s = Ret (b, s)).
  Context (Hnext : forall r a s, v_should_visit_next_child v r a s = Ret (true, s)).

  Definition overridden (i : nat) : bool := match v_override v i with Some _ => true | None => false end.
  Definition visit_step (s : S) (r : rule_ctx) : res S :=
    match v_override v (rule_index r) with
    | Some f => let! (_, s') := f r s in Ret s'
    | None => Ret s
    end.

  Lemma outermost_children p n cs i : p i = false ->
    outermost p (RuleCtx n cs i) = outermost_below p (RuleCtx n cs i).
  Proof using.
    intros E. unfold outermost_below. simpl. rewrite E. clear n i E.
    induction cs as [|[t|c|t] cs IH]; simpl; [done|done| |done]. by rewrite IH.
  Qed.

  Lemma visit_loop_fold ctx cs s :
    (forall r, Rule r ∈ cs -> forall s, visit v r s = let! s' := rfold visit_step (outermost overridden r) s in Ret (tt, s')) ->
    visit_loop v (visit v) ctx cs tt s =
    let! s' := rfold visit_step (concat (map (fun a => match a with Rule c => outermost overridden c | _ => [] end) cs)) s in Ret (tt, s').
  Proof using Hterm Herr Hagg Hnext.
    revert s. induction cs as [|c cs IH]; intros s H; [done|]. cbn [visit_loop map concat].
    rewrite Hnext. cbn [rbind]. rewrite rfold_app.
    assert (IH' : forall s, visit_loop v (visit v) ctx cs tt s =
      let! s' := rfold visit_step (concat (map (fun a => match a with Rule c => outermost overridden c | _ => [] end) cs)) s in Ret (tt, s')).
    { intros s0. apply IH. intros r Hr. apply H. by apply elem_of_list_further. }
    destruct c as [t|c|t].
    - rewrite Hterm. cbn [rbind]. rewrite Hagg. cbn [rbind rfold]. apply IH'.
    - rewrite H by apply elem_of_list_here.
      destruct (rfold visit_step (outermost overridden c) s) as [s1| |]; cbn [rbind]; [|done|done].
      rewrite Hagg. cbn [rbind]. apply IH'.
    - rewrite Herr. cbn [rbind]. rewrite Hagg. cbn [rbind rfold]. apply IH'.
  Qed.

  Lemma visit_fold r s :
    visit v r s = let! s' := rfold visit_step (outermost overridden r) s in Ret (tt, s').
  Proof using Hterm Herr Hdef Hagg Hnext.
    revert s. induction r as [n cs i IH] using tree_ind. intros s. rewrite visit_unfold. cbn [rule_index].
    destruct (v_override v i) as [f|] eqn:E.
    - assert (outermost overridden (RuleCtx n cs i) = [RuleCtx n cs i]) as ->.
      { simpl. unfold overridden. by rewrite E. }
      cbn [rfold]. unfold visit_step. cbn [rule_index]. rewrite E.
      destruct (f (RuleCtx n cs i) s) as [[[] s']| |]; done.
    - rewrite outermost_children by (unfold overridden; by rewrite E).
      unfold visit_children. rewrite Hdef. cbn [rbind children]. unfold outermost_below. cbn [children]. by apply visit_loop_fold.
  Qed.
  Lemma visit_children_fold r s :
    visit_children v r s = let! s' := rfold visit_step (outermost_below overridden r) s in Ret (tt, s').
  Proof using Hterm Herr Hdef Hagg Hnext.
    unfold visit_children. rewrite Hdef. cbn [rbind]. apply visit_loop_fold. intros r' _ s'. apply visit_fold.
  Qed.
End fold.

Lemma outermost_ext p q r : (forall i, p i = q i) -> outermost p r = outermost q r.
Proof.
  intros H. induction r as [n cs i IH] using tree_ind. simpl. rewrite H. destruct (q i); [done|].
  induction cs as [|[t|c|t] cs IHcs]; [done|..].
  - apply IHcs. intros r Hr. apply IH. by apply elem_of_list_further.
  - rewrite IH by apply elem_of_list_here. f_equal. apply IHcs. intros r Hr. apply IH. by apply elem_of_list_further.
  - apply IHcs. intros r Hr. apply IH. by apply elem_of_list_further.
Qed.
Lemma outermost_below_ext p q r : (forall i, p i = q i) -> outermost_below p r = outermost_below q r.
Proof.
  intros H. unfold outermost_below. f_equal. apply map_ext. intros [t|c|t]; [done|by apply outermost_ext|done].
Qed.

(** The three collecting visitors. *)
Lemma literal_fold r s : visit_children literal_visitor r s =
  let! s' := rfold (fun s r => let! (_, s') := literal_visit_element r s in Ret s') (outermost_below (fun i => i =? ELEMENT) r) s in Ret (tt, s').
Proof.
  rewrite visit_children_fold by done.
  rewrite (outermost_below_ext _ (fun i => i =? ELEMENT)).
  2:{ intros i. unfold overridden. do 9 (destruct i as [|i]; [done|]). done. }
  assert (Forall (fun n => rule_index n = ELEMENT) (outermost_below (fun i => i =? ELEMENT) r)) as HF.
  { apply Forall_forall. intros n Hn. unfold outermost_below in Hn. apply elem_of_list_In, in_concat in Hn as (l & Hl & Hn).
    apply in_map_iff in Hl as (a & <- & _). destruct a as [t|c|t]; [done| |done]. apply elem_of_list_In in Hn. revert Hn. clear.
    induction c as [m cs i IH] using tree_ind. simpl. destruct (Nat.eqb_spec i ELEMENT) as [->|].
    - by intros ->%elem_of_list_singleton.
    - induction cs as [|[t|c|t] cs IHcs]; [by intros ?%elem_of_nil|..].
      + apply IHcs. intros r Hr. apply IH. by apply elem_of_list_further.
      + rewrite elem_of_app. intros [H|H]; [by eapply IH; [apply elem_of_list_here|]|].
        apply IHcs; [|done]. intros r Hr. apply IH. by apply elem_of_list_further.
      + apply IHcs. intros r Hr. apply IH. by apply elem_of_list_further. }
  f_equal. revert s. induction HF as [|n l Hn _ IH]; intros s; [done|]. cbn [rfold]. unfold visit_step at 1. rewrite Hn.
  change (v_override literal_visitor ELEMENT) with (Some literal_visit_element). cbn [rbind].
  destruct (literal_visit_element n s) as [[[] s']| |]; cbn [rbind]; [apply IH|done|done].
Qed.
