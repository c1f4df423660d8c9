(** ReentrantProofs.v -- C54: visitors that call back; C18 for the trait's default bodies. *)
From Verif Require Export SpecReentrant TreeProofs.

Lemma visit_loop_ext {S R} (v : visitor S R) rec rec' ctx cs x s :
  (forall r, Rule r ∈ cs -> forall s, rec r s = rec' r s) -> visit_loop v rec ctx cs x s = visit_loop v rec' ctx cs x s.
Proof.
  revert x s. induction cs as [|c cs IH]; intros x s H; [done|]. cbn [visit_loop].
  destruct (v_should_visit_next_child v ctx x s) as [[[] s1]| |]; cbn [rbind]; [|done..].
  assert (match c with Terminal t => v_terminal v t s1 | Rule c => rec c s1 | Error t => v_errornode v t s1 end =
          match c with Terminal t => v_terminal v t s1 | Rule c => rec' c s1 | Error t => v_errornode v t s1 end) as ->.
  { destruct c; [done| |done]. apply H, elem_of_list_here. }
  destruct (match c with Terminal t => _ | Rule c => _ | Error t => _ end) as [[y s2]| |]; cbn [rbind]; [|done..].
  destruct (v_aggregate_result v x y s2) as [[z s3]| |]; cbn [rbind]; [|done..].
  apply IH. intros r Hr. apply H. by apply elem_of_list_further.
Qed.

(** A bound on the fuel. *)
Fixpoint depth (r : rule_ctx) : nat :=
  match r with RuleCtx _ cs _ => Datatypes.S ((fix go cs := match cs with [] => 0 | Rule c :: cs => depth c `max` go cs | _ :: cs => go cs end) cs) end.
Lemma depth_child r c : Rule c ∈ children r -> depth c < depth r.
Proof.
  destruct r as [n cs i]. cbn [children depth]. induction cs as [|a cs IH]; intros H; [by apply elem_of_nil in H|].
  apply elem_of_cons in H as [<-|H]; [lia|]. specialize (IH H). destruct a; lia.
Qed.

(** Methods that do not call back: the run is [visit]. *)
Lemma c54_plain {S R} (v : visitor S R) r : exists n, forall fuel s, n <= fuel ->
  open_run fuel (fun _ _ => v) true r s = visit v r s /\ open_run fuel (fun _ _ => v) false r s = visit_children v r s.
Proof.
  exists (2 * depth r). intros fuel s Hf. revert fuel s Hf. induction r as [r IH] using (induction_ltof1 _ depth). unfold ltof in IH. intros fuel s Hf.
  assert (forall fuel s, 2 * depth r <= Datatypes.S fuel -> open_run fuel (fun _ _ => v) false r s = visit_children v r s) as Hc.
  { clear s fuel Hf. intros fuel s Hf. assert (1 <= depth r) by (destruct r; cbn; lia). destruct fuel as [|n]; [lia|]. cbn [open_run]. unfold visit_children.
    destruct (v_default_result v s) as [[x s0]| |]; cbn [rbind]; [|done..]. apply visit_loop_ext. intros c Hin s'.
    pose proof (depth_child _ _ Hin). apply (IH c); lia. }
  split; [|apply Hc; lia]. assert (1 <= depth r) by (destruct r; cbn; lia). destruct fuel as [|n]; [lia|]. cbn [open_run]. rewrite visit_unfold.
  destruct (v_override v (rule_index r)); [done|]. apply Hc. lia.
Qed.

(** Forwarding methods. *)
Lemma walk_unfold {S} (l : listener S) n cs i s : walk l (RuleCtx n cs i) s =
  let r := RuleCtx n cs i in
  exit_every_rule l r (l_exit l r (fold_left (fun s a => match a with Terminal t => exit_terminal l t (enter_terminal l t s) | Rule c => walk l c s
    | Error t => exit_errornode l t (enter_errornode l t s) end) cs (l_enter l r (enter_every_rule l r s)))).
Proof. reflexivity. Qed.
Lemma forwarding_loop {S} (l : listener S) f g h ctx cs x s :
  (forall c, Rule c ∈ cs -> forall s, h c s = Ret (tt, walk l c s)) ->
  visit_loop (forwarding l f g) h ctx cs x s = Ret (tt, fold_left (fun s a => match a with Terminal t => exit_terminal l t (enter_terminal l t s) | Rule c => walk l c s
    | Error t => exit_errornode l t (enter_errornode l t s) end) cs s).
Proof.
  revert x s. induction cs as [|c cs IH]; intros x s H; [by destruct x|]. cbn [visit_loop fold_left].
  change (v_should_visit_next_child (forwarding l f g) ctx x s) with (Ret (true, s) : res (bool * S)). cbn [rbind].
  assert (IH' : forall x s, visit_loop (forwarding l f g) h ctx cs x s = Ret (tt, fold_left (fun s a => match a with Terminal t => exit_terminal l t (enter_terminal l t s) | Rule c => walk l c s
    | Error t => exit_errornode l t (enter_errornode l t s) end) cs s)) by (intros x' s'; apply IH; intros c' Hc'; apply H; by apply elem_of_list_further).
  destruct c as [t|c|t].
  - change (v_terminal (forwarding l f g) t s) with (Ret (tt, exit_terminal l t (enter_terminal l t s))). cbn [rbind]. apply IH'.
  - rewrite H by apply elem_of_list_here. cbn [rbind]. apply IH'.
  - change (v_errornode (forwarding l f g) t s) with (Ret (tt, exit_errornode l t (enter_errornode l t s))). cbn [rbind]. apply IH'.
Qed.

Lemma c54_walker {S} (l : listener S) r : (forall n, node_of n r -> rule_index n <= 8) ->
  exists n, forall fuel s, n <= fuel -> open_run fuel (forwarding l) true r s = Ret (tt, walk l r s).
Proof.
  intros Hr. exists (2 * depth r). intros fuel s Hf. revert fuel s Hf. induction r as [r IH] using (induction_ltof1 _ depth). unfold ltof in IH. intros fuel s Hf.
  assert (1 <= depth r) by (destruct r; cbn; lia). destruct fuel as [|[|n]]; [lia|lia|].
  remember (Datatypes.S n) as m eqn:Em. cbn [open_run].
  assert (v_override (forwarding l (open_run m (forwarding l) true) (open_run m (forwarding l) false)) (rule_index r) =
    Some (fun r s => let! (x, s1) := open_run m (forwarding l) false r (l_enter l r (enter_every_rule l r s)) in Ret (x, exit_every_rule l r (l_exit l r s1)))) as ->.
  { pose proof (Hr r (node_self r)) as Hi. destruct (rule_index r) as [|[|[|[|[|[|[|[|[|i]]]]]]]]]; [reflexivity..|lia]. }
  subst m. cbn [open_run].
  change (v_default_result (forwarding l (open_run n (forwarding l) true) (open_run n (forwarding l) false)) ?s) with (Ret (tt, s)). cbn [rbind].
  rewrite (forwarding_loop l).
  - cbn [rbind]. destruct r as [nm cs i]. rewrite walk_unfold. reflexivity.
  - intros c Hin s'. pose proof (depth_child _ _ Hin). apply IH; [lia| |lia]. intros k Hk. apply Hr. by apply node_child with c.
Qed.

(** The calls received, in order: those of the walker. *)
Lemma c54_calls r : (forall n, node_of n r -> rule_index n <= 8) ->
  exists n, forall fuel, n <= fuel -> open_run fuel (forwarding recorder) true r [] = Ret (tt, walk recorder r []).
Proof. intros H. destruct (c54_walker recorder r H) as [n Hn]. exists n. intros fuel Hf. by apply Hn. Qed.

Lemma node_of_trans a b c : node_of a b -> node_of b c -> node_of a c.
Proof. intros Hab. induction 1 as [r|n c r Hc H IH]; [done|]. by apply node_child with c, IH. Qed.
Lemma node_of_depth a b : node_of a b -> a = b \/ depth a < depth b.
Proof. induction 1 as [r|n c r Hc H IH]; [by left|]. right. pose proof (depth_child _ _ Hc). destruct IH as [->|]; lia. Qed.


Section descending.
  Context {S R : Type} (o : open_visitor S R) (Hd : descending o).
  Lemma visit_loop_hooks (v v' : visitor S R) rec rec' ctx cs x s :
    (forall t s, v_terminal v t s = v_terminal v' t s) -> (forall t s, v_errornode v t s = v_errornode v' t s) ->
    (forall a b s, v_aggregate_result v a b s = v_aggregate_result v' a b s) ->
    (forall r a s, v_should_visit_next_child v r a s = v_should_visit_next_child v' r a s) ->
    (forall r, Rule r ∈ cs -> forall s, rec r s = rec' r s) -> visit_loop v rec ctx cs x s = visit_loop v' rec' ctx cs x s.
  Proof using.
    intros Ht He Ha Hs. revert x s. induction cs as [|c cs IH]; intros x s H; [done|]. cbn [visit_loop]. rewrite Hs.
    destruct (v_should_visit_next_child v' ctx x s) as [[[] s1]| |]; cbn [rbind]; [|done..].
    assert (match c with Terminal t => v_terminal v t s1 | Rule c => rec c s1 | Error t => v_errornode v t s1 end =
            match c with Terminal t => v_terminal v' t s1 | Rule c => rec' c s1 | Error t => v_errornode v' t s1 end) as ->.
    { destruct c; [apply Ht| |apply He]. apply H, elem_of_list_here. }
    destruct (match c with Terminal t => _ | Rule c => _ | Error t => _ end) as [[y s2]| |]; cbn [rbind]; [|done..]. rewrite Ha.
    destruct (v_aggregate_result v' x y s2) as [[z s3]| |]; cbn [rbind]; [|done..].
    apply IH. intros r Hr. apply H. by apply elem_of_list_further.
  Qed.
  Lemma descending_stable r : forall fuel fuel' s,
    (2 * depth r <= fuel -> 2 * depth r <= fuel' -> open_run fuel o true r s = open_run fuel' o true r s) /\
    (2 * depth r <= Datatypes.S fuel -> 2 * depth r <= Datatypes.S fuel' -> open_run fuel o false r s = open_run fuel' o false r s).
  Proof using Hd.
    induction r as [r IH] using (induction_ltof1 _ depth). unfold ltof in IH. destruct Hd as (Hov & Ht & He & Hdef & Ha & Hs).
    assert (1 <= depth r) as H1 by (destruct r; cbn; lia).
    assert (forall fuel fuel' s, 2 * depth r <= Datatypes.S fuel -> 2 * depth r <= Datatypes.S fuel' -> open_run fuel o false r s = open_run fuel' o false r s) as Hc.
    { intros fuel fuel' s Hf Hf'. destruct fuel as [|n]; [lia|]. destruct fuel' as [|n']; [lia|]. cbn [open_run].
      rewrite (Hdef _ _ (open_run n' o true) (open_run n' o false)).
      destruct (v_default_result (o (open_run n' o true) (open_run n' o false)) s) as [[x s0]| |]; cbn [rbind]; [|done..].
      apply visit_loop_hooks; [intros; apply Ht|intros; apply He|intros; apply Ha|intros; apply Hs|].
      intros c Hin s'. pose proof (depth_child _ _ Hin). apply IH; lia. }
    intros fuel fuel' s. split; [|apply Hc]. intros Hf Hf'. destruct fuel as [|n]; [lia|]. destruct fuel' as [|n']; [lia|]. cbn [open_run].
    specialize (Hov r (open_run n o true) (open_run n o false) (open_run n' o true) (open_run n' o false)).
    destruct Hov as [[E E']|(h & h' & E & E' & Hh)].
    - intros c s' Hn Hne. destruct (node_of_depth _ _ Hn) as [->|Hlt]; [done|]. apply IH; lia.
    - intros c s' Hn. destruct (node_of_depth _ _ Hn) as [->|Hlt]; [apply Hc; lia|]. apply IH; lia.
    - rewrite E, E'. apply Hc; lia.
    - rewrite E, E'. apply Hh.
  Qed.
End descending.

Section productive.
  Context {S R : Type} (o : open_visitor S R) (Hp : productive o).
  Lemma visit_loop_returns v rec ctx cs x s : (exists f g, v = o f g) ->
    (forall r, Rule r ∈ cs -> forall s, rec r s <> OutOfFuel) -> visit_loop v rec ctx cs x s <> OutOfFuel.
  Proof using Hp.
    intros (f & g & ->). destruct Hp as (_ & Ht & He & _ & Ha & Hs). revert x s. induction cs as [|c cs IH]; intros x s H; [done|]. cbn [visit_loop].
    specialize (Hs f g ctx x s). destruct (v_should_visit_next_child (o f g) ctx x s) as [[[] s1]| |]; cbn [rbind]; [|done..].
    assert (match c with Terminal t => v_terminal (o f g) t s1 | Rule c => rec c s1 | Error t => v_errornode (o f g) t s1 end <> OutOfFuel) as K.
    { destruct c; [apply Ht| |apply He]. apply H, elem_of_list_here. }
    destruct (match c with Terminal t => _ | Rule c => _ | Error t => _ end) as [[y s2]| |]; cbn [rbind]; [|done..].
    specialize (Ha f g x y s2). destruct (v_aggregate_result (o f g) x y s2) as [[z s3]| |]; cbn [rbind]; [|done..].
    apply IH. intros r Hr. apply H. by apply elem_of_list_further.
  Qed.
  Lemma productive_returns r : forall fuel s,
    (2 * depth r <= fuel -> open_run fuel o true r s <> OutOfFuel) /\ (2 * depth r <= Datatypes.S fuel -> open_run fuel o false r s <> OutOfFuel).
  Proof using Hp.
    induction r as [r IH] using (induction_ltof1 _ depth). unfold ltof in IH.
    assert (1 <= depth r) as H1 by (destruct r; cbn; lia).
    assert (forall fuel s, 2 * depth r <= Datatypes.S fuel -> open_run fuel o false r s <> OutOfFuel) as Hc.
    { intros fuel s Hf. destruct fuel as [|n]; [lia|]. cbn [open_run]. destruct Hp as (_ & _ & _ & Hdef & _).
      specialize (Hdef (open_run n o true) (open_run n o false) s).
      destruct (v_default_result _ s) as [[x s0]| |]; cbn [rbind]; [|done..]. apply visit_loop_returns; [by eexists _, _|].
      intros c Hin s'. pose proof (depth_child _ _ Hin). apply IH; lia. }
    intros fuel s. split; [|apply Hc]. intros Hf. destruct fuel as [|n]; [lia|]. cbn [open_run].
    destruct (v_override (o (open_run n o true) (open_run n o false)) (rule_index r)) as [h|] eqn:E; [|apply Hc; lia].
    destruct Hp as (Hov & _). eapply Hov; [| |exact E].
    - intros c s' Hn Hne. destruct (node_of_depth _ _ Hn) as [->|Hlt]; [done|]. apply IH; lia.
    - intros c s' Hn. destruct (node_of_depth _ _ Hn) as [->|Hlt]; [apply Hc; lia|]. apply IH; lia.
  Qed.
End productive.

Lemma c54_stable {S R} (o : open_visitor S R) r : descending o -> productive o ->
  exists n, forall fuel s, n <= fuel -> open_run fuel o true r s <> OutOfFuel /\ open_run fuel o true r s = open_run n o true r s.
Proof.
  intros Hd Hp. exists (2 * depth r). intros fuel s Hf. split; [by apply (productive_returns o Hp r)|]. by apply (descending_stable o Hd r fuel _ s).
Qed.

(** The trait's default bodies. *)
Lemma c18_defaults {S} (vt ve : token -> S -> res (unit * S)) r s :
  let d := default_visitor S in
  let v := Visitor S unit None None None None None None None None None vt ve (v_default_result d) (v_aggregate_result d) (v_should_visit_next_child d) in
  (let! (_, s') := visit v r s in Ret s') = rfold (visit_leaf v) (leaf_nodes r) s /\ visit d r s = Ret (tt, s).
Proof.
  cbv zeta. split.
  - apply (c18_leaves _ tt (fun _ b => b)); try done. intros i. do 9 (destruct i as [|i]; [done|]). done.
  - pose proof (c18_leaves (default_visitor S) tt (fun _ b => b) r s) as K.
    assert ((let! (_, s') := visit (default_visitor S) r s in Ret s') = Ret s) as E.
    { rewrite K; try done; [|intros i; do 9 (destruct i as [|i]; [done|]); done].
      clear K. induction (leaf_nodes r) as [|a l IH]; [done|]. cbn [rfold]. destruct a; cbn; exact IH. }
    destruct (visit (default_visitor S) r s) as [[[] s']| |]; cbn in E; [by injection E as ->|done..].
Qed.

(** Forwarding to a listener is descending. *)
Lemma ex_forwarding {S} (l : listener S) : descending (forwarding l).
Proof.
  split; [|done]. intros r f g f' g' Hf Hg. destruct (decide (rule_index r <= 8)) as [Hi|Hi].
  - right. destruct (rule_index r) as [|[|[|[|[|[|[|[|[|i]]]]]]]]]; [..|lia];
      eexists _, _; (split; [reflexivity|]); (split; [reflexivity|]); intros s; by rewrite Hg by apply node_self.
  - left. destruct (rule_index r) as [|[|[|[|[|[|[|[|[|i]]]]]]]]]; [lia..|done].
Qed.
Lemma ex_forwarding_productive {S} (l : listener S) : productive (forwarding l).
Proof.
  split; [|done]. intros r f g Hf Hg h s E. assert (h = fun r s => let! (x, s1) := g r (l_enter l r (enter_every_rule l r s)) in Ret (x, exit_every_rule l r (l_exit l r s1))) as ->.
  { destruct (rule_index r) as [|[|[|[|[|[|[|[|[|i]]]]]]]]]; cbn in E; try (injection E as <-; reflexivity). discriminate E. }
  pose proof (Hg r (l_enter l r (enter_every_rule l r s)) (node_self r)) as K. destruct (g r _) as [[x s1]| |]; done.
Qed.
Lemma ex_forwarding_calls : exists n, forall fuel, n <= fuel ->
  open_run fuel (forwarding recorder) true (RuleCtx [] [Rule (RuleCtx [] [Terminal (token_new 4 [] [])] 4)] 3) [] =
    Ret (tt, let e := RuleCtx [] [Terminal (token_new 4 [] [])] 4 in let a := RuleCtx [] [Rule e] 3 in
      [EnterEvery a; EnterRule 3 a; EnterEvery e; EnterRule 4 e; EnterTerminal (token_new 4 [] []); ExitTerminal (token_new 4 [] []);
       ExitRule 4 e; ExitEvery e; ExitRule 3 a; ExitEvery a]).
Proof.
  apply c54_calls. intros n Hn. inversion Hn as [|? c ? Hc Hn']; subst; [cbn; lia|]. cbn [children] in Hc. apply elem_of_list_singleton in Hc as [= ->].
  inversion Hn' as [|? c ? Hc Hn'']; subst; [cbn; lia|]. cbn [children] in Hc. by apply elem_of_list_singleton in Hc.
Qed.
