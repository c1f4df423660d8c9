(** HtmlProofs.v -- C49: the drawing inside the page's script element. *)
From Verif Require Export SpecHtml DrawerExact.

(** ** Looking ahead never crosses a backquote, a backslash or a semicolon *)
Definition neutral (x : N) : bool :=
  negb (ends_name x) && negb (existsb (N.eqb (lower x)) (lit "</scriptle")) && negb (existsb (N.eqb x) (lit "<!--")).
Definition tag_word (w : str) : Prop := w ⊆ lit "</scriptle".
Lemma neutral_tag x a w : neutral x = true -> tag_word (a :: w) -> (lower x =? a)%N = false.
Proof.
  intros Hx Hw. apply N.eqb_neq. intros <-. unfold neutral in Hx. rewrite !andb_true_iff, !negb_true_iff in Hx. destruct Hx as [[_ Hx] _].
  assert (existsb (N.eqb (lower x)) (lit "</scriptle") = true) as E; [|congruence].
  apply existsb_exists. exists (lower x). split; [|apply N.eqb_refl]. apply elem_of_list_In, Hw, elem_of_list_here.
Qed.
Lemma neutral_ends x : neutral x = true -> ends_name x = false.
Proof. unfold neutral. rewrite !andb_true_iff, !negb_true_iff. tauto. Qed.
Lemma tag_word_tail a w : tag_word (a :: w) -> tag_word w.
Proof. intros H x Hx. apply H. by apply elem_of_list_further. Qed.
Lemma tag_at_app w s x t : neutral x = true -> tag_word w -> tag_at w (s ++ x :: t) = tag_at w s.
Proof.
  intros Hx. revert s. induction w as [|a w IH]; intros [|c s] Hw; cbn [tag_at app]; try done.
  - by apply neutral_ends.
  - by rewrite (neutral_tag x a w).
  - f_equal. apply IH. by eapply tag_word_tail.
Qed.
Lemma starts_app w s x t : neutral x = true -> w ⊆ lit "<!--" -> starts w (s ++ x :: t) = starts w s.
Proof.
  intros Hx. revert s. induction w as [|a w IH]; intros [|c s] Hw; cbn [starts app]; try done.
  - destruct (N.eqb_spec x a) as [->|]; [|done]. unfold neutral in Hx. rewrite !andb_true_iff, !negb_true_iff in Hx. destruct Hx as [_ Hx].
    assert (existsb (N.eqb a) (lit "<!--") = true) as E; [|congruence].
    apply existsb_exists. exists a. split; [|apply N.eqb_refl]. apply elem_of_list_In, Hw, elem_of_list_here.
  - f_equal. apply IH. intros y Hy. apply Hw. by apply elem_of_list_further.
Qed.
Lemma tw_script : tag_word (lit "</script"). Proof. apply (bool_decide_unpack _). by vm_compute. Qed.
Lemma tw_open : tag_word (lit "<script"). Proof. apply (bool_decide_unpack _). by vm_compute. Qed.
Lemma tw_title : tag_word (lit "</title"). Proof. apply (bool_decide_unpack _). by vm_compute. Qed.
Lemma html_step_app st c s x t : neutral x = true -> html_step st c (c :: s ++ x :: t) = html_step st c (c :: s).
Proof.
  intros Hx. unfold html_step. change (c :: s ++ x :: t) with ((c :: s) ++ x :: t).
  rewrite (tag_at_app (lit "</script")), (tag_at_app (lit "<script")), (starts_app (lit "<!--")); auto using tw_script, tw_open.
Qed.
Lemma state_after_cons st c s : state_after st (c :: s) = match html_step st c (c :: s) with None => None | Some st' => state_after st' s end.
Proof. reflexivity. Qed.
Lemma state_after_app st s x t : neutral x = true ->
  state_after st (s ++ x :: t) = match state_after st s with None => None | Some st' => state_after st' (x :: t) end.
Proof.
  intros Hx. revert st. induction s as [|c s IH]; intros st; [done|]. cbn [app state_after]. rewrite (html_step_app st c s x t Hx).
  destruct (html_step st c (c :: s)); [apply IH|done].
Qed.
Lemma script_text_cons st c s : script_text st (c :: s) = match html_step st c (c :: s) with None => Some [] | Some st' => (fun t => c :: t) <$> script_text st' s end.
Proof. reflexivity. Qed.
Lemma script_text_app st s x t : neutral x = true ->
  match state_after st s with
  | None => exists a b, s = a ++ b /\ b <> [] /\ script_text st (s ++ x :: t) = Some a
  | Some st' => script_text st (s ++ x :: t) = (fun u => s ++ u) <$> script_text st' (x :: t)
  end.
Proof.
  intros Hx. revert st. induction s as [|c s IH]; intros st.
  - cbn [state_after]. change ([] ++ x :: t) with (x :: t). generalize (script_text st (x :: t)). by intros [u|].
  - cbn [state_after app]. rewrite script_text_cons, (html_step_app st c s x t Hx). destruct (html_step st c (c :: s)) as [st'|].
    + specialize (IH st'). destruct (state_after st' s) as [st2|].
      * rewrite IH. generalize (script_text st2 (x :: t)). by intros [u|].
      * destruct IH as (a & b & -> & Hb & E). exists (c :: a), b. split; [done|]. split; [done|]. by rewrite E.
    + by exists [], (c :: s).
Qed.

(** ** Constant texts *)
Definition dull (c : N) : bool := negb ((c =? c_less) || (c =? c_greater) || (c =? c_dash))%N.
Lemma dull_step st c s : dull c = true -> html_step st c s = Some (undash st).
Proof.
  unfold dull, html_step, more_dashes. intros H. apply negb_true_iff in H. apply orb_false_iff in H as [H H3]. apply orb_false_iff in H as [H1 H2].
  rewrite H1, H2, H3. by destruct st.
Qed.
Lemma undash_undash st : undash (undash st) = undash st.
Proof. by destruct st. Qed.
Lemma dull_after st k t : k <> [] -> forallb dull k = true -> state_after st (k ++ t) = state_after (undash st) t.
Proof.
  intros Hk. destruct k as [|c k]; [done|]. clear Hk. revert st c. induction k as [|d k IH]; intros st c H; apply andb_prop in H as [H1 H2].
  - cbn [app state_after]. by rewrite (dull_step st c _ H1).
  - change ((c :: d :: k) ++ t) with (c :: ((d :: k) ++ t)). rewrite state_after_cons, (dull_step st c _ H1), (IH (undash st) d H2). by rewrite undash_undash.
Qed.
Lemma dull_text k t : forallb dull k = true -> script_text InScript (k ++ t) = (fun u => k ++ u) <$> script_text InScript t.
Proof.
  induction k as [|c k IH]; intros H.
  - cbn [app]. generalize (script_text InScript t). by intros [u|].
  - apply andb_prop in H as [H1 H2]. change ((c :: k) ++ t) with (c :: (k ++ t)). rewrite script_text_cons, (dull_step InScript c _ H1).
    change (undash InScript) with InScript. rewrite (IH H2).
    generalize (script_text InScript t). by intros [u|].
Qed.

(** ** Escaping changes nothing *)
Lemma tag_at_escape w s : tag_word w -> tag_at w (escape s) = tag_at w s.
Proof.
  revert s. induction w as [|a w IH]; intros [|c s] Hw; [done| |done|]; rewrite escape_cons; unfold esc.
  - destruct (N.eqb_spec c c_backslash) as [->|H1]; [done|]. destruct (N.eqb_spec c c_backquote) as [->|H2]; done.
  - destruct (N.eqb_spec c c_backslash) as [->|H1].
    { cbn [app tag_at]. by rewrite (neutral_tag c_backslash a w). }
    destruct (N.eqb_spec c c_backquote) as [->|H2].
    { cbn [app tag_at]. by rewrite (neutral_tag c_backslash a w), (neutral_tag c_backquote a w). }
    cbn [app tag_at]. f_equal. apply IH. by eapply tag_word_tail.
Qed.
Lemma starts_escape w s : w ⊆ lit "<!--" -> starts w (escape s) = starts w s.
Proof.
  revert s. induction w as [|a w IH]; intros [|c s] Hw; [done|done|done|]; rewrite escape_cons; unfold esc.
  assert (a ∈ lit "<!--") as Ha by (apply Hw, elem_of_list_here).
  assert (forall x, x ∉ lit "<!--" -> (x =? a)%N = false) as K. { intros x Hx. apply N.eqb_neq. intros ->. done. }
  assert (c_backslash ∉ lit "<!--") as N1 by (apply (bool_decide_unpack _); by vm_compute).
  assert (c_backquote ∉ lit "<!--") as N2 by (apply (bool_decide_unpack _); by vm_compute).
  destruct (N.eqb_spec c c_backslash) as [->|H1]. { cbn [app starts]. by rewrite (K _ N1). }
  destruct (N.eqb_spec c c_backquote) as [->|H2]. { cbn [app starts]. by rewrite (K _ N1), (K _ N2). }
  cbn [app starts]. f_equal. apply IH. intros y Hy. apply Hw. by apply elem_of_list_further.
Qed.
Lemma after_escape st s : state_after st (escape s) = state_after st s.
Proof.
  revert st. induction s as [|c s IH]; intros st; [done|].
  destruct (decide (c = c_backslash \/ c = c_backquote)) as [D|D].
  - assert (exists e, escape (c :: s) = c_backslash :: e :: escape s /\ dull e = true) as (e & -> & He).
    { rewrite escape_cons. unfold esc. destruct D as [->| ->]; cbn; eauto. }
    assert (dull c = true) as Hc by (by destruct D as [->| ->]).
    cbn [state_after]. rewrite (dull_step st c_backslash _ eq_refl), (dull_step _ e _ He), (dull_step st c _ Hc), undash_undash. apply IH.
  - assert (escape (c :: s) = c :: escape s) as E.
    { rewrite escape_cons. unfold esc. destruct (N.eqb_spec c c_backslash); [tauto|]. destruct (N.eqb_spec c c_backquote); [tauto|]. done. }
    assert (html_step st c (c :: escape s) = html_step st c (c :: s)) as Es.
    { rewrite <- E. unfold html_step. rewrite (tag_at_escape (lit "</script")), (tag_at_escape (lit "<script")), (starts_escape (lit "<!--")); auto using tw_script, tw_open. }
    rewrite E. cbn [state_after]. rewrite Es. destruct (html_step st c (c :: s)); [apply IH|done].
Qed.

(** ** The drawing *)
Lemma after_quoted st k s t : k <> [] -> forallb dull k = true ->
  state_after st (k ++ c_backquote :: escape s ++ c_backquote :: t) =
  match state_after (undash st) s with None => None | Some st' => state_after (undash st') t end.
Proof.
  intros Hk Hd. rewrite dull_after by done. change (c_backquote :: escape s ++ ?x) with ([c_backquote] ++ escape s ++ x).
  rewrite dull_after by done. rewrite undash_undash, state_after_app by done. rewrite after_escape.
  destruct (state_after (undash st) s) as [st'|]; [|done]. change (c_backquote :: t) with ([c_backquote] ++ t). by rewrite dull_after.
Qed.
Definition child_labels_list (c : ast) : list str :=
  match c with Rule r => labels r | Terminal t => token_labels t | Error t => token_labels t end.
Lemma labels_unfold n cs i : labels (RuleCtx n cs i) = n :: concat (map child_labels_list cs).
Proof.
  cbn [labels]. f_equal. induction cs as [|[t|c|t] cs IH]; [done|..]; cbn [map concat child_labels_list]; by rewrite <- IH.
Qed.
Lemma labels_state_app st a b : labels_state st (a ++ b) = match labels_state st a with None => None | Some st' => labels_state st' b end.
Proof.
  revert st. induction a as [|s a IH]; intros st; cbn [app labels_state].
  - destruct b; cbn [labels_state]; by rewrite undash_undash.
  - destruct (state_after (undash st) s); [apply IH|done].
Qed.
Lemma labels_state_dash st l st' : labels_state st l = Some st' -> undash st' = st'.
Proof.
  revert st. induction l as [|s l IH]; intros st; cbn [labels_state].
  - intros [= <-]. apply undash_undash.
  - destruct (state_after (undash st) s); [apply IH|done].
Qed.
Lemma after_leaf st t u : state_after st (dump_leaf t ++ u) = match labels_state st (token_labels t) with None => None | Some st' => state_after st' u end.
Proof.
  assert (dump_leaf t ++ u = lit "{ name:" ++ c_backquote :: escape (token_name t) ++ c_backquote ::
    (lit ", text: " ++ c_backquote :: escape (text t) ++ c_backquote :: (lit "}" ++ u))) as ->.
  { unfold dump_leaf. rewrite <- !app_assoc. reflexivity. }
  rewrite after_quoted by done. unfold token_labels. cbn [labels_state]. destruct (state_after (undash st) (token_name t)) as [st1|]; [|done].
  rewrite after_quoted by done. rewrite undash_undash. destruct (state_after (undash st1) (text t)) as [st2|]; [|done].
  rewrite dull_after by done. by rewrite undash_undash.
Qed.
Lemma usize_dull i : forallb dull (usize_to_string i) = true.
Proof.
  pose proof (uint_str_digits (Nat.to_uint i)) as HF. unfold usize_to_string. apply forallb_forall. intros c Hc.
  rewrite Forall_forall in HF. apply elem_of_list_In, HF in Hc. unfold dull, c_less, c_greater, c_dash.
  rewrite !(proj2 (N.eqb_neq _ _)) by lia. done.
Qed.
Lemma after_child : forall c st u, state_after st (dump_child c ++ u) = match labels_state st (child_labels_list c) with None => None | Some st' => state_after st' u end.
Proof.
  refine (ast_rect' _ (fun r => forall st u, state_after st (dump r ++ u) = match labels_state st (labels r) with None => None | Some st' => state_after st' u end) _ _ _ _).
  - intros t st u. apply after_leaf.
  - intros t st u. apply after_leaf.
  - intros r H. exact H.
  - intros n cs i HF st u. rewrite dump_unfold, labels_unfold.
    match goal with |- state_after _ ?s = _ => assert (s = lit "{ name:" ++ c_backquote :: escape n ++ c_backquote ::
      ((lit ",id: `" ++ usize_to_string i ++ lit "`, children:[") ++ (concat (map (fun c => dump_child c ++ lit ",") cs) ++ (lit "],}" ++ u)))) as ->
      by (rewrite <- !app_assoc; reflexivity) end.
    rewrite after_quoted by done. cbn [labels_state]. destruct (state_after (undash st) n) as [st1|]; [|done].
    rewrite dull_after; [|done|rewrite !forallb_app, usize_dull; reflexivity].
    rewrite undash_undash.
    assert (forall st v, undash st = st -> state_after st (concat (map (fun c => dump_child c ++ lit ",") cs) ++ v) =
      match labels_state st (concat (map child_labels_list cs)) with None => None | Some st' => state_after st' v end) as Hcs.
    { clear -HF. induction HF as [|c cs Hc HF IH]; intros st v Hst; cbn [map concat].
      - cbn [app labels_state]. by rewrite Hst.
      - rewrite <- !app_assoc, Hc, labels_state_app. destruct (labels_state st (child_labels_list c)) as [st1|] eqn:E; [|done].
        rewrite dull_after by done. rewrite (labels_state_dash _ _ _ E). apply IH. by eapply labels_state_dash. }
    rewrite Hcs by apply undash_undash.
    assert (labels_state (undash st1) (concat (map child_labels_list cs)) = labels_state st1 (concat (map child_labels_list cs))) as ->.
    { generalize (concat (map child_labels_list cs)). intros [|x l]; cbn [labels_state]; by rewrite undash_undash. }
    destruct (labels_state st1 _) as [st2|] eqn:E; [|done]. rewrite dull_after by done. by rewrite (labels_state_dash _ _ _ E).
Qed.

(** ** The page's own script *)
Definition program : str := default [] (script_text InScript page_tail).
Lemma tail_kept st : undash st = st -> (forall n, st <> InDouble n) -> script_text st (59%N :: page_tail) = Some (59%N :: program).
Proof.
  intros Hu Hd. assert (bool_decide (script_text InScript (59%N :: page_tail) = Some (59%N :: program)) &&
    bool_decide (script_text (InEscaped 0) (59%N :: page_tail) = Some (59%N :: program)) = true) as H by (vm_compute; reflexivity).
  apply andb_prop in H as [H1%bool_decide_eq_true H2%bool_decide_eq_true].
  destruct st as [|n|n]; [exact H1| |by destruct (Hd n)]. injection Hu as <-. exact H2.
Qed.
Lemma tail_lost : script_text (InDouble 0) (59%N :: page_tail) = None.
Proof.
  assert (match script_text (InDouble 0) (59%N :: page_tail) with None => true | Some _ => false end = true) as H by (vm_compute; reflexivity).
  revert H. by destruct (script_text _ _).
Qed.
Lemma after_script r : state_after InScript (lit "const ast = " ++ dump r) = labels_state InScript (labels r).
Proof.
  rewrite dull_after by done. pose proof (after_child (Rule r) InScript []) as E. rewrite app_nil_r in E. cbn [dump_child child_labels_list] in E.
  cbn [undash]. rewrite E. by destruct (labels_state InScript (labels r)).
Qed.
Lemma c49_program r :
  match labels_state InScript (labels r) with
  | None => exists a b, script r = a ++ b /\ b <> [] /\ script_text InScript (script r ++ page_tail) = Some a
  | Some (InDouble _) => script_text InScript (script r ++ page_tail) = None
  | Some _ => script_text InScript (script r ++ page_tail) = Some (script r ++ program)
  end.
Proof.
  pose proof (script_text_app InScript (lit "const ast = " ++ dump r) 59%N page_tail eq_refl) as H.
  rewrite after_script in H. assert (script r ++ page_tail = (lit "const ast = " ++ dump r) ++ 59%N :: page_tail) as E.
  { unfold script. rewrite <- !app_assoc. reflexivity. }
  rewrite E. destruct (labels_state InScript (labels r)) as [st|] eqn:El.
  - rewrite H. pose proof (labels_state_dash _ _ _ El) as Hu. destruct st as [|n|n].
    + rewrite tail_kept by done. cbn [fmap option_fmap option_map]. f_equal. unfold script. rewrite <- !app_assoc. reflexivity.
    + rewrite tail_kept by done. cbn [fmap option_fmap option_map]. f_equal. unfold script. rewrite <- !app_assoc. reflexivity.
    + injection Hu as <-. by rewrite tail_lost.
  - destruct H as (a & b & Eab & Hb & Ht). exists a, (b ++ lit ";"). split; [|split; [by destruct b|exact Ht]].
    unfold script. rewrite app_assoc, Eab, <- app_assoc. reflexivity.
Qed.
Lemma c49_exact : exists program, forall r,
  match labels_state InScript (labels r) with
  | None => exists a b, script r = a ++ b /\ b <> [] /\ script_text InScript (script r ++ page_tail) = Some a
  | Some (InDouble _) => script_text InScript (script r ++ page_tail) = None
  | Some _ => script_text InScript (script r ++ page_tail) = Some (script r ++ program)
  end.
Proof. exists program. exact c49_program. Qed.

Lemma harmless_after s : ~ upsets s -> state_after InScript s = Some InScript.
Proof.
  induction s as [|c s IH]; intros H; [done|]. rewrite state_after_cons.
  assert (html_step InScript c (c :: s) = Some InScript) as ->.
  { unfold html_step. destruct (c =? c_less)%N; [|by destruct (c =? c_greater)%N].
    destruct (tag_at (lit "</script") (c :: s)) eqn:E1; [destruct H; exists [], (c :: s); auto|].
    destruct (starts (lit "<!--") (c :: s)) eqn:E2; [destruct H; exists [], (c :: s); auto|]. done. }
  apply IH. intros (a & b & -> & Hb). apply H. by exists (c :: a), b.
Qed.
Lemma harmless_labels l : (forall s, s ∈ l -> ~ upsets s) -> labels_state InScript l = Some InScript.
Proof.
  induction l as [|s l IH]; intros H; [done|]. cbn [labels_state undash]. rewrite harmless_after by (apply H, elem_of_list_here).
  apply IH. intros s' Hs. apply H. by apply elem_of_list_further.
Qed.
Lemma elem_labels s r : s ∈ labels r <-> label s r.
Proof.
  split.
  - revert r. refine (rule_ctx_rect' (fun a => match a with Rule r => s ∈ labels r -> label s r | _ => True end) _ _ _ _ _); [done|done|by intros r Hr|].
    intros n cs i HF. rewrite labels_unfold. intros [->|H]%elem_of_cons; [constructor|].
    apply elem_of_list_In, in_concat in H as (l & Hl & Hs). apply in_map_iff in Hl as (c & <- & Hc). apply elem_of_list_In in Hc, Hs.
    rewrite Forall_forall in HF. specialize (HF c Hc). destruct c as [t|c|t]; cbn [child_labels_list] in Hs.
    + unfold token_labels in Hs. apply elem_of_cons in Hs as [->|Hs]; [eapply label_name; eauto|]. apply elem_of_list_singleton in Hs as ->. eapply label_text; eauto.
    + eapply label_below; eauto.
    + unfold token_labels in Hs. apply elem_of_cons in Hs as [->|Hs]; [eapply label_name; eauto|]. apply elem_of_list_singleton in Hs as ->. eapply label_text; eauto.
  - assert (forall x (c : ast) n cs i, c ∈ cs -> x ∈ child_labels_list c -> x ∈ labels (RuleCtx n cs i)) as K.
    { intros x c n cs i Hc Hx. rewrite labels_unfold. apply elem_of_list_further, elem_of_list_In, in_concat.
      exists (child_labels_list c). split; [|by apply elem_of_list_In]. apply in_map, elem_of_list_In, Hc. }
    induction 1 as [cs i|t n cs i Ht <-|t n cs i Ht <-|c n cs i Hc _ IH].
    + rewrite labels_unfold. apply elem_of_list_here.
    + destruct Ht as [Ht|Ht]; apply (K _ _ _ _ _ Ht); apply elem_of_list_here.
    + destruct Ht as [Ht|Ht]; apply (K _ _ _ _ _ Ht); apply elem_of_list_further, elem_of_list_here.
    + by apply (K _ _ _ _ _ Hc).
Qed.
Lemma c49_kept : exists program, forall r, (forall s, label s r -> ~ upsets s) -> script_text InScript (script r ++ page_tail) = Some (script r ++ program).
Proof.
  destruct c49_exact as [program H]. exists program. intros r Hr. specialize (H r).
  rewrite harmless_labels in H; [exact H|]. intros s Hs%elem_labels. by apply Hr.
Qed.

Definition leaf_tree (s : str) : rule_ctx := RuleCtx (lit "a") [Terminal (token_new 2 (lit "X") s)] 0.
Lemma leaf_drawable s : drawable s -> drawable_tree (leaf_tree s).
Proof.
  assert (forall s, forallb (fun c => negb ((c =? c_dollar) || (c =? c_cr))%N) s = true -> drawable s) as Hdr.
  { intros x Hs. rewrite forallb_forall in Hs. split.
    - intros a b ->. specialize (Hs c_dollar). rewrite <- elem_of_list_In in Hs. discriminate Hs. set_solver.
    - intros H. apply elem_of_list_In in H. by apply Hs in H. }
  intros H. constructor.
  - by apply Hdr.
  - intros t [Ht|Ht]; [|set_solver]. apply elem_of_list_singleton in Ht as [= ->]. split; [by apply Hdr|exact H].
  - intros c Hc. set_solver.
Qed.
Lemma c49_refuted : exists r r' a b, drawable_tree r /\ script r = a ++ b /\ b <> [] /\ script_text InScript (script r ++ page_tail) = Some a /\
  drawable_tree r' /\ script_text InScript (script r' ++ page_tail) = None.
Proof.
  destruct c49_exact as [program H].
  pose proof (H (leaf_tree (lit "</script>"))) as H1. pose proof (H (leaf_tree (lit "<!--<script>"))) as H2.
  change (labels_state InScript (labels (leaf_tree (lit "</script>")))) with (@None script_state) in H1.
  assert (labels_state InScript (labels (leaf_tree (lit "<!--<script>"))) = Some (InDouble 0)) as E by reflexivity. rewrite E in H2.
  destruct H1 as (a & b & H1 & Hb & Ht).
  assert (forall s, drawable s <-> read_template (escape s ++ [c_backquote]) = Some (s, [])) as Hd by (intros s; symmetry; apply c21_escape).
  exists (leaf_tree (lit "</script>")), (leaf_tree (lit "<!--<script>")), a, b.
  split; [apply leaf_drawable, Hd; reflexivity|]. split; [exact H1|]. split; [exact Hb|]. split; [exact Ht|].
  split; [apply leaf_drawable, Hd; reflexivity|exact H2].
Qed.
Lemma ex_harmless : forall s, label s (leaf_tree (lit "</scripts><script>")) -> ~ upsets s.
Proof.
  assert (forall s, state_after InScript s = Some InScript -> forallb (fun k => negb (starts (lit "<!--") (drop k s))) (seq 0 (S (length s))) = true -> 
    forallb (fun k => negb (tag_at (lit "</script") (drop k s))) (seq 0 (S (length s))) = true -> ~ upsets s) as K.
  { intros s _ H1 H2 (a & b & -> & H). rewrite forallb_forall in H1, H2.
    assert (In (length a) (seq 0 (S (length (a ++ b))))) as Hin by (apply in_seq; rewrite app_length; lia).
    specialize (H1 _ Hin). specialize (H2 _ Hin). rewrite drop_app in H1, H2. apply negb_true_iff in H1, H2. destruct H; congruence. }
  intros s H%elem_labels. change (labels (leaf_tree (lit "</scripts><script>"))) with [lit "a"; lit "X"; lit "</scripts><script>"] in H.
  apply K; repeat (apply elem_of_cons in H as [->|H]; [reflexivity|]); by apply elem_of_nil in H.
Qed.
