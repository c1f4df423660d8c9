(** ViewMain.v -- the page program on the trees main draws, and concrete cases. *)
From Verif Require Export ViewRun BootstrapProofs Page.

(** Document order is a strict order, so the rows are determined by what is visible. *)
Lemma earlier_nil p : ~ earlier p [].
Proof.
  intros H. remember [] as q eqn:E. destruct H as [a b H|r i j a b H]; subst; [by apply above_nil in H|]. by destruct r.
Qed.
Lemma earlier_cons i p j q : earlier (i :: p) (j :: q) <-> i < j \/ i = j /\ earlier p q.
Proof.
  split.
  - intros H. remember (i :: p) as a eqn:Ea. remember (j :: q) as b eqn:Eb. destruct H as [a b (k & r & E)|r k l a b H]; subst.
    + cbn in E. injection E as -> ->. right. split; [done|]. apply earlier_above. by exists k, r.
    + destruct r as [|x r]; cbn in Ea, Eb; injection Ea as <- <-; injection Eb as <- <-; [by left|]. right. split; [done|]. by apply earlier_left.
  - intros [H|[-> H]]; [by apply (earlier_left [])|]. destruct H as [a b H|r k l a b H].
    + apply earlier_above. by apply above_cons.
    + by apply (earlier_left (j :: r)).
Qed.
Lemma earlier_trans a : forall b c, earlier a b -> earlier b c -> earlier a c.
Proof.
  induction a as [|i a IH]; intros b c H1 H2.
  - destruct c as [|k c]; [by apply earlier_nil in H2|]. apply earlier_above, above_root.
  - destruct b as [|j b]; [by apply earlier_nil in H1|]. destruct c as [|k c]; [by apply earlier_nil in H2|].
    apply earlier_cons in H1, H2. apply earlier_cons. destruct H1 as [H1|[-> H1]], H2 as [H2|[-> H2]]; [left; lia|by left|by left|].
    right. split; [done|]. by apply (IH b).
Qed.
Lemma sorted_unique xs : StronglySorted earlier xs -> forall ys, StronglySorted earlier ys -> xs ≡ₚ ys -> xs = ys.
Proof.
  induction 1 as [|x xs Sx IH Hx]; intros ys Sys P; [by apply Permutation_nil in P|].
  destruct ys as [|y ys]; [symmetry in P; by apply Permutation_nil_cons in P|]. apply StronglySorted_inv in Sys as [Sy Hy].
  assert (x = y) as ->.
  { assert (Hxy : x ∈ y :: ys) by (rewrite <- P; by left). assert (Hyx : y ∈ x :: xs) by (rewrite P; by left).
    apply elem_of_cons in Hxy as [?|Hxy]; [done|]. apply elem_of_cons in Hyx as [?|Hyx]; [done|].
    rewrite Forall_forall in Hx, Hy. destruct (earlier_irrefl x). exact (earlier_trans _ _ _ (Hx y Hyx) (Hy x Hxy)). }
  f_equal. apply IH; [done|]. by apply Permutation_cons_inv in P.
Qed.

Lemma c71_outline layout times r es : exists ps, rows (Rule r) (outline_clicks es) ps /\
  let o := v_outline (view_run layout times (tree_js r) es) in
  NoDup (map (fun e => fst (fst (fst e))) (staying (o_nodes o))) /\
  (forall p label x y, (p, label, x, y) ∈ staying (o_nodes o) <->
     exists i a, ps !! i = Some p /\ at_place (Rule r) p = Some a /\ label = node_name a /\ x = 25 * length p /\ y = 25 * i) /\
  NoDup (map fst (staying (o_links o))) /\
  (forall p x y v, (p, (x, y, v)) ∈ staying (o_links o) <->
     exists i j q k, ps !! i = Some p /\ p = q ++ [k] /\ ps !! j = Some q /\ x = 25 * length q /\ y = 25 * j /\ v = 25 * i).
Proof. exact (c71_any layout times (Rule r) es). Qed.
Lemma c71_settles layout times r es : exists ks, let o := v_outline (view_run layout times (tree_js r) (es ++ [OutlineSettle ks])) in
  all_staying (o_nodes o) /\ all_staying (o_links o).
Proof. exact (c71_settles_any layout times (Rule r) es). Qed.

(** Two more clicks at the same node, with anything in between that does not click in the outline, restore what is shown. *)
Lemma c71_twice layout times r es p gs : (forall q, OutlineClick q ∉ gs) ->
  forall e, e ∈ staying (o_nodes (v_outline (view_run layout times (tree_js r) (es ++ OutlineClick p :: gs ++ [OutlineClick p])))) <->
            e ∈ staying (o_nodes (v_outline (view_run layout times (tree_js r) es))).
Proof.
  intros Hg. set (es' := es ++ OutlineClick p :: gs ++ [OutlineClick p]).
  assert (Hn : forall q, outline_clicks es' q = outline_clicks es q + (if decide (q = p) then 2 else 0)).
  { intros q. unfold outline_clicks, es'. rewrite filter_app, filter_cons, filter_app, filter_cons, filter_nil.
    assert (E : filter (fun e => e = OutlineClick q) gs = []).
    { destruct (filter _ gs) as [|e l] eqn:E; [done|]. assert (H : e ∈ filter (fun e => e = OutlineClick q) gs) by (rewrite E; by left).
      apply elem_of_list_filter in H as [-> H]. by destruct (Hg q). }
    rewrite E. destruct (decide (q = p)) as [->|Hne].
    - rewrite !decide_True by done. rewrite app_length. cbn. lia.
    - rewrite !decide_False by congruence. rewrite app_length. cbn. lia. }
  assert (Hv : forall q, visible (Rule r) (outline_clicks es') q <-> visible (Rule r) (outline_clicks es) q).
  { intros q. unfold visible. apply and_iff_compat_l. split; intros H q' Hq'; specialize (H q' Hq'); rewrite (Hn q') in *; destruct (decide (q' = p)).
    - destruct H as [m H]. exists (m - 1). lia.
    - by rewrite Nat.add_0_r in H.
    - destruct H as [m H]. exists (m + 1). lia.
    - by rewrite Nat.add_0_r. }
  destruct (c71_outline layout times r es') as (ps' & [S' M'] & _ & N' & _). destruct (c71_outline layout times r es) as (ps & [S0 M] & _ & N & _).
  assert (ps' = ps) as ->.
  { assert (P : ps' ≡ₚ ps). { apply NoDup_Permutation; [by apply sorted_nodup|by apply sorted_nodup|]. intros q. by rewrite M', M. }
    by apply sorted_unique. }
  intros [[[q label] x] y]. by rewrite N', N.
Qed.

Lemma c72_pane layout times r es : let s := pane_after (Rule r) es in
  exists ps shape, rows (p_node s) (p_presses s) ps /\ (forall p, in_shape shape p <-> p ∈ ps) /\
  let at_ := layout (p_kind s) (p_width s, p_height s) shape in
  let t := v_tree (view_run layout times (tree_js r) es) in
  NoDup (map (fun e => fst (fst (fst e))) (staying (t_nodes t))) /\
  (forall p title label xy, (p, title, label, xy) ∈ staying (t_nodes t) <->
     exists a, p ∈ ps /\ at_place (p_node s) p = Some a /\ title = pane_title a /\ label = pane_label a /\ xy = at_ p) /\
  NoDup (map fst (staying (t_links t))) /\
  (forall p from to, (p, (from, to)) ∈ staying (t_links t) <-> exists q k, p = q ++ [k] /\ p ∈ ps /\ from = at_ q /\ to = at_ p) /\
  exists l r u b, l ∈ ps /\ r ∈ ps /\ u ∈ ps /\ b ∈ ps /\
    t_view t = ((at_ l).1 - 40, (at_ u).2 - 40, (at_ r).1 - (at_ l).1 + 160, (at_ b).2 - (at_ u).2 + 50)%Z /\
    forall p, p ∈ ps -> ((at_ l).1 <= (at_ p).1 <= (at_ r).1 /\ (at_ u).2 <= (at_ p).2 <= (at_ b).2)%Z.
Proof. exact (c72_any layout times (Rule r) es). Qed.
Lemma c72_settles layout times r es : exists ks, let t := v_tree (view_run layout times (tree_js r) (es ++ [TreeSettle ks])) in
  all_staying (t_nodes t) /\ all_staying (t_links t).
Proof. exact (c72_settles_any layout times (Rule r) es). Qed.
Lemma c72_switch layout times r es : exists before, v_button (view_run layout times (tree_js r) es) =
  before ++ match p_kind (pane_after (Rule r) es) with UseTree => lit "(use cluster)" | UseCluster => lit "(use tree)" end.
Proof. exact (proj2 (c72_button layout times (Rule r) es)). Qed.

(** Labels: a token's text, and the name of a rule that has children. *)
Lemma c72_labels layout times r es p title label xy a :
  (p, title, label, xy) ∈ staying (t_nodes (v_tree (view_run layout times (tree_js r) es))) ->
  at_place (p_node (pane_after (Rule r) es)) p = Some a -> (forall n i, a <> Rule (RuleCtx n [] i)) -> label = meant_label a.
Proof.
  intros H Ha Hn. destruct (c72_pane layout times r es) as (ps & shape & _ & _ & _ & N & _).
  apply N in H as (a' & _ & Ha' & _ & -> & _). assert (a' = a) as -> by congruence.
  destruct a as [t|[n [|c cs] i]|t]; [done| |done|done]. by destruct (Hn n i).
Qed.
(** The page main writes for the empty text: one node, without a label. *)
Lemma empty_runs : exists r, main_run ascii_digit shipped_order 3000 syntaxis2_json [] = Ret (r, [], None, []) /\
  bool_decide (rule_name r = lit "rule_list" /\ children r = []) = true.
Proof. apply (runs_to_ret (fun r => bool_decide (rule_name r = lit "rule_list" /\ children r = []))). vm_compute. reflexivity. Qed.
Lemma bare_root layout times r : children r = [] -> rule_name r = lit "rule_list" -> exists p title label xy a,
    (p, title, label, xy) ∈ staying (t_nodes (v_tree (view_run layout times (tree_js r) []))) /\ at_place (Rule r) p = Some a /\ label <> meant_label a.
Proof.
  intros Hc Hn. destruct (c72_pane layout times r []) as (ps & shape & [_ V] & _ & _ & N & _).
  eexists [], _, _, _, (Rule r). split; [|split; [done|]].
  - apply N. exists (Rule r). split; [|split; [done|split; [done|split; [done|done]]]].
    apply V. split; [by eexists|]. intros q Hq. by apply above_nil in Hq.
  - destruct r as [n cs i]. cbn in Hn, Hc |- *. subst n cs. done.
Qed.
Lemma c72_labels_refuted : exists nd g d order fuel r,
  digits_ok nd /\ load_ast syntaxis2_json = Ret (g, d) /\ iteration_order g order /\
  main_run nd order fuel syntaxis2_json [] = Ret (r, [], None, []) /\
  forall layout times, exists p title label xy a,
    (p, title, label, xy) ∈ staying (t_nodes (v_tree (view_run layout times (tree_js r) []))) /\ at_place (Rule r) p = Some a /\ label <> meant_label a.
Proof.
  destruct empty_runs as (r & Hr & H). apply bool_decide_eq_true in H as [Hn Hc].
  exists ascii_digit, shipped, (rules_of shipped_tree), shipped_order, 3000, r.
  split; [exact ascii_digit_ok|]. split; [exact shipped_load|]. split; [exact shipped_order_ok|]. split; [exact Hr|].
  intros layout times. exact (bare_root layout times r Hc Hn).
Qed.

Lemma c73_shows layout times r es : let s := view_run layout times (tree_js r) es in
  shown_scale (view_run layout times (tree_js r) []) = 1%Q /\ (1 # 20 <= shown_scale s)%Q /\ (shown_scale s <= 4)%Q /\
  (forall down, let q := times down (shown_scale s) in let q' := shown_scale (view_run layout times (tree_js r) (es ++ [Wheel down])) in
     ((1 # 20 <= q)%Q -> (q <= 4)%Q -> q' = q) /\ ((4 < q)%Q -> q' = 4%Q) /\ ((q < 1 # 20)%Q -> q' = 1 # 20)) /\
  (forall e, (forall down, e <> Wheel down) -> ~ puts_back (Rule r) e -> shown_scale (view_run layout times (tree_js r) (es ++ [e])) = shown_scale s).
Proof. exact (c73_zoom_any layout times (Rule r) es). Qed.
Lemma c73_drag layout times r es x y gs : Forall (quiet (Rule r)) gs ->
  let before := shown_offset (view_run layout times (tree_js r) es) in
  shown_offset (view_run layout times (tree_js r) (es ++ PointerDown 0 x y :: gs)) =
    (before.1 + ((last_point (x, y) gs).1 - x), before.2 + ((last_point (x, y) gs).2 - y))%Z.
Proof. exact (c73_drag_any layout times (Rule r) es x y gs). Qed.
Lemma c73_released layout times r es gs : Forall (quiet (Rule r)) gs ->
  shown_offset (view_run layout times (tree_js r) (es ++ PointerUp 0 :: gs)) = shown_offset (view_run layout times (tree_js r) es).
Proof. exact (c73_idle_any layout times (Rule r) es _ gs eq_refl). Qed.
Lemma c73_reset layout times r es e gs : puts_back (Rule r) e -> Forall (quiet (Rule r)) gs ->
  shown_scale (view_run layout times (tree_js r) (es ++ [e])) = 1%Q /\ shown_offset (view_run layout times (tree_js r) (es ++ e :: gs)) = (0, 0)%Z.
Proof. exact (c73_reset_any layout times (Rule r) es e gs). Qed.
Lemma c73_start layout times r gs : Forall (quiet (Rule r)) gs -> shown_offset (view_run layout times (tree_js r) gs) = (0, 0)%Z.
Proof. exact (c73_start_any layout times (Rule r) gs). Qed.

(** *** Concrete cases *)
Definition ex_view_token (n t : str) : ast := Terminal (Token 2 n (Position 0 0) (Position 0 1) 0 t 0 0 1).
Definition ex_view_tree : rule_ctx :=
  RuleCtx (lit "sum") [ex_view_token (lit "NUM") (lit "1"); Rule (RuleCtx (lit "more") [ex_view_token (lit "PLUS") (lit "+"); ex_view_token (lit "NUM") (lit "2")] 1)] 0.
Definition ex_layout (k : layout_kind) (size : nat * nat) (s : outline_shape) (p : place) : Z * Z :=
  (Z.of_nat (fst size * list_sum p), Z.of_nat (snd size * length p)).
Definition ex_times (down : bool) (q : Q) : Q := if down then (q * (10 # 11))%Q else (q * (11 # 10))%Q.
Definition ex_run (es : list event) : view := view_run ex_layout ex_times (tree_js ex_view_tree) es.
(** After a click on the second child two elements are leaving, and a second click makes them stay. *)
Lemma ex_outline : visible (Rule ex_view_tree) (outline_clicks []) [1; 0] /\ ~ visible (Rule ex_view_tree) (outline_clicks [OutlineClick [1]]) [1; 0] /\
  length (staying (o_nodes (v_outline (ex_run [])))) = 5 /\ length (staying (o_nodes (v_outline (ex_run [OutlineClick [1]])))) = 3 /\
  size (o_nodes (v_outline (ex_run [OutlineClick [1]]))) = 5 /\ size (o_nodes (v_outline (ex_run [OutlineClick [1]; OutlineSettle [3; 4]]))) = 3.
Proof.
  split.
  - split; [by eexists|]. intros q _. by exists 0.
  - split; [|by vm_compute]. intros [_ H]. specialize (H [1]). destruct H as [m H]; [by exists 0, []|].
    change (outline_clicks [OutlineClick [1]] [1]) with 1 in H. lia.
Qed.
(** The second child selected, drawn as a cluster, and folded: one node. *)
Lemma ex_pane : let es := [OutlineSelect [1]; PressSwitch; TreePress []] in
  p_node (pane_after (Rule ex_view_tree) es) = Rule (RuleCtx (lit "more") [ex_view_token (lit "PLUS") (lit "+"); ex_view_token (lit "NUM") (lit "2")] 1) /\
  staying (t_nodes (v_tree (ex_run es))) = [([], lit "1", lit "more", (0, 0)%Z)] /\
  staying (t_nodes (v_tree (ex_run [OutlineSelect [1]; PressSwitch]))) ≡ₚ
    [([], lit "1", lit "more", (0, 0)%Z); ([0], lit "PLUS", lit "+", (0, 96)%Z); ([1], lit "NUM", lit "2", (128, 96)%Z)].
Proof. split; [done|]. split; [by vm_compute|]. vm_compute. apply Permutation_refl'. reflexivity. Qed.
(** A drag with a turn of the wheel on the way. *)
Lemma ex_drag : let gs := [PointerMove 5 7; Wheel false; PointerMove 12 3; PointerUp 2] in
  Forall (quiet (Rule ex_view_tree)) gs /\
  v_transform (ex_run (PointerDown 0 2 2 :: gs ++ [PointerUp 0; PointerMove 100 100])) = (10%Z, 1%Z, 11 # 10).
Proof. split; [|by vm_compute]. repeat constructor; cbn; intros; try tauto; congruence. Qed.
Lemma ex_label : exists title xy, ([1; 0], title, lit "+", xy) ∈ staying (t_nodes (v_tree (ex_run []))).
Proof.
  destruct (c72_pane ex_layout ex_times ex_view_tree []) as (ps & shape & [_ V] & _ & _ & N & _). eexists _, _. apply N.
  eexists. split; [|split; [reflexivity|split; [reflexivity|split; reflexivity]]].
  apply V. split; [by eexists|]. intros q _. by exists 0.
Qed.
