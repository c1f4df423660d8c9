(** ViewRun.v -- the page after any sequence of events. *)
From Verif Require Export ViewPanes.
From Coq Require Import Lqa.

(** ** The view box *)
Lemma extremes_ok (at_ : place -> Z * Z) (ps : list place) : forall l0 r0 t0 b0 l r t b,
  foldl (fun lrtb p => let '(l, r, t, b) := lrtb in
           (if ((at_ p).1 <? (at_ l).1)%Z then p else l,
            if ((at_ r).1 <? (at_ p).1)%Z then p else r,
            if ((at_ p).2 <? (at_ t).2)%Z then p else t,
            if ((at_ b).2 <? (at_ p).2)%Z then p else b)) (l0, r0, t0, b0) ps = (l, r, t, b) ->
  ((at_ l).1 <= (at_ l0).1 /\ (at_ r0).1 <= (at_ r).1 /\ (at_ t).2 <= (at_ t0).2 /\ (at_ b0).2 <= (at_ b).2)%Z /\
  forall p, p ∈ ps -> ((at_ l).1 <= (at_ p).1 <= (at_ r).1 /\ (at_ t).2 <= (at_ p).2 <= (at_ b).2)%Z.
Proof.
  induction ps as [|x ps IH]; intros l0 r0 t0 b0 l r t b; cbn [foldl].
  - intros E. injection E as -> -> -> ->. split; [lia|]. intros p H. by apply elem_of_nil in H.
  - intros E. apply IH in E as [E1 E2].
    assert (K : ((at_ l).1 <= (at_ l0).1 /\ (at_ l).1 <= (at_ x).1 /\ (at_ r0).1 <= (at_ r).1 /\ (at_ x).1 <= (at_ r).1 /\
                (at_ t).2 <= (at_ t0).2 /\ (at_ t).2 <= (at_ x).2 /\ (at_ b0).2 <= (at_ b).2 /\ (at_ x).2 <= (at_ b).2)%Z).
    { destruct (Z.ltb_spec (at_ x).1 (at_ l0).1), (Z.ltb_spec (at_ r0).1 (at_ x).1), (Z.ltb_spec (at_ x).2 (at_ t0).2), (Z.ltb_spec (at_ b0).2 (at_ x).2); lia. }
    split; [lia|]. intros p Hp. apply elem_of_cons in Hp as [->|Hp]; [lia|by apply E2].
Qed.
Lemma extremes_are (at_ : place -> Z * Z) (ps : list place) : forall l0 r0 t0 b0 l r t b,
  foldl (fun lrtb p => let '(l, r, t, b) := lrtb in
           (if ((at_ p).1 <? (at_ l).1)%Z then p else l,
            if ((at_ r).1 <? (at_ p).1)%Z then p else r,
            if ((at_ p).2 <? (at_ t).2)%Z then p else t,
            if ((at_ b).2 <? (at_ p).2)%Z then p else b)) (l0, r0, t0, b0) ps = (l, r, t, b) ->
  (l = l0 \/ l ∈ ps) /\ (r = r0 \/ r ∈ ps) /\ (t = t0 \/ t ∈ ps) /\ (b = b0 \/ b ∈ ps).
Proof.
  induction ps as [|x ps IH]; intros l0 r0 t0 b0 l r t b; cbn [foldl].
  - intros E. injection E as -> -> -> ->. auto.
  - intros E. apply IH in E as (E1 & E2 & E3 & E4).
    repeat split; [clear -E1; destruct E1 as [->|E1]|clear -E2; destruct E2 as [->|E2]|clear -E3; destruct E3 as [->|E3]|clear -E4; destruct E4 as [->|E4]];
      try (right; by right).
    all: case_match; [right; by left|by left].
Qed.

(** ** The invariant *)
Section run.
Context (layout : layout_kind -> nat * nat -> outline_shape -> place -> Z * Z) (times : bool -> Q -> Q) (whole : ast).
Notation run := (view_run layout times (object_of whole)).

Record view_ok (n : place -> nat) (ps : pane_state) (s : view) : Prop := {
  vk_outline : exists closed, folded closed n /\ outline_ok (hnode_of whole) closed (v_outline s);
  vk_kind : v_kind s = p_kind ps;
  vk_current : v_current s = object_of (p_node ps);
  vk_width : v_width s = p_width ps;
  vk_height : v_height s = p_height ps;
  vk_button : ends_with (v_button s) (lit "(use cluster)") = match v_kind s with UseTree => true | UseCluster => false end;
  vk_tree : exists closed, folded closed (p_presses ps) /\ tree_ok layout (hnode_of (p_node ps)) closed (p_kind ps) (p_width ps, p_height ps) (v_tree s) }.

Lemma init_ok : view_ok (outline_clicks []) (pane_after whole []) (run []).
Proof.
  constructor; try done.
  - exists ∅. split; [apply folded_none|]. apply indent_tree_ok.
  - exists ∅. split; [apply folded_none|]. apply collapsible_tree_ok.
Qed.
Lemma render_ok n k a w h b s : (exists closed, folded closed n /\ outline_ok (hnode_of whole) closed (v_outline s)) ->
  ends_with b (lit "(use cluster)") = match k with UseTree => true | UseCluster => false end ->
  view_ok n (drawn_anew a k w h) (render layout (with_config k (object_of a) w h b s)).
Proof.
  intros H Hb. constructor; try done. exists ∅. split; [apply folded_none|]. apply collapsible_tree_ok.
Qed.
Lemma folded_ext closed n n' : (forall q, n' q = n q) -> folded closed n -> folded closed n'.
Proof. intros E F q. rewrite E. apply F. Qed.
Lemma view_ok_ext n n' ps s : (forall q, n' q = n q) -> view_ok n ps s -> view_ok n' ps s.
Proof.
  intros E []. constructor; try done. destruct vk_outline0 as (closed & F & O). exists closed. split; [|done]. by apply (folded_ext closed n).
Qed.
Lemma with_pointer_ok n ps s a b c d e f : view_ok n ps s -> view_ok n ps (with_pointer a b c d e f s).
Proof. intros []. by constructor. Qed.
Lemma clicks_other es e q : (forall p, e <> OutlineClick p) -> outline_clicks (es ++ [e]) q = outline_clicks es q.
Proof.
  intros H. unfold outline_clicks. rewrite filter_app, filter_cons_False by done. rewrite filter_nil, app_nil_r. done.
Qed.
Lemma step_ok es s e : view_ok (outline_clicks es) (pane_after whole es) s ->
  view_ok (outline_clicks (es ++ [e])) (pane_after whole (es ++ [e])) (step layout times s e).
Proof.
  intros V. unfold pane_after. rewrite foldl_app. fold (pane_after whole es). cbn [foldl].
  set (ps := pane_after whole es) in *. destruct e as [p|p|ks|p|ks|d|b x y|b|x y| | |m|m].
  2-13: apply (view_ok_ext (outline_clicks es)); [intros q; by apply clicks_other|].
  - destruct V as [(closed & F & O) V2 V3 V4 V5 V6 V7]. constructor; try done. exists (toggle p closed). split; [|by apply outline_click_ok].
    apply (folded_toggle _ (outline_clicks es)); [done| |].
    + unfold outline_clicks. rewrite filter_app, filter_cons_True by done. rewrite filter_nil, app_length. cbn. lia.
    + intros q Hq. unfold outline_clicks. rewrite filter_app, filter_cons_False by congruence. rewrite filter_nil, app_nil_r. done.
  - cbn [pane_step step]. destruct (vk_outline _ _ _ V) as (closed & F & O). rewrite (ok_root _ _ _ O), hnode_at_of.
    destruct (at_place whole p) as [a|]; cbn [fmap option_fmap option_map]; [|done].
    rewrite data_hnode_of, (vk_kind _ _ _ V), (vk_width _ _ _ V), (vk_height _ _ _ V). apply render_ok; [by exists closed|].
    rewrite (vk_button _ _ _ V). by rewrite (vk_kind _ _ _ V).
  - destruct V as [(closed & F & O) V2 V3 V4 V5 V6 V7]. constructor; try done. exists closed. split; [done|]. by apply outline_settle_ok.
  - destruct V as [V1 V2 V3 V4 V5 V6 (closed & F & O)]. constructor; try done. exists (toggle p closed). split; [|by apply tree_press_ok].
    apply (folded_toggle _ (p_presses ps)); [done| |].
    + cbn. by rewrite decide_True.
    + intros q Hq. cbn. by rewrite decide_False.
  - destruct V as [V1 V2 V3 V4 V5 V6 (closed & F & O)]. constructor; try done. exists closed. split; [done|]. by apply tree_settle_ok.
  - by apply with_pointer_ok.
  - cbn. destruct (b =? 0); [by apply with_pointer_ok|done].
  - cbn. destruct (b =? 0); [by apply with_pointer_ok|done].
  - cbn. destruct (v_down s); [by apply with_pointer_ok|done].
  - destruct V. by constructor.
  - cbn [pane_step step]. rewrite (vk_button _ _ _ V), (vk_current _ _ _ V), (vk_width _ _ _ V), (vk_height _ _ _ V). rewrite (vk_kind _ _ _ V).
    destruct (p_kind ps); cbn [other]; apply render_ok; try exact (vk_outline _ _ _ V); reflexivity.
  - cbn [pane_step step]. rewrite (vk_current _ _ _ V), (vk_height _ _ _ V), (vk_kind _ _ _ V). apply render_ok; [exact (vk_outline _ _ _ V)|].
    rewrite (vk_button _ _ _ V). by rewrite (vk_kind _ _ _ V).
  - cbn [pane_step step]. rewrite (vk_current _ _ _ V), (vk_width _ _ _ V), (vk_kind _ _ _ V). apply render_ok; [exact (vk_outline _ _ _ V)|].
    rewrite (vk_button _ _ _ V). by rewrite (vk_kind _ _ _ V).
Qed.
Lemma run_ok es : view_ok (outline_clicks es) (pane_after whole es) (run es).
Proof.
  induction es as [|e es IH] using rev_ind; [apply init_ok|]. unfold view_run. rewrite foldl_app. cbn [foldl]. by apply step_ok.
Qed.

(** ** C71: the outline *)
Lemma c71_any es : exists ps, rows whole (outline_clicks es) ps /\
  let o := v_outline (run es) in
  NoDup (map (fun e => fst (fst (fst e))) (staying (o_nodes o))) /\
  (forall p label x y, (p, label, x, y) ∈ staying (o_nodes o) <->
     exists i a, ps !! i = Some p /\ at_place whole p = Some a /\ label = node_name a /\ x = 25 * length p /\ y = 25 * i) /\
  NoDup (map fst (staying (o_links o))) /\
  (forall p x y v, (p, (x, y, v)) ∈ staying (o_links o) <->
     exists i j q k, ps !! i = Some p /\ p = q ++ [k] /\ ps !! j = Some q /\ x = 25 * length q /\ y = 25 * j /\ v = 25 * i).
Proof.
  destruct (run_ok es) as [(closed & F & O) _ _ _ _ _ _]. set (o := v_outline (run es)) in *. cbn zeta.
  set (l := each_before closed [] (hnode_of whole)). exists (map fst l). split; [by apply folded_rows|].
  assert (Hl : NoDup (map fst l)) by apply nodup_before.
  assert (Hc : forall m, m * node_size = 25 * m) by (intros m; unfold node_size; lia).
  assert (Hin : forall p, p ∈ map fst l <-> exists h, hvisible closed (hnode_of whole) p h).
  { intros p. rewrite elem_of_list_fmap. split.
    - intros ([q h] & -> & H). exists h. by apply elem_before_root.
    - intros (h & H). exists (p, h). split; [done|]. by apply elem_before_root. }
  split; [|split; [|split]].
  - rewrite (ok_nodes _ _ _ O), map_map. cbn. apply nodup_descendants.
  - intros p label x y. rewrite (ok_nodes _ _ _ O), elem_of_list_fmap. split.
    + intros ([q h] & E & H). unfold outline_fixed in E. cbn [fst snd] in E. injection E as -> -> -> ->. apply elem_descendants in H.
      destruct (hvisible_of _ _ _ _ H) as (a & Ha & ->).
      assert (Hq : q ∈ map fst l) by (apply Hin; by eexists). apply elem_of_list_lookup in Hq as [i Hi]. exists i, a. split; [done|]. split; [done|].
      split; [by rewrite data_hnode_of, name_of_object|]. split; [unfold node_size; lia|]. fold l. rewrite (row_y_index l i q Hl Hi). unfold node_size. lia.
    + intros (i & a & Hi & Ha & -> & -> & ->). assert (Hp : p ∈ map fst l) by (by eapply elem_of_list_lookup_2). apply Hin in Hp as (h & Hp).
      destruct (hvisible_of _ _ _ _ Hp) as (a' & Ha' & ->). assert (a' = a) as -> by congruence.
      exists (p, hnode_of a). split; [|by apply elem_descendants]. unfold outline_fixed. cbn [fst snd].
      rewrite data_hnode_of, name_of_object. fold l. rewrite (row_y_index l i p Hl Hi), !Hc. done.
  - rewrite (ok_links _ _ _ O), map_map. cbn. apply nodup_links.
  - assert (Hpar : forall q k h, hvisible closed (hnode_of whole) (q ++ [k]) h -> q ∈ map fst l).
    { intros q k h [H1 H2]. apply Hin. rewrite hnode_at_app in H1. destruct (hnode_at (hnode_of whole) q) as [h'|] eqn:E; [|done].
      exists h'. split; [done|]. intros r Hr. apply H2. destruct Hr as (i & r' & ->). exists i, (r' ++ [k]). by rewrite <- app_assoc. }
    intros p x y v. rewrite (ok_links _ _ _ O), elem_of_list_fmap. split.
    + intros ([q p'] & E & H). cbn [fst snd] in E. injection E as -> -> -> ->. apply elem_links in H as (k & h & -> & H).
      pose proof (Hpar q k h H) as Hq. apply elem_of_list_lookup in Hq as [j Hj].
      assert (Hp : q ++ [k] ∈ map fst l) by (apply Hin; by eexists). apply elem_of_list_lookup in Hp as [i Hi].
      exists i, j, q, k. fold l. rewrite (row_y_index l j q Hl Hj), (row_y_index l i _ Hl Hi). unfold node_size. repeat split; try done; lia.
    + intros (i & j & q & k & Hi & -> & Hj & -> & -> & ->). exists (q, q ++ [k]). split.
      * cbn [fst snd]. fold l. rewrite (row_y_index l j q Hl Hj), (row_y_index l i _ Hl Hi), !Hc. done.
      * apply elem_links. assert (Hp : q ++ [k] ∈ map fst l) by (by eapply elem_of_list_lookup_2). apply Hin in Hp as (h & Hp). by exists k, h.
Qed.
Lemma run_snoc es e : run (es ++ [e]) = step layout times (run es) e.
Proof. unfold view_run. by rewrite foldl_app. Qed.
Lemma c71_settles_any es : exists ks, all_staying (o_nodes (v_outline (run (es ++ [OutlineSettle ks])))) /\ all_staying (o_links (v_outline (run (es ++ [OutlineSettle ks])))).
Proof.
  exists (elements (dom (o_nodes (v_outline (run es))) ∪ dom (o_links (v_outline (run es))))). rewrite run_snoc. cbn.
  split; apply settle_all; intros k Hk; apply elem_of_elements, elem_of_union; [by left|by right].
Qed.

(** ** C72: the tree pane *)
Lemma in_shape_of p : forall closed q h, in_shape (live_shape closed q h) p <-> is_Some (hnode_at h p) /\ open_to closed q p.
Proof.
  induction p as [|i p IH]; intros closed q [d ks].
  - cbn. split; [intros _; split; [by eexists|apply open_nil]|done].
  - cbn [live_shape in_shape hnode_at kids_of]. rewrite open_cons. destruct (decide (q ∈ closed)) as [H|H]; [split; [done|tauto]|].
    set (go := fix go (i : nat) (ks : list hnode) : list outline_shape := match ks with [] => [] | k :: ks' => live_shape closed (q ++ [i]) k :: go (S i) ks' end).
    assert (E : forall m j, go m ks !! j = (fun k => live_shape closed (q ++ [m + j]) k) <$> (ks !! j)).
    { clear. induction ks as [|k ks IH]; intros m j; [done|]. destruct j as [|j]; cbn; [by rewrite Nat.add_0_r|].
      rewrite IH. replace (m + S j) with (S m + j) by lia. done. }
    rewrite (E 0 i). destruct (ks !! i) as [k|]; cbn; [rewrite IH; tauto|].
    split; [done|]. intros [[x Hx] _]. done.
Qed.
Lemma c72_any es : let s := pane_after whole es in exists ps shape, rows (p_node s) (p_presses s) ps /\ (forall p, in_shape shape p <-> p ∈ ps) /\
  let at_ := layout (p_kind s) (p_width s, p_height s) shape in
  let t := v_tree (run es) in
  NoDup (map (fun e => fst (fst (fst e))) (staying (t_nodes t))) /\
  (forall p title label xy, (p, title, label, xy) ∈ staying (t_nodes t) <->
     exists a, p ∈ ps /\ at_place (p_node s) p = Some a /\ title = pane_title a /\ label = pane_label a /\ xy = at_ p) /\
  NoDup (map fst (staying (t_links t))) /\
  (forall p from to, (p, (from, to)) ∈ staying (t_links t) <-> exists q k, p = q ++ [k] /\ p ∈ ps /\ from = at_ q /\ to = at_ p) /\
  exists l r u b, l ∈ ps /\ r ∈ ps /\ u ∈ ps /\ b ∈ ps /\
    t_view t = ((at_ l).1 - 40, (at_ u).2 - 40, (at_ r).1 - (at_ l).1 + 160, (at_ b).2 - (at_ u).2 + 50)%Z /\
    forall p, p ∈ ps -> ((at_ l).1 <= (at_ p).1 <= (at_ r).1 /\ (at_ u).2 <= (at_ p).2 <= (at_ b).2)%Z.
Proof.
  destruct (run_ok es) as [_ _ _ _ _ _ (closed & F & O)]. set (t := v_tree (run es)) in *. cbn zeta. set (s := pane_after whole es) in *.
  set (l := each_before closed [] (hnode_of (p_node s))). exists (map fst l), (live_shape closed [] (hnode_of (p_node s))).
  split; [by apply folded_rows|].
  assert (Hin : forall p, p ∈ map fst l <-> exists h, hvisible closed (hnode_of (p_node s)) p h).
  { intros p. rewrite elem_of_list_fmap. split.
    - intros ([q h] & -> & H). exists h. by apply elem_before_root.
    - intros (h & H). exists (p, h). split; [done|]. by apply elem_before_root. }
  set (at_ := layout (p_kind s) (p_width s, p_height s) (live_shape closed [] (hnode_of (p_node s)))).
  split; [|split; [|split; [|split; [|split]]]].
  - intros p. rewrite in_shape_of, Hin. unfold hvisible. split; [intros [[h Hh] H]; by exists h|]. intros (h & Hh & H). split; [by exists h|done].
  - rewrite (tk_nodes _ _ _ _ _ _ O), map_map. cbn. apply nodup_descendants.
  - intros p title label xy. rewrite (tk_nodes _ _ _ _ _ _ O), elem_of_list_fmap. split.
    + intros ([q h] & E & H). unfold tree_fixed in E. cbn [fst snd] in E. injection E as -> -> -> ->. apply elem_descendants in H.
      destruct (hvisible_of _ _ _ _ H) as (a & Ha & ->). exists a. rewrite title_of_object, label_of_object.
      split; [apply Hin; by eexists|]. done.
    + intros (a & Hp & Ha & -> & -> & ->). apply Hin in Hp as (h & Hp).
      destruct (hvisible_of _ _ _ _ Hp) as (a' & Ha' & ->). assert (a' = a) as -> by congruence.
      exists (p, hnode_of a). split; [|by apply elem_descendants]. unfold tree_fixed. cbn [fst snd]. by rewrite title_of_object, label_of_object.
  - rewrite (tk_links _ _ _ _ _ _ O), map_map. cbn. apply nodup_links.
  - intros p from to. rewrite (tk_links _ _ _ _ _ _ O), elem_of_list_fmap. split.
    + intros ([q p'] & E & H). cbn [fst snd] in E. injection E as -> -> ->. apply elem_links in H as (k & h & -> & H).
      exists q, k. split; [done|]. split; [apply Hin; by eexists|]. done.
    + intros (q & k & -> & Hp & -> & ->). exists (q, q ++ [k]). split; [done|]. apply elem_links. apply Hin in Hp as (h & Hp). by exists k, h.
  - rewrite (tk_view _ _ _ _ _ _ O). fold at_ l. unfold view_box, extremes.
    assert (Hroot : [] ∈ map fst l). { apply Hin. exists (hnode_of (p_node s)). split; [done|]. apply open_nil. }
    destruct (foldl _ _ _) as [[[lf r] u] b] eqn:E. exists lf, r, u, b.
    pose proof (extremes_are _ _ _ _ _ _ _ _ _ _ E) as (H1 & H2 & H3 & H4). pose proof (extremes_ok _ _ _ _ _ _ _ _ _ _ E) as [_ H5].
    split; [by destruct H1 as [->|H1]|]. split; [by destruct H2 as [->|H2]|]. split; [by destruct H3 as [->|H3]|]. split; [by destruct H4 as [->|H4]|].
    split; [|done]. apply (f_equal2 pair); [apply (f_equal2 pair); [apply (f_equal2 pair)|]|]; lia.
Qed.
Lemma c72_settles_any es : exists ks, all_staying (t_nodes (v_tree (run (es ++ [TreeSettle ks])))) /\ all_staying (t_links (v_tree (run (es ++ [TreeSettle ks])))).
Proof.
  exists (elements (dom (t_nodes (v_tree (run es))) ∪ dom (t_links (v_tree (run es))))). rewrite run_snoc. cbn.
  split; apply settle_all; intros k Hk; apply elem_of_elements, elem_of_union; [by left|by right].
Qed.
Lemma c72_button es : v_kind (run es) = p_kind (pane_after whole es) /\
  exists before, v_button (run es) = before ++ match p_kind (pane_after whole es) with UseTree => lit "(use cluster)" | UseCluster => lit "(use tree)" end.
Proof.
  split; [apply run_ok|]. rewrite <- (vk_kind _ _ _ (run_ok es)).
  induction es as [|e es IH] using rev_ind; [by exists (label_change ++ lit "cluster ")|]. rewrite run_snoc.
  pose proof (vk_button _ _ _ (run_ok es)) as B.
  destruct e as [p|p|ks|p|ks|d|b x y|b|x y| | |m|m]; cbn [step]; try exact IH.
  - destruct (hnode_at _ _); exact IH.
  - destruct (b =? 0); exact IH.
  - destruct (b =? 0); exact IH.
  - destruct (v_down _); exact IH.
  - destruct (ends_with _ _); cbn; [by exists (label_change ++ lit " tree ")|by exists (label_change ++ lit " cluster ")].
Qed.

(** ** C73: zoom, drag, reset *)
Lemma clamp_range q : (1 # 20 <= clamp q)%Q /\ (clamp q <= 4)%Q.
Proof.
  unfold clamp. destruct (Qle_bool q 4) eqn:E1.
  - apply Qle_bool_iff in E1. destruct (Qle_bool (1 # 20) q) eqn:E2.
    + apply Qle_bool_iff in E2. done.
    + split; [apply Qle_refl|]. by vm_compute.
  - split; [by vm_compute|apply Qle_refl].
Qed.
Lemma c73_shown es : v_transform (run es) = (v_x (run es), v_y (run es), v_scale (run es)) /\ (1 # 20 <= v_scale (run es))%Q /\ (v_scale (run es) <= 4)%Q.
Proof.
  induction es as [|e es IH] using rev_ind; [split; [done|]; split; by vm_compute|]. rewrite run_snoc.
  assert (R : forall s, v_transform (reset s) = (v_x (reset s), v_y (reset s), v_scale (reset s)) /\ (1 # 20 <= v_scale (reset s))%Q /\ (v_scale (reset s) <= 4)%Q).
  { intros s. split; [done|]. split; by vm_compute. }
  destruct e as [p|p|ks|p|ks|d|b x y|b|x y| | |m|m]; cbn [step]; try exact IH; try apply R.
  - destruct (hnode_at _ _); [apply R|exact IH].
  - split; [done|]. apply clamp_range.
  - destruct (b =? 0); exact IH.
  - destruct (b =? 0); exact IH.
  - destruct (v_down _); [|exact IH]. split; [done|]. exact (proj2 IH).
  - destruct (ends_with _ _); apply R.
Qed.

Lemma select_none p es : ~ is_Some (at_place whole p) -> hnode_at (o_root (v_outline (run es))) p = None.
Proof.
  intros H. destruct (vk_outline _ _ _ (run_ok es)) as (closed & _ & O). rewrite (ok_root _ _ _ O), hnode_at_of.
  destruct (at_place whole p); [|done]. destruct H. by eexists.
Qed.
Lemma select_some p es : is_Some (at_place whole p) -> is_Some (hnode_at (o_root (v_outline (run es))) p).
Proof.
  intros [a Ha]. destruct (vk_outline _ _ _ (run_ok es)) as (closed & _ & O). rewrite (ok_root _ _ _ O), hnode_at_of, Ha. by eexists.
Qed.
(** A quiet event leaves the button as it is, and moves only while it is pressed. *)
Lemma quiet_step es e : quiet whole e ->
  v_down (run (es ++ [e])) = v_down (run es) /\
  (v_down (run es) = false -> v_x (run (es ++ [e])) = v_x (run es) /\ v_y (run (es ++ [e])) = v_y (run es)) /\
  (v_down (run es) = true ->
     (v_x (run (es ++ [e])), v_y (run (es ++ [e]))) =
       (v_x (run es) + ((last_point (v_last (run es)) [e]).1 - (v_last (run es)).1), v_y (run es) + ((last_point (v_last (run es)) [e]).2 - (v_last (run es)).2))%Z /\
     v_last (run (es ++ [e])) = last_point (v_last (run es)) [e]).
Proof.
  intros (Q1 & Q2 & Q3). rewrite run_snoc. set (s := run es).
  assert (K : forall s', v_down s' = v_down s -> v_x s' = v_x s -> v_y s' = v_y s -> v_last s' = v_last s -> last_point (v_last s) [e] = v_last s ->
     v_down s' = v_down s /\ (v_down s = false -> v_x s' = v_x s /\ v_y s' = v_y s) /\
     (v_down s = true -> (v_x s', v_y s') = (v_x s + ((last_point (v_last s) [e]).1 - (v_last s).1), v_y s + ((last_point (v_last s) [e]).2 - (v_last s).2))%Z /\
        v_last s' = last_point (v_last s) [e])).
  { intros s' H1 H2 H3 H4 H5. rewrite H1, H2, H3, H4, H5. split; [done|]. split; [done|]. intros _. split; [|done]. f_equal; lia. }
  destruct e as [p|p|ks|p|ks|d|b x y|b|x y| | |m|m]; cbn [step]; try (by apply K); try (by destruct Q1).
  - unfold s. rewrite (select_none p es Q1). by apply K.
  - destruct b as [|b]; [by destruct (Q2 x y)|]. cbn. by apply K.
  - destruct b as [|b]; [by destruct Q3|]. cbn. by apply K.
  - destruct (v_down s) eqn:E; [|split; [done|]; split; [done|]; congruence]. cbn. done.
Qed.
Lemma last_point_snoc from gs e : last_point from (gs ++ [e]) = last_point (last_point from gs) [e].
Proof. unfold last_point. by rewrite foldl_app. Qed.
Lemma quiet_run gs : Forall (quiet whole) gs -> forall es,
  v_down (run (es ++ gs)) = v_down (run es) /\
  (v_down (run es) = false -> v_x (run (es ++ gs)) = v_x (run es) /\ v_y (run (es ++ gs)) = v_y (run es)) /\
  (v_down (run es) = true ->
     (v_x (run (es ++ gs)), v_y (run (es ++ gs))) =
       (v_x (run es) + ((last_point (v_last (run es)) gs).1 - (v_last (run es)).1), v_y (run es) + ((last_point (v_last (run es)) gs).2 - (v_last (run es)).2))%Z /\
     v_last (run (es ++ gs)) = last_point (v_last (run es)) gs).
Proof.
  intros H es. induction gs as [|e gs IH] using rev_ind.
  - rewrite app_nil_r. split; [done|]. split; [done|]. intros _. split; [|done]. cbn. f_equal; lia.
  - apply Forall_app in H as [H He]. apply Forall_cons in He as [He _]. destruct (IH H) as (I1 & I2 & I3).
    destruct (quiet_step (es ++ gs) e He) as (S1 & S2 & S3). rewrite app_assoc. split; [by rewrite S1|]. split.
    + intros D. destruct (I2 D) as [I4 I5]. rewrite <- I1 in D. destruct (S2 D) as [S4 S5]. by rewrite S4, S5.
    + intros D. destruct (I3 D) as [I4 I5]. rewrite <- I1 in D. destruct (S3 D) as [S4 S5]. rewrite S4, S5, I5, <- last_point_snoc. split; [|done].
      injection I4 as -> ->. f_equal; lia.
Qed.
Lemma offset_xy es : shown_offset (run es) = (v_x (run es), v_y (run es)).
Proof. unfold shown_offset. by rewrite (proj1 (c73_shown es)). Qed.
Lemma scale_v es : shown_scale (run es) = v_scale (run es).
Proof. unfold shown_scale. by rewrite (proj1 (c73_shown es)). Qed.

Lemma c73_drag_any es x y gs : Forall (quiet whole) gs ->
  shown_offset (run (es ++ PointerDown 0 x y :: gs)) =
    ((shown_offset (run es)).1 + ((last_point (x, y) gs).1 - x), (shown_offset (run es)).2 + ((last_point (x, y) gs).2 - y))%Z.
Proof.
  intros H. rewrite !offset_xy. replace (es ++ PointerDown 0 x y :: gs) with ((es ++ [PointerDown 0 x y]) ++ gs) by by rewrite <- app_assoc.
  destruct (quiet_run gs H (es ++ [PointerDown 0 x y])) as (_ & _ & K). rewrite run_snoc in K. cbn in K. by apply K.
Qed.
Lemma c73_idle_any es e gs : e = PointerUp 0 -> Forall (quiet whole) gs -> shown_offset (run (es ++ e :: gs)) = shown_offset (run es).
Proof.
  intros -> H. rewrite !offset_xy. replace (es ++ PointerUp 0 :: gs) with ((es ++ [PointerUp 0]) ++ gs) by by rewrite <- app_assoc.
  destruct (quiet_run gs H (es ++ [PointerUp 0])) as (_ & K & _). rewrite run_snoc in K. cbn in K. destruct (K eq_refl) as [-> ->]. done.
Qed.
Lemma put_back es e : puts_back whole e -> v_down (run (es ++ [e])) = false /\ v_x (run (es ++ [e])) = 0%Z /\ v_y (run (es ++ [e])) = 0%Z /\ v_scale (run (es ++ [e])) = 1%Q.
Proof.
  rewrite run_snoc. intros H. destruct e as [p|p|ks|p|ks|d|b x y|b|x y| | |m|m]; cbn [step]; try done.
  - destruct (select_some p es H) as [h ->]. done.
  - by destruct (ends_with _ _).
Qed.
Lemma c73_reset_any es e gs : puts_back whole e -> Forall (quiet whole) gs ->
  shown_scale (run (es ++ [e])) = 1%Q /\ shown_offset (run (es ++ e :: gs)) = (0, 0)%Z.
Proof.
  intros He H. destruct (put_back es e He) as (P1 & P2 & P3 & P4). split; [by rewrite scale_v|].
  rewrite offset_xy. replace (es ++ e :: gs) with ((es ++ [e]) ++ gs) by by rewrite <- app_assoc.
  destruct (quiet_run gs H (es ++ [e])) as (_ & K & _). destruct (K P1) as [-> ->]. by rewrite P2, P3.
Qed.
Lemma c73_start_any gs : Forall (quiet whole) gs -> shown_offset (run gs) = (0, 0)%Z.
Proof.
  intros H. rewrite offset_xy. destruct (quiet_run gs H []) as (_ & K & _). destruct (K eq_refl) as [A B]. cbn [app] in A, B. by rewrite A, B.
Qed.
Lemma c73_zoom_any es : shown_scale (run []) = 1%Q /\ (1 # 20 <= shown_scale (run es))%Q /\ (shown_scale (run es) <= 4)%Q /\
  (forall down, let q := times down (shown_scale (run es)) in let q' := shown_scale (run (es ++ [Wheel down])) in
     ((1 # 20 <= q)%Q -> (q <= 4)%Q -> q' = q) /\ ((4 < q)%Q -> q' = 4%Q) /\ ((q < 1 # 20)%Q -> q' = 1 # 20)) /\
  (forall e, (forall down, e <> Wheel down) -> ~ puts_back whole e -> shown_scale (run (es ++ [e])) = shown_scale (run es)).
Proof.
  split; [done|]. destruct (c73_shown es) as (_ & B & C). rewrite scale_v. split; [done|]. split; [done|]. split.
  - intros down. cbn zeta. rewrite scale_v, run_snoc. cbn. set (q := times down (v_scale (run es))). unfold clamp. repeat split.
    + intros H1 H2. apply Qle_bool_iff in H1, H2. by rewrite H2, H1.
    + intros H. destruct (Qle_bool q 4) eqn:E; [|done]. apply Qle_bool_iff in E. lra.
    + intros H. destruct (Qle_bool q 4) eqn:E.
      * destruct (Qle_bool (1 # 20) q) eqn:E'; [|done]. apply Qle_bool_iff in E'. lra.
      * destruct (Qlt_le_dec 4 q) as [L|L]; [lra|]. apply Qle_bool_iff in L. congruence.
  - intros e H1 H2. rewrite scale_v, run_snoc. destruct e as [p|p|ks|p|ks|d|b x y|b|x y| | |m|m]; cbn [step]; try done; try (by destruct H2).
    + by rewrite (select_none p es H2).
    + by destruct (H1 d).
    + by destruct (b =? 0).
    + by destruct (b =? 0).
    + by destruct (v_down _).
Qed.
End run.
