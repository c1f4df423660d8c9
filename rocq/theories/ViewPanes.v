(** ViewPanes.v -- what the two panes show after any sequence of events. *)
From Verif Require Export ViewProofs.
From Coq Require Import Lqa.

(** ** Any pane *)
Section pane.
  Context (root : hnode).
  Let ids := map fst (descendants ∅ root).
  Lemma in_ids p h : hnode_at root p = Some h -> p ∈ ids.
  Proof.
    intros H. apply elem_of_list_fmap. exists (p, h). split; [done|]. apply elem_descendants. split; [done|].
    intros r' _. apply not_elem_of_empty.
  Qed.
  Definition node_content {A} (f : place -> hnode -> A) (k : nat) (a : A) : Prop :=
    exists p h, hnode_at root p = Some h /\ k = id_in ids p /\ a = f p h.
  Lemma node_keys closed {C} (g : place * hnode -> C) nodes : nodes ≡ₚ descendants closed root ->
    NoDup (map fst (map (fun n => (id_in ids (fst n), g n)) nodes)).
  Proof.
    intros P. rewrite map_map. cbn.
    assert (Hnd : NoDup nodes). { rewrite P. apply nodup_fst, nodup_descendants. }
    apply NoDup_fmap_2_strong; [|done]. intros [p h] [q k] Hp Hq E. cbn in E. rewrite P in Hp, Hq.
    apply elem_descendants in Hp as [Hp _], Hq as [Hq _]. apply id_in_inj in E; [|by eapply in_ids|by eapply in_ids]. congruence.
  Qed.
  Lemma node_data_content closed {A B} (f : place -> hnode -> A) (g : place * hnode -> B) nodes k a b :
    nodes ≡ₚ descendants closed root ->
    (k, (a, b)) ∈ map (fun n => (id_in ids (fst n), (f (fst n) (snd n), g n))) nodes -> node_content f k a.
  Proof.
    intros P H. apply elem_of_list_fmap in H as ([p h] & E & H). rewrite P in H. apply elem_descendants in H as [H _].
    cbn in E. injection E as -> -> ->. by exists p, h.
  Qed.
  Lemma node_content_det {A} (f : place -> hnode -> A) k a a' : node_content f k a -> node_content f k a' -> a' = a.
  Proof.
    intros (p & h & Hp & -> & ->) (q & h' & Hq & E & ->).
    apply id_in_inj in E; [|by eapply in_ids|by eapply in_ids]. subst q. congruence.
  Qed.
  Lemma nodes_stay closed {A B} (f : place -> hnode -> A) (g : place * hnode -> B) nodes old :
    nodes ≡ₚ descendants closed root -> keeps (node_content f) old ->
    let data := map (fun n => (id_in ids (fst n), (f (fst n) (snd n), g n))) nodes in
    keeps (node_content f) (join old data) /\ staying (join old data) ≡ₚ map (fun n => (f (fst n) (snd n), g n)) (descendants closed root).
  Proof.
    intros P Ho data. assert (Hnd : NoDup (map fst data)) by by eapply node_keys. split.
    - apply keeps_join; [done|done|]. intros k a b. by apply (node_data_content closed).
    - rewrite (staying_join (node_content f)); [|done|done|].
      + unfold data. rewrite map_map. cbn. by rewrite P.
      + intros k a a' b Hin. apply node_content_det. by eapply (node_data_content closed).
  Qed.

  (** Links. *)
  Lemma elem_links closed q p : (q, p) ∈ links closed root <-> exists i h, p = q ++ [i] /\ hvisible closed root p h.
  Proof.
    unfold links. rewrite elem_of_list_fmap. split.
    - intros ([p' h] & E & H). cbn [fst snd] in E. injection E as -> ->. apply elem_of_list_filter in H as [Hne H]. cbn [fst snd] in Hne.
      apply elem_descendants in H. destruct (exists_last Hne) as (q' & i & ->). exists i, h. rewrite removelast_last. done.
    - intros (i & h & -> & H). exists (q ++ [i], h). split; [cbn [fst snd]; by rewrite removelast_last|]. apply elem_of_list_filter. split.
      + cbn. by destruct q.
      + by apply elem_descendants.
  Qed.
  Lemma nodup_links closed : NoDup (map snd (links closed root)).
  Proof.
    unfold links. rewrite map_map. cbn. apply NoDup_fmap_2_strong.
    - intros [p h] [q k] Hp Hq E. cbn in E. subst q. apply elem_of_list_filter in Hp as [_ Hp], Hq as [_ Hq].
      apply elem_descendants in Hp as [Hp _], Hq as [Hq _]. congruence.
    - apply NoDup_filter, nodup_fst, nodup_descendants.
  Qed.
  Lemma links_stay closed {B} (g : place * place -> B) old : keeps (node_content (fun p _ => p)) old ->
    let data := map (fun l => (id_in ids (snd l), (snd l, g l))) (links closed root) in
    keeps (node_content (fun p _ => p)) (join old data) /\ staying (join old data) ≡ₚ map (fun l => (snd l, g l)) (links closed root).
  Proof.
    intros Ho data.
    assert (Hc : forall k a b, (k, (a, b)) ∈ data -> node_content (fun p _ => p) k a).
    { intros k a b H. apply elem_of_list_fmap in H as ([q p] & E & H). cbn in E. injection E as -> -> _.
      apply elem_links in H as (i & h & _ & H & _). by exists p, h. }
    assert (Hnd : NoDup (map fst data)).
    { unfold data. rewrite map_map. cbn. pose proof (nodup_links closed) as Hl.
      apply NoDup_fmap_2_strong; [|by eapply NoDup_fmap_1]. intros [q p] [q' p'] H H' E. cbn in E.
      apply elem_links in H as (i & h & -> & H & _), H' as (i' & h' & -> & H' & _).
      apply id_in_inj in E; [|by eapply in_ids|by eapply in_ids]. apply app_inj_2 in E as [-> E]; [|done]. by injection E as ->. }
    split.
    - by apply keeps_join.
    - rewrite (staying_join (node_content (fun p _ => p))); [|done|done|].
      + unfold data. by rewrite map_map.
      + intros k a a' b Hin. apply node_content_det. by eapply Hc.
  Qed.
End pane.

(** ** The outline *)
Definition outline_fixed (p : place) (h : hnode) : place * str * nat :=
  (p, shown_text (get (lit "name") (data_of h)), length p * node_size).
Record outline_ok (root : hnode) (closed : gset place) (o : outline) : Prop := {
  ok_root : o_root o = root;
  ok_ids : o_ids o = map fst (descendants ∅ root);
  ok_closed : o_closed o = closed;
  ok_keep : keeps (node_content root outline_fixed) (o_nodes o);
  ok_keep_links : keeps (node_content root (fun p _ => p)) (o_links o);
  ok_nodes : staying (o_nodes o) ≡ₚ map (fun n => (outline_fixed (fst n) (snd n), row_y (each_before closed [] root) (fst n))) (descendants closed root);
  ok_links : staying (o_links o) ≡ₚ map (fun l => (snd l, (length (fst l) * node_size, row_y (each_before closed [] root) (fst l), row_y (each_before closed [] root) (snd l)))) (links closed root) }.

Lemma outline_update_ok root closed ns ls : keeps (node_content root outline_fixed) ns -> keeps (node_content root (fun p _ => p)) ls ->
  outline_ok root closed (outline_update (Outline root (map fst (descendants ∅ root)) closed ns ls)).
Proof.
  intros H1 H2.
  destruct (nodes_stay root closed outline_fixed (fun n => row_y (each_before closed [] root) (fst n)) _ ns (reflexivity _) H1) as [A B].
  destruct (links_stay root closed (fun l => (length (fst l) * node_size, row_y (each_before closed [] root) (fst l), row_y (each_before closed [] root) (snd l))) ls H2) as [C D].
  unfold outline_update. cbn [o_root o_ids o_closed o_nodes o_links].
  constructor; cbn [o_root o_ids o_closed o_nodes o_links]; [done|done|done|exact A|exact C|exact B|exact D].
Qed.
Lemma keeps_empty {A B} c : keeps c (∅ : gmap nat (elem A B)).
Proof. intros k e H. by rewrite lookup_empty in H. Qed.
Lemma indent_tree_ok v : outline_ok (hierarchy v) ∅ (indent_tree v).
Proof. apply outline_update_ok; apply keeps_empty. Qed.
Lemma outline_click_ok root closed o p : outline_ok root closed o -> outline_ok root (toggle p closed) (outline_click p o).
Proof.
  intros []. unfold outline_click. rewrite ok_root0, ok_ids0, ok_closed0. by apply outline_update_ok.
Qed.
Lemma outline_settle_ok root closed o ks : outline_ok root closed o -> outline_ok root closed (outline_settle ks o).
Proof.
  intros []. constructor; cbn; try done.
  - by apply keeps_settle.
  - by apply keeps_settle.
  - by rewrite staying_settle.
  - by rewrite staying_settle.
Qed.

(** ** The tree pane *)
Section tree.
Context (layout : layout_kind -> nat * nat -> outline_shape -> place -> Z * Z).
Definition tree_fixed (p : place) (h : hnode) : place * str * str := (p, tree_title h, tree_label h).
Record tree_ok (root : hnode) (closed : gset place) (kind : layout_kind) (size : nat * nat) (t : tree_pane) : Prop := {
  tk_root : t_root t = root;
  tk_ids : t_ids t = map fst (descendants ∅ root);
  tk_closed : t_closed t = closed;
  tk_kind : t_kind t = kind;
  tk_size : t_size t = size;
  tk_keep : keeps (node_content root tree_fixed) (t_nodes t);
  tk_keep_links : keeps (node_content root (fun p _ => p)) (t_links t);
  tk_nodes : staying (t_nodes t) ≡ₚ map (fun n => (tree_fixed (fst n) (snd n), layout kind size (live_shape closed [] root) (fst n))) (descendants closed root);
  tk_links : staying (t_links t) ≡ₚ map (fun l => (snd l, (layout kind size (live_shape closed [] root) (fst l), layout kind size (live_shape closed [] root) (snd l)))) (links closed root);
  tk_view : t_view t = view_box (layout kind size (live_shape closed [] root)) (map fst (each_before closed [] root)) }.
Lemma tree_update_ok root closed kind size ns ls w : keeps (node_content root tree_fixed) ns -> keeps (node_content root (fun p _ => p)) ls ->
  tree_ok root closed kind size (tree_update layout (TreePane root (map fst (descendants ∅ root)) closed kind size ns ls w)).
Proof.
  intros H1 H2.
  destruct (nodes_stay root closed tree_fixed (fun n => layout kind size (live_shape closed [] root) (fst n)) (reverse (descendants closed root)) ns (reverse_Permutation _) H1) as [A B].
  destruct (links_stay root closed (fun l => (layout kind size (live_shape closed [] root) (fst l), layout kind size (live_shape closed [] root) (snd l))) ls H2) as [C D].
  unfold tree_update. cbn [t_root t_ids t_closed t_kind t_size t_nodes t_links].
  constructor; cbn [t_root t_ids t_closed t_kind t_size t_nodes t_links t_view]; [done|done|done|done|done|exact A|exact C|exact B|exact D|done].
Qed.
Lemma collapsible_tree_ok v kind size : tree_ok (hierarchy v) ∅ kind size (collapsible_tree layout v kind size).
Proof. apply tree_update_ok; apply keeps_empty. Qed.
Lemma tree_press_ok root closed kind size t p : tree_ok root closed kind size t -> tree_ok root (toggle p closed) kind size (tree_press layout p t).
Proof.
  intros []. unfold tree_press. rewrite tk_root0, tk_ids0, tk_closed0, tk_kind0, tk_size0. by apply tree_update_ok.
Qed.
Lemma tree_settle_ok root closed kind size t ks : tree_ok root closed kind size t -> tree_ok root closed kind size (tree_settle ks t).
Proof.
  intros []. constructor; cbn; try done.
  - by apply keeps_settle.
  - by apply keeps_settle.
  - by rewrite staying_settle.
  - by rewrite staying_settle.
Qed.
End tree.

(** ** From the drawn object to the tree *)
Definition object_of (a : ast) : js := match a with Rule r => tree_js r | Terminal t => token_js t | Error t => token_js t end.
Definition hnode_of (a : ast) : hnode := hierarchy (object_of a).
Lemma tree_js_eq n cs i : tree_js (RuleCtx n cs i) =
  JSObject [(lit "name", JSString n); (lit "id", JSString (usize_to_string i)); (lit "children", JSArray (map object_of cs))].
Proof.
  cbn [tree_js]. match goal with |- context [JSArray (?f cs)] => assert (E : forall cs, f cs = map object_of cs) end.
  { clear. intros cs. induction cs as [|[t|c|t] cs IH]; cbn; [done| | |]; by rewrite IH. }
  by rewrite E.
Qed.
Lemma kids_hnode_of a : kids_of (hnode_of a) = map hnode_of (below a).
Proof.
  destruct a as [t|[n cs i]|t]; [done| |done]. unfold hnode_of at 1. cbn [object_of]. rewrite tree_js_eq. cbn [hierarchy kids_of below].
  change (map hierarchy (map object_of cs) = map hnode_of cs). by rewrite map_map.
Qed.
Lemma data_hnode_of a : data_of (hnode_of a) = object_of a.
Proof. unfold hnode_of. by destruct (object_of a). Qed.
Lemma hnode_at_of p : forall a, hnode_at (hnode_of a) p = hnode_of <$> at_place a p.
Proof.
  induction p as [|i p IH]; intros a; [done|]. cbn [hnode_at at_place]. rewrite kids_hnode_of, list_lookup_fmap.
  destruct (below a !! i) as [c|]; cbn; [apply IH|done].
Qed.
Lemma name_of_object a : shown_text (get (lit "name") (object_of a)) = node_name a.
Proof. destruct a as [t|[n cs i]|t]; [reflexivity| |reflexivity]. cbn [object_of]. rewrite tree_js_eq. reflexivity. Qed.
Lemma has_kids_of a : has_kids (hnode_of a) = match below a with [] => false | _ => true end.
Proof. unfold has_kids. rewrite kids_hnode_of. by destruct (below a). Qed.
Lemma title_of_object a : tree_title (hnode_of a) = pane_title a.
Proof.
  unfold tree_title. rewrite has_kids_of, data_hnode_of. destruct a as [t|[n cs i]|t]; [reflexivity| |reflexivity].
  cbn [object_of below]. rewrite tree_js_eq. by destruct cs.
Qed.
Lemma label_of_object a : tree_label (hnode_of a) = pane_label a.
Proof.
  unfold tree_label. rewrite has_kids_of, data_hnode_of. destruct a as [t|[n cs i]|t]; [reflexivity| |reflexivity].
  cbn [object_of below]. rewrite tree_js_eq. by destruct cs.
Qed.

(** Folded places and numbers of clicks. *)
Definition folded (closed : gset place) (n : place -> nat) : Prop := forall q, q ∈ closed <-> Nat.Odd (n q).
Lemma folded_visible closed n a p : folded closed n -> visible a n p <-> exists b, at_place a p = Some b /\ hvisible closed (hnode_of a) p (hnode_of b).
Proof.
  intros F. unfold visible, hvisible, open_to. cbn. split.
  - intros [[b Hb] H]. exists b. split; [done|]. split; [by rewrite hnode_at_of, Hb|]. intros q Hq Hc. apply F in Hc.
    specialize (H q Hq). exact (Nat.Even_Odd_False _ H Hc).
  - intros (b & Hb & _ & H). split; [by exists b|]. intros q Hq. destruct (Nat.Even_or_Odd (n q)) as [E|O]; [done|].
    destruct (H q Hq). by apply F.
Qed.
Lemma hvisible_of closed a p h : hvisible closed (hnode_of a) p h -> exists b, at_place a p = Some b /\ h = hnode_of b.
Proof.
  intros [H _]. rewrite hnode_at_of in H. destruct (at_place a p) as [b|]; [|done]. cbn in H. injection H as <-. by exists b.
Qed.
Lemma folded_rows closed n a : folded closed n -> rows a n (map fst (each_before closed [] (hnode_of a))).
Proof.
  intros F. split; [apply sorted_before|]. intros p. rewrite (folded_visible closed n a p F), elem_of_list_fmap. split.
  - intros ([q h] & -> & H). apply elem_before_root in H. destruct (hvisible_of _ _ _ _ H) as (b & Hb & ->). by exists b.
  - intros (b & Hb & H). exists (p, hnode_of b). split; [done|]. by apply elem_before_root.
Qed.
Lemma folded_toggle closed n n' p : folded closed n -> n' p = S (n p) -> (forall q, q <> p -> n' q = n q) -> folded (toggle p closed) n'.
Proof.
  intros F Hp Hq q. unfold toggle. destruct (decide (q = p)) as [->|Hne].
  - rewrite Hp, Nat.Odd_succ. destruct (decide (p ∈ closed)) as [H|H].
    + split; [intros H'; apply elem_of_difference in H' as [_ H']; by destruct H'; apply elem_of_singleton|].
      intros E. apply F in H. by destruct (Nat.Even_Odd_False _ E H).
    + split; [intros _|intros _; apply elem_of_union; right; by apply elem_of_singleton].
      destruct (Nat.Even_or_Odd (n p)) as [E|O]; [done|]. destruct H. by apply F.
  - rewrite (Hq q Hne), <- (F q). destruct (decide (p ∈ closed)).
    + rewrite elem_of_difference, elem_of_singleton. tauto.
    + rewrite elem_of_union, elem_of_singleton. tauto.
Qed.
Lemma folded_none : folded ∅ (fun _ => 0).
Proof. intros q. split; [intros H; by apply elem_of_empty in H|]. intros [m H]. lia. Qed.

(** The y of a row. *)
Lemma row_y_index (l : list (place * hnode)) i p : NoDup (map fst l) -> map fst l !! i = Some p -> row_y l p = i * node_size.
Proof. intros Hnd H. unfold row_y. by rewrite (id_in_index _ i p). Qed.
