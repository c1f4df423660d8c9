(** ViewLabels.v -- C72: the texts of the button are those in the page. *)
From Verif Require Export ViewMain.

Lemma button_labels layout times v es : v_button (view_run layout times v es) ∈ [label_first; label_tree; label_cluster].
Proof.
  induction es as [|e es IH] using rev_ind; [apply elem_of_list_here|]. unfold view_run in *. rewrite foldl_app. cbn [foldl].
  destruct e as [p|p|ks|p|ks|d|b x y|b|x y| | |m|m]; cbn [View.step]; try exact IH.
  - destruct (hnode_at _ _); exact IH.
  - destruct (b =? 0); exact IH.
  - destruct (b =? 0); exact IH.
  - destruct (v_down _); exact IH.
  - destruct (ends_with _ _); cbn; [apply elem_of_list_further, elem_of_list_here|apply elem_of_list_further, elem_of_list_further, elem_of_list_here].
Qed.

Fixpoint occurrence (w s : str) {struct s} : option nat :=
  if bool_decide (take (length w) s = w) then Some 0 else match s with [] => None | _ :: s' => S <$> occurrence w s' end.
Lemma occurrence_spec w s n : occurrence w s = Some n -> exists pre post, s = pre ++ w ++ post.
Proof.
  revert n. induction s as [|c s IH]; intros n H; cbn [occurrence] in H; case_bool_decide as E.
  - exists [], []. cbn [app]. rewrite take_nil in E. by subst w.
  - done.
  - exists [], (drop (length w) (c :: s)). cbn [app]. rewrite <- E at 1. by rewrite take_drop.
  - apply fmap_Some in H as (m & H & _). destruct (IH _ H) as (pre & post & ->). by exists (c :: pre), post.
Qed.
Lemma occurrence_in w s : is_Some (occurrence w s) -> exists pre post, s = pre ++ w ++ post.
Proof. intros [n H]. exact (occurrence_spec w s n H). Qed.
Lemma label_first_in : is_Some (occurrence label_first page_mid).
Proof. vm_compute. by eexists. Qed.
Lemma label_tree_in : is_Some (occurrence label_tree page_tail).
Proof. vm_compute. by eexists. Qed.
Lemma label_cluster_in : is_Some (occurrence label_cluster page_tail).
Proof. vm_compute. by eexists. Qed.

Lemma c72_in_page layout times r es name : exists pre post, page name r = pre ++ v_button (view_run layout times (tree_js r) es) ++ post.
Proof.
  assert (forall w, is_Some (occurrence w page_mid) \/ is_Some (occurrence w page_tail) -> exists pre post, page name r = pre ++ w ++ post) as K.
  { intros w [H|H]; apply occurrence_in in H as (pre & post & H); unfold page; rewrite H.
    - exists (page_head ++ name ++ pre), (post ++ script r ++ page_tail). by rewrite <- !(assoc_L (++)).
    - exists (page_head ++ name ++ page_mid ++ script r ++ pre), post. by rewrite <- !(assoc_L (++)). }
  apply K. pose proof (button_labels layout times (tree_js r) es) as H. generalize dependent (v_button (view_run layout times (tree_js r) es)).
  intros w [->|[->|[->|H]%elem_of_cons]%elem_of_cons]%elem_of_cons.
  - left. exact label_first_in.
  - right. exact label_tree_in.
  - right. exact label_cluster_in.
  - by apply elem_of_nil in H.
Qed.
