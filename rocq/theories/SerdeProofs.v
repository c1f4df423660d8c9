(** SerdeProofs.v -- C19, C20. *)
From Verif Require Export SpecSerde.

Lemma find_key_spec k fields v :
  find_key k fields = Some v <-> exists a b, fields = a ++ (k, v) :: b /\ forall x, (k, x) ∉ a.
Proof.
  induction fields as [|[k' v'] fields IH]; simpl.
  - split; [done|]. intros ([|? ?] & ? & ? & _); done.
  - destruct (decide (k = k')) as [<-|Hne].
    + split.
      * intros [= <-]. exists [], fields. split; [done|]. intros x. apply not_elem_of_nil.
      * intros ([|[k2 v2] a] & b & E & Hn); [by injection E as <- <-|].
        injection E as <- <- _. destruct (Hn v'). apply elem_of_list_here.
    + rewrite IH. split.
      * intros (a & b & -> & Hn). exists ((k', v') :: a), b. split; [done|].
        intros x [Hx|Hx]%elem_of_cons; [congruence|by apply (Hn x)].
      * intros ([|[k2 v2] a] & b & E & Hn); simpl in E; [congruence|]. injection E as <- <- ->.
        exists a, b. split; [done|]. intros x Hx. apply (Hn x). by apply elem_of_list_further.
Qed.
Lemma find_key_None k fields : find_key k fields = None <-> forall x, (k, x) ∉ fields.
Proof.
  induction fields as [|[k' v'] fields IH]; simpl.
  - split; [|done]. intros _ x. apply not_elem_of_nil.
  - destruct (decide (k = k')) as [<-|Hne].
    + split; [done|]. intros H. destruct (H v'). apply elem_of_list_here.
    + rewrite IH. split.
      * intros H x [Hx|Hx]%elem_of_cons; [congruence|by apply (H x)].
      * intros H x Hx. apply (H x). by apply elem_of_list_further.
Qed.
Lemma member_spec j k v : member j k v <-> index_str j k = v.
Proof.
  destruct j as [| | | | | |fields]; simpl; try (split; [by intros ->|by intros <-]).
  destruct (find_key k fields) as [w|] eqn:E; simpl.
  - split.
    + intros [H|[-> H]]; [apply find_key_spec in H; congruence|apply find_key_None in H; congruence].
    + intros ->. left. by apply find_key_spec.
  - split.
    + intros [H|[-> H]]; [apply find_key_spec in H; congruence|done].
    + intros <-. right. split; [done|]. by apply find_key_None.
Qed.

Lemma parse_terminal_spec j :
  (exists t, parse_terminal j = Ret (Some t) /\ forall t', describes_token j t' <-> t' = t) \/
  (parse_terminal j = Ret None /\ forall t, ~ describes_token j t).
Proof.
  unfold parse_terminal, describes_token. change bare_token with token_new.
  destruct (as_u64 (index_str j (lit "token_type"))) as [ty|] eqn:E1.
  - destruct (as_str (index_str j (lit "token_name"))) as [name|] eqn:E2; simpl.
    + left. eexists. split; [done|].
      assert (M1 : index_str j (lit "token_type") = JU64 ty) by (destruct (index_str j (lit "token_type")); try done; simpl in E1; congruence).
      assert (M2 : index_str j (lit "token_name") = JString name) by (destruct (index_str j (lit "token_name")); try done; simpl in E2; congruence).
      intros t'. setoid_rewrite member_spec. rewrite M1, M2.
      destruct (index_str j (lit "text")) as [| | | |s| |] eqn:E3; simpl.
      all: split; [intros (? & ? & ? & [= <-] & [= <-] & [H|[H H']] & ->); try congruence; try done
                  |intros ->; eexists _, _, _; split_and!; [done|done| |done]].
      all: try (by left). all: try (right; split; [congruence|done]).
    + right. split; [done|]. intros t (? & ? & ? & _ & H & _). apply member_spec in H. by rewrite H in E2.
  - right. simpl. split; [done|]. intros t (? & ? & ? & H & _). apply member_spec in H. by rewrite H in E1.
Qed.

Lemma jdepth_member j k v : index_str j k = v -> v <> JNull -> jdepth v < jdepth j.
Proof.
  destruct j as [| | | | | |fields]; simpl; try congruence. intros H Hv.
  destruct (find_key k fields) as [w|] eqn:E; simpl in H; [subst w|congruence].
  apply find_key_spec in E as (a & b & -> & _). clear. induction a as [|[k' v'] a IH]; simpl in *; lia.
Qed.
Lemma jdepth_elem l x : x ∈ l -> jdepth x < jdepth (JArray l).
Proof. induction 1; simpl in *; lia. Qed.

Lemma parse_children_spec rec cs acc :
  (forall j, j ∈ cs -> (exists r, rec j = Ret (Some r) /\ forall r', describes j r' <-> r' = r) \/
                       (rec j = Ret None /\ forall r, ~ describes j r)) ->
  (exists kids, parse_children rec cs acc = Ret (Some (acc ++ kids)) /\ forall kids', describes_all cs kids' <-> kids' = kids) \/
  (parse_children rec cs acc = Ret None /\ forall kids, ~ describes_all cs kids).
Proof.
  revert acc. induction cs as [|j cs IH]; intros acc Hrec; simpl.
  - left. exists []. split; [by rewrite app_nil_r|]. intros kids. split; [by inversion 1|intros ->; constructor].
  - assert (Hrec' : forall j, j ∈ cs -> (exists r, rec j = Ret (Some r) /\ forall r', describes j r' <-> r' = r) \/
                       (rec j = Ret None /\ forall r, ~ describes j r)).
    { intros j' Hj'. apply Hrec. by apply elem_of_list_further. }
    destruct (is_null (index_str j (lit "children"))) eqn:En.
    + assert (M : index_str j (lit "children") = JNull) by (by destruct (index_str j (lit "children"))).
      apply member_spec in M.
      destruct (parse_terminal_spec j) as [(t & -> & Ht)|(-> & Ht)]; simpl.
      * destruct (IH (acc ++ [Terminal t]) Hrec') as [(kids & -> & Hk)|(-> & Hk)].
        -- left. exists (Terminal t :: kids). split; [by rewrite <- app_assoc|].
           intros kids'. split.
           ++ inversion 1 as [|? t' ? kids0 Hm Hd Hds|? ? ? ? Hm]; subst; [|done].
              apply Ht in Hd as ->. apply Hk in Hds as ->. done.
           ++ intros ->. constructor; [done|by apply Ht|by apply Hk].
        -- right. split; [done|]. intros kids. inversion 1 as [|? t' ? kids0 Hm Hd Hds|? ? ? ? Hm]; subst; [|done].
           by eapply Hk.
      * right. split; [done|]. intros kids. inversion 1 as [|? t' ? kids0 Hm Hd Hds|? ? ? ? Hm]; subst; [|done].
        by eapply Ht.
    + assert (M : ~ member j (lit "children") JNull).
      { intros M. apply member_spec in M. by rewrite M in En. }
      destruct (Hrec j (elem_of_list_here _ _)) as [(r & -> & Hr)|(-> & Hr)]; simpl.
      * destruct (IH (acc ++ [Rule r]) Hrec') as [(kids & -> & Hk)|(-> & Hk)].
        -- left. exists (Rule r :: kids). split; [by rewrite <- app_assoc|].
           intros kids'. split.
           ++ inversion 1 as [|? t' ? kids0 Hm Hd Hds|? ? ? ? Hm Hd Hds]; subst; [done|].
              apply Hr in Hd as ->. apply Hk in Hds as ->. done.
           ++ intros ->. apply describes_inner; [done|by apply Hr|by apply Hk].
        -- right. split; [done|]. intros kids. inversion 1 as [|? t' ? kids0 Hm Hd Hds|? ? ? ? Hm Hd Hds]; subst; [done|].
           by eapply Hk.
      * right. split; [done|]. intros kids. inversion 1 as [|? t' ? kids0 Hm Hd Hds|? ? ? ? Hm Hd Hds]; subst; [done|].
        by eapply Hr.
Qed.

Lemma parse_rule_spec fuel j :
  jdepth j < fuel ->
  (exists r, parse_rule fuel j = Ret (Some r) /\ forall r', describes j r' <-> r' = r) \/
  (parse_rule fuel j = Ret None /\ forall r, ~ describes j r).
Proof.
  revert j. induction fuel as [|fuel IH]; intros j Hf; [lia|]. cbn [parse_rule].
  destruct (index_str j (lit "children")) as [| | | | |cs|] eqn:E1; simpl;
    try (right; split; [done|]; intros r; inversion 1 as [? ? ? ? ? M1]; apply member_spec in M1; congruence).
  destruct (index_str j (lit "rule_index")) as [| |i| | | |] eqn:E2; simpl;
    try (right; split; [done|]; intros r; inversion 1 as [? ? ? ? ? _ M2]; apply member_spec in M2; congruence).
  destruct (index_str j (lit "rule_name")) as [| | | |n| |] eqn:E3; simpl;
    try (right; split; [done|]; intros r; inversion 1 as [? ? ? ? ? _ _ M3]; apply member_spec in M3; congruence).
  destruct (parse_children_spec (parse_rule fuel) cs []) as [(kids & -> & Hk)|(-> & Hk)]; simpl.
  - intros j' Hj'. apply IH. apply jdepth_elem in Hj'. pose proof (jdepth_member _ _ _ E1 ltac:(done)). lia.
  - left. eexists. split; [done|]. intros r'. split.
    + inversion 1 as [? cs' i' n' kids' M1 M2 M3 Hd]; subst. apply member_spec in M1, M2, M3.
      assert (cs' = cs) as -> by congruence. apply Hk in Hd. congruence.
    + intros ->. econstructor; [by apply member_spec..|by apply Hk].
  - right. split; [done|]. intros r. inversion 1 as [? cs' i' n' kids' M1 M2 M3 Hd]; subst. apply member_spec in M1.
    assert (cs' = cs) as -> by congruence. by eapply Hk.
Qed.

(** C20 *)
Lemma c20_accepts data r : from_value data = Ret (Some r) <-> describes data r.
Proof.
  destruct (parse_rule_spec (S (jdepth data)) data ltac:(lia)) as [(r0 & E & H)|(E & H)]; unfold from_value; rewrite E.
  - rewrite H. split; [by intros [= <-]|by intros ->].
  - split; [done|]. intros Hd. by destruct (H r).
Qed.
Lemma c20_rejects data : from_value data = Ret None <-> forall r, ~ describes data r.
Proof.
  destruct (parse_rule_spec (S (jdepth data)) data ltac:(lia)) as [(r0 & E & H)|(E & H)]; unfold from_value; rewrite E.
  - split; [done|]. intros Hd. destruct (Hd r0). by apply H.
  - done.
Qed.
Lemma c20_total data : from_value data = Ret None \/ exists r, from_value data = Ret (Some r).
Proof.
  destruct (parse_rule_spec (S (jdepth data)) data ltac:(lia)) as [(r0 & E & H)|(E & H)]; unfold from_value; rewrite E; eauto.
Qed.
Lemma c20_fuel fuel data : jdepth data < fuel -> parse_rule fuel data = from_value data.
Proof.
  intros Hf. unfold from_value.
  destruct (parse_rule_spec fuel data Hf) as [(r0 & E & H)|(E & H)], (parse_rule_spec (S (jdepth data)) data ltac:(lia)) as [(r1 & E' & H')|(E' & H')];
    rewrite E, E'; [|exfalso|exfalso|done].
  - by rewrite (proj1 (H' r0) (proj2 (H r0) eq_refl)).
  - apply (H' r0). by apply H.
  - apply (H r1). by apply H'.
Qed.

(** C19: any object with the right members in any order, e.g. [tree_json]. *)
Lemma describes_tree_json r : describes (tree_json r) (forget r).
Proof.
  revert r. refine (rule_ctx_rect' (fun a => match a with Rule r => describes (tree_json r) (forget r) | _ => True end) _ _ _ _ _).
  - done.
  - done.
  - intros r Hr. exact Hr.
  - intros n cs i HF. simpl. econstructor; [by apply member_spec..|].
    induction HF as [|c cs Hc _ IH]; [constructor|].
    assert (Ht : forall t, describes_token (token_json t) (forget_position t)).
    { intros t. exists (token_type t), (token_name t), (text t). split_and!; [by apply member_spec..| |done].
      left. by apply member_spec. }
    destruct c as [t|c|t].
    + constructor; [by apply member_spec|done|done].
    + apply describes_inner; [|done|done]. intros M. apply member_spec in M. by destruct c.
    + constructor; [by apply member_spec|done|done].
Qed.
Lemma c19_roundtrip r : from_value (tree_json r) = Ret (Some (forget r)).
Proof. apply c20_accepts, describes_tree_json. Qed.

Lemma forget_plain r : plain_tree (Rule r) -> forget r = r.
Proof.
  revert r. refine (rule_ctx_rect' (fun a => match a with Rule r => plain_tree (Rule r) -> forget r = r | _ => True end) _ _ _ _ _).
  - done.
  - done.
  - intros r Hr. exact Hr.
  - intros n cs i HF Hp. simpl. f_equal. inversion Hp as [|? ? ? Hcs]; subst. clear Hp.
    induction HF as [|c cs Hc _ IH]; [done|]. inversion Hcs as [|? ? Hpc Hpcs]; subst.
    destruct c as [t|c|t].
    + inversion Hpc as [? Ht|]; subst. rewrite IH by done. unfold forget_position. by rewrite <- Ht.
    + by rewrite Hc, IH.
    + inversion Hpc.
Qed.
Lemma c19_exact r : plain_tree (Rule r) -> from_value (tree_json r) = Ret (Some r).
Proof. intros H. rewrite c19_roundtrip. by rewrite forget_plain. Qed.
