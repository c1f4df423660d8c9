(** ViewProofs.v -- the page program: traversals, the keyed join, and the two panes. *)
From Verif Require Export SpecView.
From Coq Require Import Lqa.

(** ** Trees and places *)
Lemma hnode_ind' (P : hnode -> Prop) : (forall d ks, Forall P ks -> P (HNode d ks)) -> forall h, P h.
Proof.
  intros H. fix IH 1. intros [d ks]. apply H. induction ks as [|k ks IHks]; constructor; [apply IH|exact IHks].
Qed.

Lemma hnode_at_app h p q : hnode_at h (p ++ q) = k ← hnode_at h p; hnode_at k q.
Proof. revert h. induction p as [|i p IH]; intros h; [done|]. cbn. destruct (kids_of h !! i); cbn; [apply IH|done]. Qed.

Lemma above_cons i q p : strictly_above (i :: q) (i :: p) <-> strictly_above q p.
Proof.
  split; intros (j & r & E).
  - exists j, r. cbn in E. by injection E.
  - exists j, r. by rewrite E.
Qed.
Lemma above_nil q : ~ strictly_above q [].
Proof. intros (j & r & E). by destruct q. Qed.
Lemma above_root i p : strictly_above [] (i :: p).
Proof. by exists i, p. Qed.
Lemma above_inv q i p : strictly_above q (i :: p) -> q = [] \/ exists q', q = i :: q' /\ strictly_above q' p.
Proof.
  intros (j & r & E). destruct q as [|k q]; [by left|]. right. cbn in E. injection E as <- ->. exists q. split; [done|by exists j, r].
Qed.

(** No place above r, seen from p, is closed. *)
Definition open_to (closed : gset place) (p r : place) : Prop := forall r', strictly_above r' r -> p ++ r' ∉ closed.
Lemma open_nil closed p : open_to closed p [].
Proof. intros r' H. by apply above_nil in H. Qed.
Lemma open_cons closed p i r : open_to closed p (i :: r) <-> p ∉ closed /\ open_to closed (p ++ [i]) r.
Proof.
  split.
  - intros H. split.
    + specialize (H [] (above_root i r)). by rewrite app_nil_r in H.
    + intros r' Hr'. rewrite <- app_assoc. apply H. by apply above_cons.
  - intros [H1 H2] r' Hr'. apply above_inv in Hr' as [->|(q' & -> & Hq)]; [by rewrite app_nil_r|].
    specialize (H2 q' Hq). by rewrite <- app_assoc in H2.
Qed.

Definition hvisible (closed : gset place) (h : hnode) (p : place) (k : hnode) : Prop :=
  hnode_at h p = Some k /\ open_to closed [] p.

(** ** Pre-order *)
Section go.
  Context (closed : gset place).
  Fixpoint go_before (p : place) (i : nat) (ks : list hnode) : list (place * hnode) :=
    match ks with [] => [] | k :: ks' => each_before closed (p ++ [i]) k ++ go_before p (S i) ks' end.
  Lemma each_before_eq p d ks :
    each_before closed p (HNode d ks) = (p, HNode d ks) :: (if decide (p ∈ closed) then [] else go_before p 0 ks).
  Proof.
    cbn. f_equal. destruct (decide (p ∈ closed)); [done|]. generalize 0. induction ks as [|k ks IH]; intros i; [done|].
    cbn. f_equal. apply IH.
  Qed.
  Lemma elem_go p i ks q k : (q, k) ∈ go_before p i ks <-> exists j c, ks !! j = Some c /\ (q, k) ∈ each_before closed (p ++ [i + j]) c.
  Proof.
    revert i. induction ks as [|c ks IH]; intros i; cbn.
    - split; [intros H; by apply elem_of_nil in H|]. intros (j & c & H & _). done.
    - rewrite elem_of_app, IH. split.
      + intros [H|(j & c' & H1 & H2)].
        * exists 0, c. rewrite Nat.add_0_r. done.
        * exists (S j), c'. replace (i + S j) with (S i + j) by lia. done.
      + intros ([|j] & c' & H1 & H2).
        * left. cbn in H1. injection H1 as ->. by rewrite Nat.add_0_r in H2.
        * right. exists j, c'. replace (i + S j) with (S i + j) in H2 by lia. done.
  Qed.
  Lemma elem_before h : forall p q k, (q, k) ∈ each_before closed p h <->
    exists r, q = p ++ r /\ hnode_at h r = Some k /\ open_to closed p r.
  Proof.
    induction h as [d ks IH] using hnode_ind'. intros p q k. rewrite each_before_eq, elem_of_cons. split.
    - intros [E|H].
      + injection E as -> ->. exists []. rewrite app_nil_r. split; [done|]. split; [done|]. apply open_nil.
      + destruct (decide (p ∈ closed)) as [|Hp]; [by apply elem_of_nil in H|].
        apply elem_go in H as (j & c & Hj & H). pose proof (proj1 (Forall_lookup _ _) IH j c Hj) as IHc. apply IHc in H as (r & -> & Hr & Ho).
        exists (j :: r). split; [by rewrite <- app_assoc|]. split; [cbn; by rewrite Hj|]. by apply open_cons.
    - intros ([|j r] & -> & Hr & Ho).
      + left. cbn in Hr. injection Hr as <-. by rewrite app_nil_r.
      + right. apply open_cons in Ho as [Hp Ho]. rewrite decide_False by done. cbn in Hr.
        destruct (ks !! j) as [c|] eqn:Hj; [|done]. cbn in Hr. apply elem_go. exists j, c. split; [done|].
        pose proof (proj1 (Forall_lookup _ _) IH j c Hj) as IHc. apply IHc. exists r. split; [by rewrite <- app_assoc|]. split; [exact Hr|exact Ho].
  Qed.

  Lemma sorted_app {A} (R : A -> A -> Prop) l1 l2 :
    StronglySorted R l1 -> StronglySorted R l2 -> (forall x y, x ∈ l1 -> y ∈ l2 -> R x y) -> StronglySorted R (l1 ++ l2).
  Proof.
    intros H1 H2 H. induction H1 as [|x l1 H1 IH Hx]; [done|]. cbn. constructor.
    - apply IH. intros a b Ha Hb. apply H; [by right|done].
    - apply Forall_app. split; [done|]. apply Forall_forall. intros y Hy. apply H; [by left|done].
  Qed.
  Lemma fst_before p h q : q ∈ map fst (each_before closed p h) -> exists r, q = p ++ r.
  Proof.
    intros H. apply elem_of_list_fmap in H as ([q' k] & -> & H). apply elem_before in H as (r & E & _). by exists r.
  Qed.
  Lemma sorted_before h : forall p, StronglySorted earlier (map fst (each_before closed p h)).
  Proof.
    induction h as [d ks IH] using hnode_ind'. intros p. rewrite each_before_eq. cbn. constructor.
    - destruct (decide (p ∈ closed)); [constructor|]. generalize 0. induction IH as [|k ks Hk IH' IHks]; intros i; cbn; [constructor|].
      rewrite map_app. apply sorted_app; [apply Hk|apply IHks|].
      intros x y Hx Hy. apply fst_before in Hx as (r & ->).
      apply elem_of_list_fmap in Hy as ([q' k'] & -> & Hy). apply elem_go in Hy as (j & c & _ & Hy). apply elem_before in Hy as (r' & -> & _).
      cbn [fst]. rewrite <- !app_assoc. cbn. apply earlier_left. lia.
    - apply Forall_forall. intros y Hy. destruct (decide (p ∈ closed)) as [|Hp]; [by apply elem_of_nil in Hy|].
      apply elem_of_list_fmap in Hy as ([q' k'] & -> & Hy). apply elem_go in Hy as (j & c & _ & Hy). apply elem_before in Hy as (r' & -> & _).
      cbn [fst]. apply earlier_above. exists (0 + j), r'. by rewrite <- app_assoc.
  Qed.
End go.

Lemma earlier_irrefl p : ~ earlier p p.
Proof.
  enough (K : forall q, earlier p q -> p = q -> False) by (intros H; exact (K p H eq_refl)).
  intros q [a b (i & r & E')|r i j a b Hij] E.
  - rewrite E' in E. rewrite <- (app_nil_r a) in E at 1. by apply app_inv_head in E.
  - apply app_inv_head in E. injection E as E _. lia.
Qed.
Lemma sorted_nodup ps : StronglySorted earlier ps -> NoDup ps.
Proof.
  induction 1 as [|p ps H IH Hp]; constructor; [|done]. intros Hin. rewrite Forall_forall in Hp.
  exact (earlier_irrefl p (Hp p Hin)).
Qed.
Lemma nodup_before closed p h : NoDup (map fst (each_before closed p h)).
Proof. apply sorted_nodup, sorted_before. Qed.

(** ** Breadth first *)
Lemma elem_live_kids closed q0 k0 q k : (q, k) ∈ live_kids closed (q0, k0) <->
  q0 ∉ closed /\ exists i, q = q0 ++ [i] /\ kids_of k0 !! i = Some k.
Proof.
  unfold live_kids. cbn. destruct (decide (q0 ∈ closed)) as [H|H].
  - split; [intros E; by apply elem_of_nil in E|]. by intros [? _].
  - rewrite elem_of_lookup_imap. split.
    + intros (i & c & E & Hc). injection E as -> ->. split; [done|]. by exists i.
    + intros (_ & i & -> & Hi). by exists i, k.
Qed.
Lemma elem_levels closed fuel : forall level q k, (q, k) ∈ levels closed fuel level <->
  exists q0 k0 r, (q0, k0) ∈ level /\ q = q0 ++ r /\ hnode_at k0 r = Some k /\ length r < fuel /\ open_to closed q0 r.
Proof.
  induction fuel as [|fuel IH]; intros level q k; cbn.
  - split; [intros E; by apply elem_of_nil in E|]. intros (? & ? & ? & _ & _ & _ & H & _). lia.
  - assert (E : (match level with [] => [] | _ => level ++ levels closed fuel (level ≫= live_kids closed) end) = level ++ levels closed fuel (level ≫= live_kids closed)).
    { destruct level; [|done]. cbn. by destruct fuel. }
    rewrite E. clear E. rewrite elem_of_app, IH. split.
    + intros [H|(q0 & k0 & r & H & -> & Hr & Hf & Ho)].
      * exists q, k, []. rewrite app_nil_r. repeat split; try done; [cbn; lia|]. apply open_nil.
      * apply elem_of_list_bind in H as ([q1 k1] & H & H1). apply elem_live_kids in H as (Hq & i & -> & Hi).
        exists q1, k1, (i :: r). split; [done|]. split; [by rewrite <- app_assoc|]. split; [cbn; by rewrite Hi|]. split; [cbn; lia|].
        by apply open_cons.
    + intros (q0 & k0 & [|i r] & H & -> & Hr & Hf & Ho).
      * left. cbn in Hr. injection Hr as <-. by rewrite app_nil_r.
      * right. apply open_cons in Ho as [Hq Ho]. cbn in Hr. destruct (kids_of k0 !! i) as [k1|] eqn:Hi; [|done].
        exists (q0 ++ [i]), k1, r. split; [|split; [by rewrite <- app_assoc|split; [done|split; [cbn in Hf; lia|done]]]].
        apply elem_of_list_bind. exists (q0, k0). split; [|done]. apply elem_live_kids. split; [done|]. by exists i.
Qed.

Lemma height_kid d ks i k : ks !! i = Some k -> height k < height (HNode d ks).
Proof.
  cbn. revert i. induction ks as [|c ks IH]; intros i H; [done|]. destruct i as [|i]; cbn in H |- *.
  - injection H as ->. lia.
  - specialize (IH i H). lia.
Qed.
Lemma height_at p : forall h k, hnode_at h p = Some k -> length p < height h.
Proof.
  induction p as [|i p IH]; intros [d ks] k H.
  - cbn. lia.
  - cbn in H. destruct (ks !! i) as [c|] eqn:Hi; [|done]. pose proof (height_kid d ks i c Hi). specialize (IH c k H). cbn [length]. lia.
Qed.
Lemma elem_descendants closed h q k : (q, k) ∈ descendants closed h <-> hvisible closed h q k.
Proof.
  unfold descendants. rewrite elem_levels. unfold hvisible. split.
  - intros (q0 & k0 & r & H & -> & Hr & _ & Ho). apply elem_of_list_singleton in H. injection H as -> ->. done.
  - intros [H1 H2]. exists [], h, q. split; [by left|]. split; [done|]. split; [done|]. split; [by eapply height_at|done].
Qed.
Lemma elem_before_root closed h q k : (q, k) ∈ each_before closed [] h <-> hvisible closed h q k.
Proof.
  rewrite elem_before. unfold hvisible. split.
  - intros (r & -> & H1 & H2). done.
  - intros [H1 H2]. by exists q.
Qed.

(** No place twice. *)
Lemma nodup_live_kids closed n : NoDup (map fst (live_kids closed n)).
Proof.
  destruct n as [q0 k0]. unfold live_kids. cbn. destruct (decide (q0 ∈ closed)); [constructor|].
  apply NoDup_alt. intros i j x Hi Hj. rewrite list_lookup_fmap in Hi, Hj.
  rewrite list_lookup_imap in Hi, Hj. destruct (kids_of k0 !! i) as [a|]; [|done]. destruct (kids_of k0 !! j) as [b|]; [|done].
  cbn in Hi, Hj. injection Hi as <-. injection Hj as E. apply app_inv_head in E. by injection E.
Qed.
Lemma nodup_bind closed level m : (forall n, n ∈ level -> length (fst n) = m) -> NoDup (map fst level) -> NoDup (map fst (level ≫= live_kids closed)).
Proof.
  intros Hm. induction level as [|[q k] level IH]; cbn; intros Hnd; [constructor|].
  apply NoDup_cons in Hnd as [Hq Hnd]. rewrite map_app. apply NoDup_app. split; [apply nodup_live_kids|]. split.
  - intros x Hx Hx'. apply elem_of_list_fmap in Hx as ([x1 c1] & -> & Hx). apply elem_live_kids in Hx as (_ & i & -> & _).
    apply elem_of_list_fmap in Hx' as ([x2 c2] & E & Hx'). cbn in E. subst x2.
    apply elem_of_list_bind in Hx' as ([q2 k2] & Hx' & Hin). apply elem_live_kids in Hx' as (_ & j & E & _).
    apply app_inj_2 in E as [E _]; [|done]. subst q2. apply Hq. apply elem_of_list_fmap. by exists (q, k2).
  - apply IH; [|done]. intros n Hn. apply Hm. by right.
Qed.
Lemma nodup_levels closed fuel : forall level m, (forall n, n ∈ level -> length (fst n) = m) -> NoDup (map fst level) -> NoDup (map fst (levels closed fuel level)).
Proof.
  induction fuel as [|fuel IH]; intros level m Hm Hnd; cbn; [constructor|].
  assert (E : (match level with [] => [] | _ => level ++ levels closed fuel (level ≫= live_kids closed) end) = level ++ levels closed fuel (level ≫= live_kids closed)).
  { destruct level; [|done]. cbn. by destruct fuel. }
  rewrite E. clear E. assert (Hm' : forall n, n ∈ level ≫= live_kids closed -> length (fst n) = S m).
  { intros [q k] Hn. apply elem_of_list_bind in Hn as ([q0 k0] & Hn & Hin). apply elem_live_kids in Hn as (_ & i & -> & _).
    specialize (Hm _ Hin). cbn in Hm |- *. rewrite app_length. cbn. lia. }
  rewrite map_app. apply NoDup_app. split; [done|]. split.
  - intros x Hx Hx'. apply elem_of_list_fmap in Hx as (n & -> & Hn). specialize (Hm n Hn).
    apply elem_of_list_fmap in Hx' as ([q k] & E & Hx'). cbn in E. apply elem_levels in Hx' as (q0 & k0 & r & Hin & -> & _).
    specialize (Hm' _ Hin). cbn in Hm'. rewrite E, app_length in Hm. lia.
  - apply (IH _ (S m)); [done|]. by apply (nodup_bind closed level m).
Qed.
Lemma nodup_descendants closed h : NoDup (map fst (descendants closed h)).
Proof.
  apply (nodup_levels _ _ _ 0); [|apply NoDup_singleton].
  intros n H. apply elem_of_list_singleton in H. by subst.
Qed.
Lemma nodup_fst {A B} (l : list (A * B)) : NoDup (map fst l) -> NoDup l.
Proof. apply NoDup_fmap_1. Qed.

(** ** Identifiers *)
Lemma id_in_lookup ids p : p ∈ ids -> ids !! id_in ids p = Some p.
Proof.
  intros H. unfold id_in. destruct (list_find (fun q => q = p) ids) as [[i q]|] eqn:E.
  - by apply list_find_Some in E as (E & -> & _).
  - apply list_find_None in E. rewrite Forall_forall in E. by destruct (E p H).
Qed.
Lemma id_in_index ids i p : NoDup ids -> ids !! i = Some p -> id_in ids p = i.
Proof.
  intros Hnd H. assert (Hp : p ∈ ids) by (by eapply elem_of_list_lookup_2). apply id_in_lookup in Hp.
  by eapply NoDup_lookup.
Qed.
Lemma id_in_inj ids p q : p ∈ ids -> q ∈ ids -> id_in ids p = id_in ids q -> p = q.
Proof. intros H1 H2 E. apply id_in_lookup in H1, H2. congruence. Qed.

(** ** The join *)
Lemma join_fold_notin {A B} (old : gmap nat (elem A B)) data : forall (m : gmap nat (elem A B)) k, k ∉ map fst data ->
  foldl (fun (m : gmap nat (elem A B)) (kd : nat * (A * B)) => <[ kd.1 := Elem (match old !! kd.1 with Some e => fixed e | None => kd.2.1 end) kd.2.2 false ]> m) m data !! k = m !! k.
Proof.
  induction data as [|[k' d] data IH]; intros m k H; cbn; [done|]. cbn in H. apply not_elem_of_cons in H as [H1 H2].
  rewrite (IH _ k H2). by apply lookup_insert_ne.
Qed.
Lemma join_in {A B} (old : gmap nat (elem A B)) data k a b : NoDup (map fst data) -> (k, (a, b)) ∈ data ->
  join old data !! k = Some (Elem (match old !! k with Some e => fixed e | None => a end) b false).
Proof.
  unfold join. generalize ((fun e => Elem (fixed e) (moving e) true) <$> old). intros m0 Hnd Hin. revert m0.
  induction data as [|[k' d] data IH]; intros m0; [by apply elem_of_nil in Hin|].
  cbn in Hnd |- *. apply NoDup_cons in Hnd as [Hk Hnd]. apply elem_of_cons in Hin as [E|Hin].
  - injection E as <- <-. rewrite join_fold_notin by done. cbn. by rewrite lookup_insert.
  - by apply IH.
Qed.
Lemma join_notin {A B} (old : gmap nat (elem A B)) data k : k ∉ map fst data ->
  join old data !! k = (fun e => Elem (fixed e) (moving e) true) <$> old !! k.
Proof. intros H. unfold join. rewrite join_fold_notin by done. by rewrite lookup_fmap. Qed.

(** The elements of a pane carry what belongs to their key. *)
Definition keeps {A B} (c : nat -> A -> Prop) (m : gmap nat (elem A B)) : Prop := forall k e, m !! k = Some e -> c k (fixed e).
Lemma keeps_join {A B} c (old : gmap nat (elem A B)) data : NoDup (map fst data) -> keeps c old ->
  (forall k a b, (k, (a, b)) ∈ data -> c k a) -> keeps c (join old data).
Proof.
  intros Hnd Ho Hd k e H. destruct (decide (k ∈ map fst data)) as [Hk|Hk].
  - apply elem_of_list_fmap in Hk as ([k' [a b]] & -> & Hin). cbn in H. rewrite (join_in old data k' a b Hnd Hin) in H. injection H as <-.
    cbn. destruct (old !! k') as [e|] eqn:E; [by apply Ho|by eapply Hd].
  - rewrite join_notin in H by done. destruct (old !! k) as [e'|] eqn:E; [|done]. cbn in H. injection H as <-. cbn. by apply Ho.
Qed.
Lemma keeps_settle {A B} c ks (m : gmap nat (elem A B)) : keeps c m -> keeps c (settle ks m).
Proof. intros H k e Hk. unfold settle in Hk. apply map_filter_lookup_Some in Hk as [Hk _]. by apply H. Qed.

Lemma staying_perm {A B} (m : gmap nat (elem A B)) (data : list (nat * (A * B))) : NoDup (map fst data) ->
  (forall k a b, m !! k = Some (Elem a b false) <-> (k, (a, b)) ∈ data) -> staying m ≡ₚ map snd data.
Proof.
  intros Hnd H. unfold staying.
  assert (P : filter (fun ke => leaving (snd ke) = false) (map_to_list m) ≡ₚ map (fun kd => (fst kd, Elem (fst (snd kd)) (snd (snd kd)) false)) data).
  { apply NoDup_Permutation.
    - apply NoDup_filter, NoDup_map_to_list.
    - apply nodup_fst. rewrite map_map. cbn. exact Hnd.
    - intros [k [a b l]]. rewrite elem_of_list_filter, elem_of_map_to_list, elem_of_list_fmap. cbn. split.
      + intros [-> Hk]. exists (k, (a, b)). split; [done|]. by apply H.
      + intros ([k' [a' b']] & E & Hin). cbn in E. injection E as -> -> -> ->. split; [done|]. by apply H. }
  rewrite P, map_map. erewrite map_ext; [reflexivity|]. by intros [k [a b]].
Qed.
Lemma staying_join {A B} c (old : gmap nat (elem A B)) data : NoDup (map fst data) -> keeps c old ->
  (forall k a a' b, (k, (a, b)) ∈ data -> c k a' -> a' = a) -> staying (join old data) ≡ₚ map snd data.
Proof.
  intros Hnd Ho Hd. apply staying_perm; [done|]. intros k a b. destruct (decide (k ∈ map fst data)) as [Hk|Hk].
  - apply elem_of_list_fmap in Hk as ([k' [a1 b1]] & -> & Hin). cbn. rewrite (join_in old data k' a1 b1 Hnd Hin).
    assert (E : (match old !! k' with Some e => fixed e | None => a1 end) = a1).
    { destruct (old !! k') as [e|] eqn:E; [|done]. by eapply Hd, Ho. }
    rewrite E. split.
    + intros E'. injection E' as <- <-. done.
    + intros Hin'. f_equal.
      assert (Heq : (k', (a1, b1)) = (k', (a, b))).
      { apply elem_of_list_lookup in Hin as [i Hi], Hin' as [j Hj].
        assert (i = j). { eapply (NoDup_lookup (map fst data)); [done| |]; rewrite list_lookup_fmap; [by rewrite Hi|by rewrite Hj]. }
        subst j. congruence. }
      injection Heq as -> ->. done.
  - rewrite join_notin by done. split.
    + intros E. destruct (old !! k); [|done]. cbn in E. by injection E.
    + intros Hin. exfalso. apply Hk. apply elem_of_list_fmap. by exists (k, (a, b)).
Qed.
Lemma staying_settle {A B} ks (m : gmap nat (elem A B)) : staying (settle ks m) ≡ₚ staying m.
Proof.
  unfold staying. apply fmap_Permutation. apply NoDup_Permutation.
  - apply NoDup_filter, NoDup_map_to_list.
  - apply NoDup_filter, NoDup_map_to_list.
  - intros [k e]. rewrite !elem_of_list_filter, !elem_of_map_to_list. cbn. unfold settle. rewrite map_filter_lookup_Some. cbn.
    split; [intros (H & H1 & _); done|]. intros [H1 H2]. split; [done|]. split; [done|]. intros [_ H3]. congruence.
Qed.
Lemma settle_all {A B} (m : gmap nat (elem A B)) ks : (forall k, k ∈ dom m -> k ∈ ks) -> all_staying (settle ks m).
Proof.
  intros H k e Hk. unfold settle in Hk. apply map_filter_lookup_Some in Hk as [Hk Hn]. cbn in Hn.
  destruct (leaving e) eqn:E; [|done]. destruct Hn. split; [|done]. apply H. by eapply elem_of_dom_2.
Qed.
