(** CostProofs.v -- C91: calls are linear in the number of tokens, copies quadratic. *)
From Verif Require Export Cost RecursionProofs ExampleTree Visitors.

Lemma cbind_snd {A B} (m : counted A) (f : A -> counted B) : snd (cbind m f) = let! a := snd m in snd (f a).
Proof. destruct m as [[q k] [a| |]]; cbn; [by destruct (f a) as [[? ?] ?]|done..]. Qed.
Lemma count_items_same voc toks rec rec' α c k m : (forall c A, snd (rec c A) = rec' c A) ->
  snd (count_items voc toks rec α c k m) = parse_items voc toks rec' α c k m.
Proof.
  intros H. revert c k m. induction α as [|[B|u] α IH]; intros c k m; cbn [count_items parse_items]; [done|..]; rewrite cbind_snd.
  - rewrite H. destruct (rec' c B) as [[[r c1] m1]| |]; cbn [rbind]; [|done..].
    destruct (get_nonterminal_name_by_id voc B); [apply IH|]. rewrite cbind_snd. cbn [snd rbind]. apply IH.
  - cbn [cret snd]. destruct (toks !! c); cbn [unwrap rbind]; [apply IH|done].
Qed.
Lemma count_same voc tab toks f c A : snd (count_ast voc tab toks f c A) = parse_ast voc tab toks f c A.
Proof.
  revert c A. induction f as [|f IH]; intros c A; [done|]. cbn [count_ast parse_ast]. rewrite cbind_snd. cbn [snd rbind].
  rewrite cbind_snd. cbn [snd cret]. destruct (toks !! c) as [tok|]; cbn [unwrap rbind]; [|done].
  rewrite cbind_snd. cbn [snd cret]. destruct (tab !! (A, token_type tok)) as [p|]; cbn [unwrap rbind]; [|done].
  rewrite cbind_snd. rewrite (count_items_same _ _ _ _ _ _ _ _ IH).
  destruct (parse_items _ _ _ _ _ _ _) as [[[c' k] m]| |]; done.
Qed.

(** The counters. *)
Definition calls {A} (m : counted A) : nat := fst (fst m).
Definition copies {A} (m : counted A) : nat := snd (fst m).
Lemma cbind_calls {A B} (m : counted A) (f : A -> counted B) : calls (cbind m f) = calls m + match snd m with Ret a => calls (f a) | _ => 0 end.
Proof. destruct m as [[q k] [a| |]]; cbn; [destruct (f a) as [[? ?] ?]; cbn; lia|unfold calls; cbn; lia..]. Qed.
Lemma cbind_copies {A B} (m : counted A) (f : A -> counted B) : copies (cbind m f) = copies m + match snd m with Ret a => copies (f a) | _ => 0 end.
Proof. destruct m as [[q k] [a| |]]; cbn; [destruct (f a) as [[? ?] ?]; cbn; lia|unfold copies; cbn; lia..]. Qed.

Section calls.
  Context (voc : vocabulary) (tab : table) (toks : list token) (L : gset nat) (R : nat).
  Context (HL : forall A t p, tab !! (A, t) = Some p -> A ∈ L) (Hno : forall t A, ~ tc (table_corner tab t) A A).
  Context (HR : forall k p, tab !! k = Some p -> length (right p) <= R).

  (** Calls that consume nothing, with k rules left. *)
  Fixpoint zero (k : nat) : nat := match k with 0 => 1 | S k => 1 + R * zero k end.
  Lemma zero_mono k k' : k <= k' -> zero k <= zero k'.
  Proof using.
    assert (forall k, zero k <= zero (S k)) as H.
    { clear k k'. induction k as [|k IH]; cbn [zero] in *; [lia|]. apply le_n_S, Nat.mul_le_mono_l, IH. }
    induction 1 as [|k' Hk IH]; [done|]. specialize (H k'). lia.
  Qed.
  Definition per : nat := 1 + R * zero (size L).
  Lemma zero_per : zero (size L) <= per.
  Proof using.
    unfold per. destruct (size L) as [|n]; cbn [zero]; [lia|]. generalize (zero n). intros z. apply le_n_S. destruct (Nat.eq_0_gt_0_cases R) as [E|E]; [by rewrite E|]. apply Nat.mul_le_mono_l. nia.
  Qed.
  Definition width : nat := S (size L).
  (** Where a call ends; a failure counts as reading past the end. *)
  Definition call_end (x : res (rule_ctx * nat * list mismatch)) : nat := match x with Ret (_, c', _) => c' | _ => S (length toks) end.
  Definition items_end (x : res (nat * list ast * list mismatch)) : nat := match x with Ret (c', _, _) => c' | _ => S (length toks) end.

  Lemma call_end_le f c A : c <= length toks -> c <= call_end (parse_ast voc tab toks f c A) <= S (length toks).
  Proof using.
    intros Hc. destruct (parse_ast voc tab toks f c A) as [[[r c'] mm]| |] eqn:E; cbn [call_end]; [|lia..].
    pose proof (c37_leaves _ _ _ _ _ _ _ _ _ E) as (H & _). lia.
  Qed.

  Definition good (f c A : nat) (V : gset nat) : Prop :=
    let q := calls (count_ast voc tab toks f c A) in let e := call_end (parse_ast voc tab toks f c A) in
    (e = c -> q <= zero (size (L ∖ V))) /\ (c < e -> q <= per * (S (size (L ∖ V)) + 2 * width * (e - c - 1))).

  Notation icalls f β c k m := (calls (count_items voc toks (count_ast voc tab toks f) β c k m)).
  Notation iend f β c k m := (items_end (parse_items voc toks (parse_ast voc tab toks f) β c k m)).

  (** One step of the loop. *)
  Lemma items_NT f B β c k m : exists k' m',
    icalls f (NT B :: β) c k m = calls (count_ast voc tab toks f c B) +
      match parse_ast voc tab toks f c B with Ret (_, c1, _) => icalls f β c1 k' m' | _ => 0 end /\
    iend f (NT B :: β) c k m = match parse_ast voc tab toks f c B with Ret (_, c1, _) => iend f β c1 k' m' | _ => S (length toks) end.
  Proof using.
    cbn [count_items parse_items]. rewrite cbind_calls, count_same.
    destruct (parse_ast voc tab toks f c B) as [[[r c1] m1]| |]; cbn [rbind]; [|by exists k, m..].
    destruct (get_nonterminal_name_by_id voc B).
    - by eexists _, _.
    - eexists _, _. rewrite cbind_calls. cbn [snd]. split; [reflexivity|reflexivity].
  Qed.
  Lemma items_T f u β c k m : exists k' m',
    icalls f (T u :: β) c k m = match toks !! c with Some _ => icalls f β (c + 1) k' m' | None => 0 end /\
    iend f (T u :: β) c k m = match toks !! c with Some _ => iend f β (c + 1) k' m' | None => S (length toks) end.
  Proof using.
    cbn [count_items parse_items]. rewrite cbind_calls. cbn [cret snd]. destruct (toks !! c) as [tok|]; cbn [unwrap rbind]; [|by exists k, m].
    by eexists _, _.
  Qed.
  Lemma items_end_ge f β c k m : c <= length toks -> c <= iend f β c k m <= S (length toks).
  Proof using.
    revert c k m. induction β as [|[B|u] β IH]; intros c k m Hc; [cbn; lia|..].
    - destruct (items_NT f B β c k m) as (k' & m' & _ & ->). destruct (parse_ast voc tab toks f c B) as [[[r c1] m1]| |] eqn:E; [|lia..].
      pose proof (c37_leaves _ _ _ _ _ _ _ _ _ E) as (H & _). specialize (IH c1 k' m' ltac:(lia)). lia.
    - destruct (items_T f u β c k m) as (k' & m' & _ & ->). destruct (toks !! c) as [tok|] eqn:E; [|lia].
      apply lookup_lt_Some in E. specialize (IH (c + 1) k' m' ltac:(lia)). lia.
  Qed.

  (** Behind the first token read. *)
  Lemma later f : (forall c A, c <= length toks -> good f c A ∅) -> forall β c k m, c <= length toks ->
    icalls f β c k m <= length β * zero (size L) + per * (2 * width * (iend f β c k m - c)).
  Proof using.
    intros Hg. induction β as [|[B|u] β IH]; intros c k m Hc; [cbn; lia|..].
    - destruct (items_NT f B β c k m) as (k' & m' & -> & ->). destruct (Hg c B Hc) as [Hz Hn]. rewrite !difference_empty_L in Hz, Hn.
      pose proof (call_end_le f c B Hc) as He.
      assert (calls (count_ast voc tab toks f c B) <= zero (size L) + per * (2 * width * (call_end (parse_ast voc tab toks f c B) - c))) as Hq.
      { destruct (decide (call_end (parse_ast voc tab toks f c B) = c)) as [E|E]; [specialize (Hz E); lia|]. specialize (Hn ltac:(lia)).
        enough (per * (S (size L) + 2 * width * (call_end (parse_ast voc tab toks f c B) - c - 1)) <= per * (2 * width * (call_end (parse_ast voc tab toks f c B) - c))) by lia.
        apply Nat.mul_le_mono_l. fold width. remember (call_end (parse_ast voc tab toks f c B)) as e. replace (e - c) with (S (e - c - 1)) by lia.
        rewrite (Nat.mul_succ_r (2 * width)). lia. }
      destruct (parse_ast voc tab toks f c B) as [[[r c1] m1]| |] eqn:E; cbn [call_end] in *; [|cbn [length]; rewrite Nat.mul_succ_l; lia..].
      pose proof (c37_leaves _ _ _ _ _ _ _ _ _ E) as (H & _). specialize (IH c1 k' m' ltac:(lia)).
      pose proof (items_end_ge f β c1 k' m' ltac:(lia)) as He'. cbn [length]. rewrite ?Nat.mul_succ_l.
      remember (iend f β c1 k' m') as e. replace (e - c) with ((c1 - c) + (e - c1)) by lia. rewrite Nat.mul_add_distr_l, (Nat.mul_add_distr_l per).
      remember (per * (2 * width * (e - c1))) as X1. remember (per * (2 * width * (c1 - c))) as X2. remember (zero (size L)) as z. nia.
    - destruct (items_T f u β c k m) as (k' & m' & -> & ->). destruct (toks !! c) as [tok|] eqn:E; [|apply Nat.le_0_l].
      apply lookup_lt_Some in E. specialize (IH (c + 1) k' m' ltac:(lia)). pose proof (items_end_ge f β (c + 1) k' m' ltac:(lia)) as He'. cbn [length]. rewrite ?Nat.mul_succ_l.
      remember (iend f β (c + 1) k' m') as e.
      assert (per * (2 * width * (e - (c + 1))) <= per * (2 * width * (e - c))) by (apply Nat.mul_le_mono_l, Nat.mul_le_mono_l; lia). lia.
  Qed.

  Lemma calls_bound f : forall c A (V : gset nat), c <= length toks ->
    (forall tok, toks !! c = Some tok -> forall v, v ∈ V -> tc (table_corner tab (token_type tok)) v A) -> good f c A V.
  Proof using All.
    induction f as [|f IH]; intros c A V Hc HV.
    { split; [cbn; lia|]. intros _. apply Nat.le_0_l. }
    assert (Hall : forall c A, c <= length toks -> good f c A ∅) by (intros c' A' Hc'; apply IH; [done|]; intros tok _ v ?%elem_of_empty; done).
    unfold good. cbv zeta. cbn [count_ast parse_ast]. rewrite cbind_calls. cbn [snd cret]. change (calls (1, 0, Ret ())) with 1.
    assert (1 <= per) as Hper by (unfold per; lia).
    rewrite cbind_calls. cbn [cret snd]. change (calls (cret ?x)) with 0. change (calls (0, 0, ?x)) with 0. cbn [Nat.add].
    destruct (toks !! c) as [tok|] eqn:Hlk; cbn [unwrap rbind].
    2: { cbn [call_end]. split; [lia|]. intros _. rewrite ?Nat.add_0_r. apply (Nat.mul_le_mono 1 _ 1 _); [done|apply le_n_S, Nat.le_0_l]. }
    rewrite cbind_calls. cbn [cret snd]. change (calls (0, 0, ?x)) with 0. cbn [Nat.add].
    destruct (tab !! (A, token_type tok)) as [p|] eqn:Ep; cbn [unwrap rbind].
    2: { cbn [call_end]. split; [lia|]. intros _. rewrite ?Nat.add_0_r. apply (Nat.mul_le_mono 1 _ 1 _); [done|apply le_n_S, Nat.le_0_l]. }
    rewrite cbind_calls.
    assert (forall (x : counted (nat * list ast * list mismatch)) (g : nat * list ast * list mismatch -> counted (rule_ctx * nat * list mismatch)),
      (forall a, calls (g a) = 0) -> calls x + match snd x with Ret a => calls (g a) | _ => 0 end = calls x) as Hdrop.
    { intros x g Hg. destruct (snd x); rewrite ?Hg; lia. }
    rewrite Hdrop by (intros [[? ?] ?]; done). clear Hdrop. change (calls (cret (Ret p))) with 0. cbn [Nat.add].
    pose proof (HL _ _ _ Ep) as HA. assert (A ∉ V) as HAV by (intros ?%(HV tok eq_refl); by eapply Hno).
    assert (size (L ∖ ({[A]} ∪ V)) < size (L ∖ V)) as Hsz by (apply subset_size; set_solver).
    assert (size (L ∖ V) <= size L) as HszL by (apply subseteq_size; set_solver).
    set (kk := size (L ∖ ({[A]} ∪ V))) in *. destruct (size (L ∖ V)) as [|n] eqn:En; [lia|]. assert (kk <= n) as Hkn by lia.
    pose proof (lookup_lt_Some _ _ _ Hlk) as Hlt. pose proof (HR _ _ Ep) as HRp.
    assert (forall α β, right p = α ++ β -> vanishes tab (token_type tok) α -> forall k m,
      (iend f β c k m = c -> icalls f β c k m <= length β * zero n) /\
      (c < iend f β c k m -> icalls f β c k m <= length β * zero (size L) + per * (S n + 2 * width * (iend f β c k m - c - 1)))) as Hwalk.
    2: { specialize (Hwalk [] (right p) eq_refl ltac:(constructor) [] []) as [W1 W2].
         assert (call_end (let! (cursor', kids, mm) := parse_items voc toks (parse_ast voc tab toks f) (right p) c [] [] in
           Ret (RuleCtx (get_nonterminal_name_with_default voc A) kids A, cursor', mm)) = iend f (right p) c [] []) as ->.
         { by destruct (parse_items _ _ _ _ _ _ _) as [[[? ?] ?]| |]. }
         split.
         - intros E. specialize (W1 E). cbn [zero]. pose proof (Nat.mul_le_mono_r _ _ (zero n) HRp). lia.
         - intros E. specialize (W2 E). pose proof (Nat.mul_le_mono_r _ _ (zero (size L)) HRp).
           remember (2 * width * (iend f (right p) c [] [] - c - 1)) as Y. change (S (S n) + Y) with (S (S n + Y)). rewrite Nat.mul_succ_r. unfold per at 2. lia. }
    intros α β. revert α. induction β as [|[B|u] β IHβ]; intros α Hr Hα k m.
    - cbn. lia.
    - destruct (items_NT f B β c k m) as (k' & m' & -> & ->).
      assert (table_corner tab (token_type tok) A B) as HAB by (by exists p, α, β).
      destruct (IH c B ({[A]} ∪ V) Hc) as [Hz Hn].
      { intros tok' Hlk'. rewrite Hlk in Hlk'. injection Hlk' as <-. intros v [->%elem_of_singleton|Hw]%elem_of_union; [by apply tc_once|]. eapply tc_r; [by apply (HV tok eq_refl)|done]. }
      fold kk in Hz, Hn. pose proof (call_end_le f c B Hc) as He.
      destruct (parse_ast voc tab toks f c B) as [[[r c1] m1]| |] eqn:E; cbn [call_end] in *.
      + pose proof (c37_leaves _ _ _ _ _ _ _ _ _ E) as (Hc1 & _). destruct (decide (c1 = c)) as [->|Hne].
        * pose proof (parse_ast_vanishes _ _ _ _ _ _ _ _ _ Hlk E) as Hv. specialize (Hz eq_refl).
          pose proof (zero_mono kk n Hkn). pose proof (zero_mono n (size L) ltac:(lia)).
          destruct (IHβ (α ++ [NT B])) with (k := k') (m := m') as [W1 W2]; [by rewrite <- (assoc_L (++))| |].
          { clear -Hα Hv. induction Hα; [done|]. simpl. by econstructor. }
          cbn [length]. rewrite !Nat.mul_succ_l. split; intros Hend; [specialize (W1 Hend)|specialize (W2 Hend)]; lia.
        * specialize (Hn ltac:(lia)). pose proof (later f Hall β c1 k' m' ltac:(lia)) as Hl. pose proof (items_end_ge f β c1 k' m' ltac:(lia)) as He'.
          cbn [length]. rewrite !Nat.mul_succ_l. split; [lia|]. intros _. remember (iend f β c1 k' m') as e.
          assert (per * (S kk + 2 * width * (c1 - c - 1)) + per * (2 * width * (e - c1)) <= per * (S n + 2 * width * (e - c - 1))) as K.
          { rewrite <- Nat.mul_add_distr_l. apply Nat.mul_le_mono_l. replace (e - c - 1) with ((c1 - c - 1) + (e - c1)) by lia. rewrite (Nat.mul_add_distr_l (2 * width)). lia. }
          lia.
      + split; [lia|]. intros _. specialize (Hn ltac:(lia)).
        assert (per * (S kk + 2 * width * (S (length toks) - c - 1)) <= per * (S n + 2 * width * (S (length toks) - c - 1))) by (apply Nat.mul_le_mono_l; lia). lia.
      + split; [lia|]. intros _. specialize (Hn ltac:(lia)).
        assert (per * (S kk + 2 * width * (S (length toks) - c - 1)) <= per * (S n + 2 * width * (S (length toks) - c - 1))) by (apply Nat.mul_le_mono_l; lia). lia.
    - destruct (items_T f u β c k m) as (k' & m' & -> & ->). rewrite Hlk.
      pose proof (later f Hall β (c + 1) k' m' ltac:(lia)) as Hl. pose proof (items_end_ge f β (c + 1) k' m' ltac:(lia)) as He'. cbn [length]. rewrite ?Nat.mul_succ_l.
      split; [lia|]. intros _. remember (iend f β (c + 1) k' m') as e. replace (e - c - 1) with (e - (c + 1)) by lia.
      assert (per * (2 * width * (e - (c + 1))) <= per * (S n + 2 * width * (e - (c + 1)))) by (apply Nat.mul_le_mono_l; lia). lia.
  Qed.
  Lemma calls_linear f c A : calls (count_ast voc tab toks f c A) <= 2 * per * width * (length toks - c + 1).
  Proof using All.
    destruct (decide (c <= length toks)) as [Hc|Hc].
    - destruct (calls_bound f c A ∅ Hc) as [H1 H2]; [intros tok _ v ?%elem_of_empty; done|]. rewrite difference_empty_L in H1, H2.
      pose proof (call_end_le f c A Hc) as He. remember (call_end (parse_ast voc tab toks f c A)) as e. destruct (decide (e = c)) as [E|E].
      + specialize (H1 E). pose proof zero_per. assert (1 <= 2 * width * (length toks - c + 1)) as K by (apply (Nat.mul_le_mono 1 _ 1 _); unfold width; lia).
        pose proof (Nat.mul_le_mono per per 1 _ (le_n _) K). lia.
      + specialize (H2 ltac:(lia)).
        assert (per * (S (size L) + 2 * width * (e - c - 1)) <= per * (2 * width * (length toks - c + 1))); [|lia].
        apply Nat.mul_le_mono_l. fold width. pose proof (Nat.mul_le_mono_l (e - c - 1) (length toks - c) (2 * width) ltac:(lia)). lia.
    - destruct f as [|f]; [unfold calls; cbn; lia|]. cbn [count_ast]. rewrite !cbind_calls, lookup_ge_None_2 by lia. cbn. unfold calls, per, width. cbn [fst Nat.add]. lia.
  Qed.
End calls.

(** Copies. *)
Lemma nodes_rule n cs i : nodes (Rule (RuleCtx n cs i)) = S (nodes_list cs).
Proof. cbn. f_equal. induction cs as [|c cs IH]; [done|]. unfold nodes_list in *. cbn. by rewrite IH. Qed.
Lemma nodes_list_app a b : nodes_list (a ++ b) = nodes_list a + nodes_list b.
Proof. unfold nodes_list. by rewrite map_app, sum_list_with_app || (induction a as [|x a IH]; cbn; [done|lia]). Qed.

Lemma nodes_list_rule r : nodes_list [Rule r] = S (nodes_list (children r)).
Proof. destruct r as [n cs i]. cbn [children]. rewrite <- (nodes_rule n cs i). unfold nodes_list. cbn [map sum_list]. apply Nat.add_0_r. Qed.

Section copies.
  Context (voc : vocabulary) (tab : table) (toks : list token).
  (** The tree is no larger than the work done for it. *)
  Lemma tree_size f : forall c A r c' mm, parse_ast voc tab toks f c A = Ret (r, c', mm) ->
    S (nodes_list (children r)) <= calls (count_ast voc tab toks f c A) + (c' - c).
  Proof using.
    induction f as [|f IH]; intros c A r c' mm H; [done|].
    assert (Hi : forall β c k m c' k' m', parse_items voc toks (parse_ast voc tab toks f) β c k m = Ret (c', k', m') ->
      c <= c' /\ nodes_list k' <= nodes_list k + calls (count_items voc toks (count_ast voc tab toks f) β c k m) + (c' - c)).
    { clear c A r c' mm H. induction β as [|[B|u] β IHβ]; intros c k m c' k' m' H; cbn [parse_items] in H.
      - injection H as <- <- <-. cbn. lia.
      - apply rbind_Ret in H as ([[r c1] m1] & H1 & H2). pose proof (IH _ _ _ _ _ H1) as Hs. pose proof (parse_ast_le _ _ _ _ _ _ _ _ _ H1).
        cbn [count_items]. rewrite cbind_calls, count_same, H1. destruct (get_nonterminal_name_by_id voc B).
        + apply IHβ in H2 as [? H2]. split; [lia|]. rewrite nodes_list_app in H2. rewrite nodes_list_rule in H2. lia.
        + apply IHβ in H2 as [? H2]. split; [lia|]. rewrite nodes_list_app in H2. rewrite cbind_calls. cbn [snd]. unfold calls in *. cbn [fst] in *. lia.
      - apply rbind_Ret in H as (tok & H1 & H2). cbn [count_items]. rewrite cbind_calls. cbn [cret snd]. rewrite H1.
        apply IHβ in H2 as [? H2]. split; [lia|]. rewrite nodes_list_app in H2. change (nodes_list [Terminal tok]) with 1 in H2. unfold calls in *. cbn [fst cret] in *. lia. }
    cbn [parse_ast] in H. apply rbind_Ret in H as (tok & H1 & H). apply rbind_Ret in H as (p & H2 & H). apply rbind_Ret in H as ([[c1 k1] m1] & H3 & H).
    injection H as <- <- <-. apply Hi in H3 as [Hle H3]. cbn [children]. cbn [count_ast]. rewrite cbind_calls. cbn [snd]. rewrite cbind_calls. cbn [cret snd]. rewrite H1.
    rewrite cbind_calls. cbn [cret snd]. rewrite H2, cbind_calls. unfold calls in *. cbn [fst cret nodes_list map sum_list] in *. lia.
  Qed.

  Lemma copies_calls i M : (forall f c A r c' mm, i <= c -> parse_ast voc tab toks f c A = Ret (r, c', mm) -> nodes_list (children r) <= M) ->
    forall f c A, i <= c -> copies (count_ast voc tab toks f c A) <= (calls (count_ast voc tab toks f c A) - 1) * M.
  Proof using.
    intros HM. induction f as [|f IH]; intros c A Hc; [done|].
    assert (Hi : forall β c k m, i <= c -> copies (count_items voc toks (count_ast voc tab toks f) β c k m) <= calls (count_items voc toks (count_ast voc tab toks f) β c k m) * M).
    { clear c A Hc. induction β as [|[B|u] β IHβ]; intros c k m Hc; [done|..]; cbn [count_items]; rewrite cbind_calls, cbind_copies.
      - rewrite count_same. specialize (IH c B Hc). destruct (parse_ast voc tab toks f c B) as [[[r c1] m1]| |] eqn:E.
        + pose proof (HM _ _ _ _ _ _ Hc E) as Hn. pose proof (parse_ast_le _ _ _ _ _ _ _ _ _ E). pose proof (tree_size _ _ _ _ _ _ E) as Hs.
          assert (1 <= calls (count_ast voc tab toks f c B)) as H1.
          { destruct f as [|f]; [done|]. cbn [count_ast]. rewrite cbind_calls. unfold calls at 1. cbn [fst]. lia. }
          assert (copies (count_ast voc tab toks f c B) + M <= calls (count_ast voc tab toks f c B) * M) as H2.
          { destruct (calls (count_ast voc tab toks f c B)) as [|q]; [lia|]. cbn [Nat.sub] in IH. rewrite Nat.sub_0_r in IH. rewrite Nat.mul_succ_l. lia. }
          rewrite Nat.mul_add_distr_r. destruct (get_nonterminal_name_by_id voc B).
          * specialize (IHβ c1 (k ++ [Rule r]) (m ++ m1) ltac:(lia)). lia.
          * rewrite cbind_calls, cbind_copies. cbn [snd]. specialize (IHβ c1 (k ++ children r) (m ++ m1) ltac:(lia)).
            change (calls (0, nodes_list (children r), Ret ())) with 0. change (copies (0, nodes_list (children r), Ret ())) with (nodes_list (children r)).
            rewrite Nat.add_0_l. lia.
        + rewrite Nat.add_0_r. rewrite Nat.mul_add_distr_r. destruct (calls (count_ast voc tab toks f c B)) as [|q]; [lia|]. cbn [Nat.sub] in IH. rewrite Nat.sub_0_r in IH. rewrite Nat.mul_succ_l. lia.
        + rewrite Nat.add_0_r. rewrite Nat.mul_add_distr_r. destruct (calls (count_ast voc tab toks f c B)) as [|q]; [lia|]. cbn [Nat.sub] in IH. rewrite Nat.sub_0_r in IH. rewrite Nat.mul_succ_l. lia.
      - cbn [cret snd]. change (calls (0, 0, ?x)) with 0. change (copies (0, 0, ?x)) with 0. destruct (toks !! c); cbn [unwrap]; [|done]. rewrite !Nat.add_0_l. apply IHβ. lia. }
    cbn [count_ast]. rewrite cbind_calls, cbind_copies. cbn [snd]. change (calls (1, 0, Ret ())) with 1. change (copies (1, 0, Ret ())) with 0.
    rewrite cbind_calls, cbind_copies. cbn [cret snd]. destruct (toks !! c) as [tok|]; cbn [unwrap]; [|done].
    rewrite cbind_calls, cbind_copies. cbn [cret snd]. destruct (tab !! (A, token_type tok)) as [p|]; cbn [unwrap]; [|done].
    rewrite cbind_calls, cbind_copies. specialize (Hi (right p) c [] [] Hc). unfold calls, copies in *. cbn [fst snd cret] in *.
    destruct (snd (count_items voc toks (count_ast voc tab toks f) (right p) c [] [])) as [[[? ?] ?]| |]; cbn [fst snd cret]; rewrite !Nat.add_0_r, !Nat.add_0_l, Nat.add_comm, Nat.add_sub; exact Hi.
  Qed.
End copies.

Lemma rhs_bound (tab : table) : exists R, forall k p, tab !! k = Some p -> length (right p) <= R.
Proof.
  induction tab as [|k p tab Hk [R IH]] using map_ind.
  - exists 0. intros k p H. by rewrite lookup_empty in H.
  - exists (R `max` length (right p)). intros k' p' H. apply lookup_insert_Some in H as [[<- <-]|[_ H]]; [lia|]. apply IH in H. lia.
Qed.
Lemma c91_bound tab : (forall t A, ~ tc (table_corner tab t) A A) ->
  exists K, forall voc toks fuel i A, let '(q, k, _) := count_ast voc tab toks fuel i A in let n := length toks - i in
    q <= K * (n + 1) /\ k <= K * (n + 1) * (n + 1).
Proof.
  intros Hno. destruct (rhs_bound tab) as [R HR]. set (L := set_map fst (dom tab) : gset nat).
  assert (HL : forall A t p, tab !! (A, t) = Some p -> A ∈ L).
  { intros A t p H. apply elem_of_map. exists (A, t). split; [done|]. by eapply elem_of_dom_2. }
  set (K := 2 * per L R * width L). exists (K * (K + 1)). intros voc toks fuel i A.
  pose proof (calls_linear voc tab toks L R HL Hno HR) as Hq. fold K in Hq.
  assert (HM : forall f c A r c' mm, i <= c -> parse_ast voc tab toks f c A = Ret (r, c', mm) -> nodes_list (children r) <= (K + 1) * (length toks - i + 1)).
  { intros f c B r c' mm Hc H. pose proof (tree_size _ _ _ _ _ _ _ _ _ H). pose proof (c37_leaves _ _ _ _ _ _ _ _ _ H) as (Hc' & _).
    pose proof (Hq f c B). pose proof (Nat.mul_le_mono_l (length toks - c + 1) (length toks - i + 1) K ltac:(lia)). lia. }
  pose proof (copies_calls voc tab toks i _ HM fuel i A (le_n _)) as Hk. specialize (Hq fuel i A).
  destruct (count_ast voc tab toks fuel i A) as [[q k] x]. unfold calls, copies in *. cbn [fst snd] in *. cbv zeta.
  remember (length toks - i + 1) as n. split; [nia|].
  assert ((q - 1) * ((K + 1) * n) <= (K * n) * ((K + 1) * n)) by (apply Nat.mul_le_mono_r; lia). lia.
Qed.

Lemma c91_grammar g order fuel tab w :
  iteration_order g order -> closed (nonterminals (g_vocabulary g)) (productions g) ->
  build_table fuel order g = Ret (tab, w) -> w = [] \/ (forall B, ~ left_recursive (productions g) B) ->
  exists K, forall voc toks fuel i A, let '(q, k, _) := count_ast voc tab toks fuel i A in let n := length toks - i in
    q <= K * (n + 1) /\ k <= K * (n + 1) * (n + 1).
Proof.
  intros Ho Hcl Ht Hor. apply c91_bound, c35_exact. intros v' toks' i' A'. destruct Hor as [->|Hn].
  - destruct (c34_parse_terminates _ _ _ _ v' toks' i' A' Ho Hcl Ht) as [n H]. exists n. by apply (H n).
  - destruct (c35_no_left_recursion _ _ _ _ _ v' toks' i' A' Ho Hcl Ht Hn) as [n H]. exists n. by apply (H n).
Qed.

(** Where all rules have names nothing is copied. *)
Lemma c91_named voc tab toks : (forall k p B, tab !! k = Some p -> NT B ∈ right p -> get_nonterminal_name_by_id voc B <> None) ->
  forall f c A, copies (count_ast voc tab toks f c A) = 0.
Proof.
  intros Hn. induction f as [|f IH]; intros c A; [done|].
  assert (Hi : forall β c k m, (forall B, NT B ∈ β -> get_nonterminal_name_by_id voc B <> None) -> copies (count_items voc toks (count_ast voc tab toks f) β c k m) = 0).
  { induction β as [|[B|u] β IHβ]; intros c0 k m Hβ; [done|..]; cbn [count_items]; rewrite cbind_copies.
    - rewrite IH. destruct (snd (count_ast voc tab toks f c0 B)) as [[[r c1] m1]| |]; [|done..].
      specialize (Hβ B ltac:(apply elem_of_list_here)) as HB. destruct (get_nonterminal_name_by_id voc B); [|done]. apply IHβ. intros B' H. apply Hβ. by apply elem_of_list_further.
    - cbn [cret snd]. destruct (toks !! c0); cbn [unwrap]; [|done]. apply IHβ. intros B' H. apply Hβ. by apply elem_of_list_further. }
  cbn [count_ast]. rewrite cbind_copies. cbn [snd]. rewrite cbind_copies. cbn [cret snd]. destruct (toks !! c) as [tok|]; cbn [unwrap]; [|done].
  rewrite cbind_copies. cbn [cret snd]. destruct (tab !! (A, token_type tok)) as [p|] eqn:E; cbn [unwrap]; [|done].
  rewrite cbind_copies, Hi by (intros B HB; by eapply Hn). by destruct (snd _) as [[[? ?] ?]| |].
Qed.

(** s: A*; *)
Definition star_grammar : list rule :=
  [ParserRule (lit "s") [Sequence [Element (TokenRef (lit "A")) (Some (Star, false))]]; LexerRule (lit "A") (lit "/a/")].
Definition star_g : grammar := match load_tree (build_grammar star_grammar) with Ret (g, _) => g | _ => grammar_new [] end.
Definition star_tab : table := match build_table 100 (elements (productions star_g)) star_g with Ret (t, _) => t | _ => ∅ end.
Lemma star_load : exists x, load_tree (build_grammar star_grammar) = Ret (star_g, x).
Proof.
  unfold star_g. assert (match load_tree (build_grammar star_grammar) with Ret _ => true | _ => false end = true) as H by (by vm_compute).
  destruct (load_tree (build_grammar star_grammar)) as [[g x]| |]; [by exists x|done..].
Qed.
Lemma star_build : build_table 100 (elements (productions star_g)) star_g = Ret (star_tab, []).
Proof.
  unfold star_tab. assert (match build_table 100 (elements (productions star_g)) star_g with Ret (_, []) => true | _ => false end = true) as H by (by vm_compute).
  destruct (build_table 100 (elements (productions star_g)) star_g) as [[t [|? ?]]| |]; done.
Qed.
Lemma star_entries : star_tab !! (0, 2) = Some (Production 0 [NT 1]) /\ star_tab !! (0, 1) = Some (Production 0 [NT 1]) /\
  star_tab !! (1, 2) = Some (Production 1 [T 2; NT 1]) /\ star_tab !! (1, 1) = Some (Production 1 []) /\
  get_nonterminal_name_by_id (g_vocabulary star_g) 1 = None.
Proof. repeat split; by vm_compute. Qed.
Definition star_tokens (n : nat) : list token := replicate n (token_new 2 (lit "A") (lit "a")) ++ [token_new 1 (lit "_STOP") (lit "_STOP")].
Lemma star_at n i : i < n -> star_tokens n !! i = Some (token_new 2 (lit "A") (lit "a")).
Proof. intros H. unfold star_tokens. rewrite lookup_app_l by (by rewrite replicate_length). by apply lookup_replicate_2. Qed.
Lemma star_stop n : star_tokens n !! n = Some (token_new 1 (lit "_STOP") (lit "_STOP")).
Proof. unfold star_tokens. rewrite lookup_app_r by (by rewrite replicate_length). by rewrite replicate_length, Nat.sub_diag. Qed.
Lemma nodes_replicate n t : nodes_list (replicate n (Terminal t)) = n.
Proof. induction n as [|n IH]; [done|]. unfold nodes_list in *. cbn. by rewrite IH. Qed.
Lemma star_run d : forall n i f, i + d = n -> d < f -> exists k name,
  count_ast (g_vocabulary star_g) star_tab (star_tokens n) f i 1 = (S d, k, Ret (RuleCtx name (replicate d (Terminal (token_new 2 (lit "A") (lit "a")))) 1, n, [])) /\
  2 * k + d = d * d.
Proof.
  destruct star_entries as (_ & _ & E2 & E1 & En). induction d as [|d IH]; intros n i f Hi Hf; (destruct f as [|f]; [lia|]); cbn [count_ast].
  - rewrite Nat.add_0_r in Hi. subst i. rewrite star_stop. cbn [unwrap cret cbind]. change (token_type (token_new 1 _ _)) with 1. rewrite E1.
    cbn [unwrap cret cbind right count_items]. eexists _, _. split; [reflexivity|done].
  - rewrite star_at by lia. cbn [unwrap cret cbind]. change (token_type (token_new 2 _ _)) with 2. rewrite E2.
    cbn [unwrap cret cbind right count_items]. rewrite star_at by lia. cbn [unwrap cret cbind].
    destruct (IH n (i + 1) f ltac:(lia) ltac:(lia)) as (k & name & -> & Hk). cbn [cbind]. rewrite En. cbn [cbind children].
    eexists _, _. split; [cbn [count_items cbind cret Nat.add]; rewrite !Nat.add_0_r; reflexivity|]. rewrite nodes_replicate. lia.
Qed.
Lemma star_exact n f : n + 1 < f -> exists k r, count_ast (g_vocabulary star_g) star_tab (star_tokens n) f 0 0 = (n + 2, k, Ret r) /\ 2 * k = n * (n + 1).
Proof.
  intros Hf. destruct star_entries as (E2 & E1 & _ & _ & En). destruct f as [|f]; [lia|]. cbn [count_ast].
  assert (exists t, star_tokens n !! 0 = Some t /\ star_tab !! (0, token_type t) = Some (Production 0 [NT 1])) as (t & -> & Et).
  { destruct n as [|n]; [exists (token_new 1 (lit "_STOP") (lit "_STOP"))|exists (token_new 2 (lit "A") (lit "a"))];
      (split; [reflexivity|]); [exact E1|exact E2]. }
  cbn [unwrap cret cbind]. rewrite Et. cbn [unwrap cret cbind right count_items].
  destruct (star_run n n 0 f eq_refl ltac:(lia)) as (k & name & -> & Hk). cbn [cbind]. rewrite En. cbn [cbind children].
  eexists _, _. split; [cbn [count_items cbind cret Nat.add]; rewrite !Nat.add_0_r, (Nat.add_comm n 2); reflexivity|]. rewrite nodes_replicate. lia.
Qed.
Lemma c91_refuted : exists G g x order tab, load_tree (build_grammar G) = Ret (g, x) /\ iteration_order g order /\ build_table 100 order g = Ret (tab, []) /\
  forall K, exists toks, forall fuel, length toks < fuel -> exists q k r, count_ast (g_vocabulary g) tab toks fuel 0 0 = (q, k, Ret r) /\ K * length toks < k.
Proof.
  destruct star_load as [x Hx]. exists star_grammar, star_g, x, (elements (productions star_g)), star_tab. split; [exact Hx|]. split; [|split; [exact star_build|]].
  { unfold iteration_order. reflexivity. }
  intros K. set (n := 2 * K + 1). exists (star_tokens n). assert (length (star_tokens n) = n + 1) as E by (unfold star_tokens; by rewrite app_length, replicate_length).
  intros fuel Hf. rewrite E in *. destruct (star_exact n fuel Hf) as (k & r & H & Hk). exists (n + 2), k, r. split; [exact H|]. unfold n in *. lia.
Qed.

Definition named_voc : vocabulary := vrun vocabulary_new [AddNamed 0 (lit "expr"); AddNamed 1 (lit "term"); AddNamed 2 (lit "rest")].
Lemma ex_named : forall k p B, ex_tab !! k = Some p -> NT B ∈ right p -> get_nonterminal_name_by_id named_voc B <> None.
Proof.
  set (ok := fun s : item => match s with NT B => match get_nonterminal_name_by_id named_voc B with Some _ => true | None => false end | T _ => true end).
  assert (forallb (fun kp : nat * nat * production => forallb ok (right kp.2)) (map_to_list ex_tab) = true) as H by (by vm_compute).
  rewrite forallb_forall in H. intros k p B Hk HB. apply elem_of_map_to_list, elem_of_list_In in Hk. specialize (H _ Hk). cbn in H.
  rewrite forallb_forall in H. apply elem_of_list_In in HB. specialize (H _ HB). cbv beta iota delta [ok] in H. intros E. rewrite E in H. discriminate H.
Qed.
