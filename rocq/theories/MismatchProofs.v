(** MismatchProofs.v -- C67: what the reported mismatches say; C36 and C27 sharpened. *)
From Verif Require Export SpecMismatch RecursionProofs ForestProofs.

Lemma StronglySorted_app_lt l1 l2 : StronglySorted lt l1 -> StronglySorted lt l2 -> (forall x y, x ∈ l1 -> y ∈ l2 -> x < y) -> StronglySorted lt (l1 ++ l2).
Proof.
  intros S1 S2 H. induction S1 as [|x l1 S1 IH F1]; [done|]. simpl. constructor.
  - apply IH. intros a b Ha Hb. apply H; [by apply elem_of_list_further|done].
  - apply Forall_app. split; [done|]. apply Forall_forall. intros y Hy. apply H; [apply elem_of_list_here|done].
Qed.

Section mismatches.
  Context (P : gset production) (voc : vocabulary) (tab : table) (toks : list token).
  Context (Hsub : forall A t p, tab !! (A, t) = Some p -> p ∈ P /\ left p = A).

  Lemma genuine_app c c1 c2 m1 m2 : c <= c1 -> c1 <= c2 -> genuine toks c c1 m1 -> genuine toks c1 c2 m2 -> genuine toks c c2 (m1 ++ m2).
  Proof using.
    intros Hc1 Hc2 [F1 S1] [F2 S2]. split.
    - apply Forall_app. split; (eapply Forall_impl; [eassumption|]); intros m [? ?]; (split; [lia|done]).
    - rewrite map_app. apply StronglySorted_app_lt; [done..|]. rewrite Forall_forall in F1, F2.
      intros x y (m1' & -> & H1)%elem_of_list_fmap (m2' & -> & H2)%elem_of_list_fmap.
      destruct (F1 _ H1) as [? _], (F2 _ H2) as [? _]. lia.
  Qed.
  Lemma repaired_app c c1 c2 m1 m2 w1 w2 : c <= c1 -> c1 <= c2 -> genuine toks c c1 m1 -> genuine toks c1 c2 m2 ->
    repaired toks m1 c c1 w1 -> repaired toks m2 c1 c2 w2 -> repaired toks (m1 ++ m2) c c2 (w1 ++ w2).
  Proof using.
    intros Hc1 Hc2 [F1 _] [F2 _] [L1 R1] [L2 R2]. rewrite Forall_forall in F1, F2. split; [rewrite app_length; lia|].
    intros i x Hx. destruct (decide (i < length w1)) as [Hi|Hi].
    - rewrite lookup_app_l in Hx by done. destruct (R1 _ _ Hx) as [(u & Hu & ->)|[Hn Ht]].
      + left. exists u. split; [|done]. apply elem_of_app. by left.
      + right. split; [|done]. intros u [Hu|Hu]%elem_of_app; [by apply (Hn u)|]. destruct (F2 _ Hu) as [? _]. simpl in *. lia.
    - rewrite lookup_app_r in Hx by lia. assert (c1 + (i - length w1) = c + i) as E by lia.
      destruct (R2 _ _ Hx) as [(u & Hu & ->)|[Hn Ht]]; rewrite E in *.
      + left. exists u. split; [|done]. apply elem_of_app. by right.
      + right. split; [|done]. intros u [Hu|Hu]%elem_of_app; [|by apply (Hn u)]. destruct (F1 _ Hu) as [? _]. simpl in *. lia.
  Qed.

  Lemma parse_ast_repaired f : forall c A r c' mm, parse_ast voc tab toks f c A = Ret (r, c', mm) ->
    c <= c' /\ genuine toks c c' mm /\ exists w, repaired toks mm c c' w /\ derives P [NT A] w.
  Proof using All.
    induction f as [|f IH]; intros c A r c' mm H; [done|]. simpl in H.
    apply rbind_Ret in H as (tok & _ & H). apply rbind_Ret in H as (p & Hp & H). apply unwrap_Ret in Hp.
    apply rbind_Ret in H as ([[c1 k1] m1] & H & E). injection E as _ <- <-. destruct (Hsub _ _ _ Hp) as [HpP <-].
    enough (forall α c k m, parse_items voc toks (parse_ast voc tab toks f) α c k m = Ret (c1, k1, m1) ->
      exists mn, m1 = m ++ mn /\ c <= c1 /\ genuine toks c c1 mn /\ exists w, repaired toks mn c c1 w /\ derives P α w) as K.
    { destruct (K _ _ _ _ H) as (mn & -> & Hc & Hg & w & Hw & Hd). split_and!; [done..|]. exists w. split; [done|].
      eapply derives_trans; [by apply derives_prod|done]. }
    clear -IH. induction α as [|[B|u] α IHα]; intros c k m H; simpl in H.
    - injection H as <- <- <-. exists []. rewrite app_nil_r. split_and!; [done|done|split; constructor|].
      exists []. split; [|apply derives_refl]. split; [simpl; lia|]. intros i x Hx. by rewrite lookup_nil in Hx.
    - apply rbind_Ret in H as ([[r c2] m2] & H1 & H2). destruct (IH _ _ _ _ _ H1) as (L1 & G1 & w1 & R1 & D1).
      destruct (IHα _ _ _ H2) as (mn & -> & L2 & G2 & w2 & R2 & D2). exists (m2 ++ mn).
      split_and!; [by rewrite (assoc_L (++))|lia|by apply (genuine_app _ c2)|].
      exists (w1 ++ w2). split; [by apply (repaired_app _ c2)|]. by apply (derives_app P [NT B] w1 α w2).
    - apply rbind_Ret in H as (tok & H1 & H2). apply unwrap_Ret in H1. destruct (IHα _ _ _ H2) as (mn & E & L2 & G2 & w2 & R2 & D2).
      assert (genuine toks c (c + 1) (if negb (u =? token_type tok) then [(c, u)] else [])) as G1.
      { destruct (Nat.eqb_spec u (token_type tok)) as [->|Hne]; simpl; split; repeat constructor; simpl; [lia..|]. exists tok. by split; [|congruence]. }
      exists ((if negb (u =? token_type tok) then [(c, u)] else []) ++ mn). split_and!.
      + rewrite E. destruct (negb _); by rewrite <- ?(assoc_L (++)).
      + lia.
      + apply (genuine_app _ (c + 1)); [lia|lia|done|done].
      + exists ([T u] ++ w2). split; [apply (repaired_app _ (c + 1)); [lia|lia|done|done| |done]|].
        * split; [simpl; lia|]. intros [|i] x Hx; [|by rewrite lookup_cons, lookup_nil in Hx]. injection Hx as <-. rewrite Nat.add_0_r.
          destruct (Nat.eqb_spec u (token_type tok)) as [->|Hne]; simpl.
          -- right. split; [|by exists tok]. intros u. apply not_elem_of_nil.
          -- left. exists u. split; [by apply elem_of_list_singleton|done].
        * apply (derives_app P [T u] [T u] α w2); [apply derives_refl|done].
  Qed.
End mismatches.

Lemma repaired_first toks k u mm c c' w : genuine toks c c' ((k, u) :: mm) -> repaired toks ((k, u) :: mm) c c' w ->
  exists γ, w = types (segment toks c k) ++ T u :: γ.
Proof.
  intros [F HS] [L R]. apply Forall_cons in F as [[Hk _] F]. inversion HS as [|? ? _ HF]; subst. simpl in *.
  assert (forall i u', i < k - c -> (c + i, u') ∉ (k, u) :: mm) as Hno.
  { intros i u' Hi [E|E]%elem_of_cons; [injection E as E _; lia|]. rewrite Forall_forall in HF.
    assert (k < c + i); [|lia]. apply HF. apply elem_of_list_fmap. by exists (c + i, u'). }
  assert (exists x, w !! (k - c) = Some x) as [x Hx] by (apply lookup_lt_is_Some; lia).
  assert (x = T u) as ->.
  { destruct (R _ _ Hx) as [(u' & Hu & ->)|[Hn _]].
    - replace (c + (k - c)) with k in Hu by lia. apply elem_of_cons in Hu as [E|E]; [by injection E as ->|].
      rewrite Forall_forall in HF. assert (k < k); [|lia]. apply HF. apply elem_of_list_fmap. by exists (k, u').
    - destruct (Hn u). replace (c + (k - c)) with k by lia. apply elem_of_list_here. }
  exists (drop (S (k - c)) w). rewrite <- (take_drop_middle w (k - c) (T u)) at 1 by done. f_equal.
  apply list_eq. intros i. destruct (decide (i < k - c)) as [Hi|Hi].
  - rewrite lookup_take by done. assert (exists y, w !! i = Some y) as [y Hy] by (apply lookup_lt_is_Some; lia).
    destruct (R _ _ Hy) as [(u' & Hu & _)|(_ & tok & Ht & ->)]; [by apply Hno in Hu|].
    rewrite Hy. symmetry. unfold types, segment.
    change (map (fun t => T (token_type t))) with (fmap (M := list) (fun t => T (token_type t))).
    rewrite list_lookup_fmap, lookup_take, lookup_drop, Ht by done. done.
  - rewrite !lookup_ge_None_2; [done| |rewrite take_length; lia].
    unfold types, segment. rewrite map_length, take_length. lia.
Qed.

Lemma c67_mismatches g order fuel tab w0 v toks fuel' i A r j mm :
  iteration_order g order -> closed (nonterminals (g_vocabulary g)) (productions g) ->
  build_table fuel order g = Ret (tab, w0) ->
  parse_ast v tab toks fuel' i A = Ret (r, j, mm) ->
  genuine toks i j mm /\ exists w, repaired toks mm i j w /\ derives (productions g) [NT A] w.
Proof.
  intros Ho Hcl Ht H. destruct (c28_table_entries _ _ _ _ _ Ho Hcl Ht) as [_ H2].
  apply (parse_ast_repaired (productions g)) in H as (_ & ? & ?); [done|].
  intros B t p Hp. destruct (H2 _ _ _ Hp) as (? & ? & _). done.
Qed.
Lemma c67_first g order fuel tab w0 v toks fuel' r k u mm :
  iteration_order g order -> closed (nonterminals (g_vocabulary g)) (productions g) ->
  build_table fuel order g = Ret (tab, w0) ->
  parse v tab toks fuel' = Ret (r, (k, u) :: mm) ->
  exists tok γ, toks !! k = Some tok /\ token_type tok <> u /\ derives (productions g) [NT 0] (types (take k toks) ++ T u :: γ).
Proof.
  intros Ho Hcl Ht H. unfold parse in H. apply rbind_Ret in H as ([[r' j] mm'] & H1 & E). injection E as -> ->.
  destruct (c67_mismatches _ _ _ _ _ _ _ _ _ _ _ _ _ Ho Hcl Ht H1) as (G & w & R & D).
  destruct (repaired_first _ _ _ _ _ _ _ G R) as (γ & ->). unfold segment in D. rewrite Nat.sub_0_r, drop_0 in D.
  destruct G as [F _]. apply Forall_cons in F as [(_ & tok & Hk & Hne) _]. by exists tok, γ.
Qed.
(** A sentence gets no report. *)
Lemma c67_sentence g order fuel tab v s t rest fuel' r mm :
  iteration_order g order -> closed (nonterminals (g_vocabulary g)) (productions g) ->
  build_table fuel order g = Ret (tab, []) -> token_type t = 1 ->
  parse v tab (s ++ t :: rest) fuel' = Ret (r, mm) -> mm <> [] -> ~ sentence (productions g) 0 s.
Proof.
  intros Ho Hcl Ht Hty H Hmm Hs. destruct (c33_parse_start _ _ _ _ v s t rest Ho Hcl Ht Hs Hty) as (p & cs & _ & _ & _ & n & Hn).
  specialize (Hn (n `max` fuel') ltac:(lia)). rewrite (parse_mono _ _ _ fuel') in Hn by (lia || by rewrite H).
  rewrite H in Hn. by injection Hn as _ ->.
Qed.

(** ** C36 *)
Lemma c36_accepts g order fuel tab v s t :
  iteration_order g order -> closed (nonterminals (g_vocabulary g)) (productions g) ->
  build_table fuel order g = Ret (tab, []) -> token_type t = 1 ->
  (exists fuel' r, parse v tab (s ++ [t]) fuel' = Ret (r, []) /\ rule_leaves r = s) <-> sentence (productions g) 0 s.
Proof.
  intros Ho Hcl Ht Hty. split.
  - intros (fuel' & r & H & Hl). destruct (c36_prefix_sentence _ _ _ _ _ _ _ _ _ Ho Hcl Ht H) as (s' & rest & _ & Hs & Hl'). congruence.
  - intros Hs. destruct (c33_parse_start _ _ _ _ v s t [] Ho Hcl Ht Hs Hty) as (p & cs & Hp & Hl & Hpar & n & Hn).
    exists n. eexists. split; [by apply Hn|]. rewrite rule_leaves_children. simpl.
    by eapply parses_leaves.
Qed.

(** ** C27 *)
Lemma c27_superset g order1 order2 fuel1 fuel2 first cache follow :
  iteration_order g order1 -> iteration_order g order2 ->
  first_set fuel1 order1 g = Ret (first, cache) -> follow_set fuel2 order2 g first = Ret follow ->
  forall A s, follow !! A = Some s -> forall t,
    (textbook_follow (productions g) A t -> t ∈ s) /\
    (t ∈ s -> textbook_follow (productions g) A t \/
       exists X p, p ∈ productions g /\ left p = X /\ follows_in (productions g) X A t) /\
    (forall X, reachable (productions g) X -> follows_in (productions g) X A t -> textbook_follow (productions g) A t).
Proof.
  intros Ho1 Ho2 H1 H2 A s HA t. destruct (c26_follow_exact _ _ _ _ _ _ _ _ Ho1 Ho2 H1 H2) as [_ Hex].
  rewrite (Hex _ _ HA). split_and!.
  - intros [H|H]; [left; by exists 0|by right].
  - intros [(X & α & β & H)|H]; [|left; by right]. right. exists X. inversion H as [Heq|? ? ? Hs _ Heq]; subst.
    + destruct α as [|? [|]]; simplify_eq/=.
    + inversion Hs as [a' p b' Hp Heq Hq]. destruct a' as [|? [|]]; simplify_eq/=. exists p. split_and!; [done..|]. by exists α, β.
  - intros X (a & b & HX) (α & β & H). left. exists (a ++ α), (β ++ b). eapply derives_trans; [exact HX|].
    pose proof (derives_ctx _ _ _ a b H) as H'. simpl in H'. rewrite <- !(assoc_L (++)) in *. simpl in H'. exact H'.
Qed.

(** ** Examples *)
Lemma ex_reported : build_table 100 ex_order ex_g = Ret (ex_tab, []) /\
  exists r, parse ex_voc ex_tab (map tk [3; 5; 1; 1]) 20 = Ret (r, [(2, 4)]) /\ rule_leaves r = map tk [3; 5; 1].
Proof. split; [exact ex_table|]. eexists. split; by vm_compute. Qed.
