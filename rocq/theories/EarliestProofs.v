(** EarliestProofs.v -- C86: the first report is at the first token that no sentence has there. *)
From Verif Require Export MismatchProofs SpecEarliest.

Lemma parse_items_nil voc toks rec α : forall c k m j k1, parse_items voc toks rec α c k m = Ret (j, k1, []) -> m = [].
Proof.
  induction α as [|[B|u] α IH]; intros c k m j k1 H; simpl in H.
  - by injection H as _ _ ->.
  - apply rbind_Ret in H as ([[r c2] m2] & _ & H). apply IH in H. by apply app_eq_nil in H as [-> _].
  - apply rbind_Ret in H as (tok & _ & H). apply IH in H. destruct (negb _); [|done]. by apply app_eq_nil in H as [-> _].
Qed.

Section agree.
  Context (P : gset production) (voc : vocabulary) (tab : table) (toks toks' : list token) (n : nat).
  Context (Hsub : forall A t p, tab !! (A, t) = Some p -> p ∈ P /\ left p = A).
  Context (Hag : forall i, i < n -> token_type <$> toks !! i = token_type <$> toks' !! i).

  Lemma parse_ast_later f c A r j mm : parse_ast voc tab toks f c A = Ret (r, j, mm) -> n <= c -> n <= j /\ Forall (fun m => n <= fst m) mm.
  Proof using Hsub.
    intros H Hc. destruct (parse_ast_repaired P voc tab toks Hsub f c A r j mm H) as (Hj & [F _] & _). split; [lia|].
    eapply Forall_impl; [exact F|]. intros m [? _]. lia.
  Qed.
  Lemma parse_items_later f α : forall c k m j k1 m1, parse_items voc toks (parse_ast voc tab toks f) α c k m = Ret (j, k1, m1) -> n <= c ->
    n <= j /\ exists mn, m1 = m ++ mn /\ Forall (fun m => n <= fst m) mn.
  Proof using Hsub.
    induction α as [|[B|u] α IH]; intros c k m j k1 m1 H Hc; simpl in H.
    - injection H as <- <- <-. split; [done|]. exists []. by rewrite app_nil_r.
    - apply rbind_Ret in H as ([[r c2] m2] & H1 & H2). destruct (parse_ast_later _ _ _ _ _ _ H1 Hc) as [L1 F1].
      destruct (IH _ _ _ _ _ _ H2 L1) as (L2 & mn & -> & F2). split; [done|]. exists (m2 ++ mn). rewrite (assoc_L (++)). split; [done|]. by apply Forall_app.
    - apply rbind_Ret in H as (tok & H1 & H2). destruct (IH _ _ _ _ _ _ H2 ltac:(lia)) as (L2 & mn & -> & F2). split; [done|].
      destruct (negb _); [|by exists mn]. exists ((c, u) :: mn). rewrite <- (assoc_L (++)). split; [done|]. by constructor.
  Qed.

  Lemma parse_ast_agree f : forall f' c A r j mm r' j',
    parse_ast voc tab toks f c A = Ret (r, j, mm) -> parse_ast voc tab toks' f' c A = Ret (r', j', []) ->
    Forall (fun m => n <= fst m) mm /\ (j = j' \/ n <= j).
  Proof using All.
    induction f as [|f IH]; intros f' c A r j mm r' j' H H'; [done|]. destruct (decide (n <= c)) as [Hc|Hc].
    { destruct (parse_ast_later _ _ _ _ _ _ H Hc) as [? ?]. auto. }
    destruct f' as [|f']; [done|]. simpl in H, H'.
    apply rbind_Ret in H as (tok & Ht & H). apply rbind_Ret in H as (p & Hp & H). apply unwrap_Ret in Ht, Hp.
    apply rbind_Ret in H as ([[c1 k1] m1] & H & E). injection E as _ <- <-.
    apply rbind_Ret in H' as (tok' & Ht' & H'). apply rbind_Ret in H' as (p' & Hp' & H'). apply unwrap_Ret in Ht', Hp'.
    apply rbind_Ret in H' as ([[c1' k1'] m1'] & H' & E). injection E as _ <- ->.
    pose proof (Hag c ltac:(lia)) as Ea. rewrite Ht, Ht' in Ea. injection Ea as Ea. rewrite <- Ea, Hp in Hp'. injection Hp' as <-.
    enough (forall α c k m k' c1' k1', parse_items voc toks (parse_ast voc tab toks f) α c k m = Ret (c1, k1, m1) ->
      parse_items voc toks' (parse_ast voc tab toks' f') α c k' [] = Ret (c1', k1', []) ->
      (exists mn, m1 = m ++ mn /\ Forall (fun m => n <= fst m) mn) /\ (c1 = c1' \/ n <= c1)) as K.
    { destruct (K _ _ _ _ _ _ _ H H') as [(mn & -> & F) ?]. done. }
    clear -IH Hag Hsub. induction α as [|[B|u] α IHα]; intros c k m k' c1' k1' H H'; simpl in H, H'.
    - injection H as <- <- <-. injection H' as <- <-. split; [|by left]. exists []. by rewrite app_nil_r.
    - apply rbind_Ret in H as ([[r c2] m2] & H1 & H2). apply rbind_Ret in H' as ([[r' c2'] m2'] & H1' & H2').
      assert (m2' = []) as -> by exact (parse_items_nil _ _ _ _ _ _ _ _ _ H2').
      destruct (IH _ _ _ _ _ _ _ _ H1 H1') as [F1 Hj]. destruct (decide (n <= c2)) as [Hc2|Hc2].
      + destruct (parse_items_later _ _ _ _ _ _ _ _ H2 Hc2) as (L2 & mn & -> & F2). split; [|by right].
        exists (m2 ++ mn). rewrite (assoc_L (++)). split; [done|]. by apply Forall_app.
      + destruct Hj as [<-|Hj]; [|lia]. destruct (IHα _ _ _ _ _ _ H2 H2') as [(mn & -> & F2) Hj]. split; [|done].
        exists (m2 ++ mn). rewrite (assoc_L (++)). split; [done|]. by apply Forall_app.
    - apply rbind_Ret in H as (tok & H1 & H2). apply rbind_Ret in H' as (tok' & H1' & H2'). apply unwrap_Ret in H1, H1'.
      destruct (decide (n <= c)) as [Hc|Hc].
      + destruct (parse_items_later _ _ _ _ _ _ _ _ H2 ltac:(lia)) as (L2 & mn & -> & F2). split; [|by right].
        destruct (negb _); [|by exists mn]. exists ((c, u) :: mn). rewrite <- (assoc_L (++)). split; [done|]. by constructor.
      + pose proof (Hag c ltac:(lia)) as Ea. rewrite H1, H1' in Ea. injection Ea as Ea. rewrite Ea in H2.
        destruct (negb _) eqn:Eb.
        * apply parse_items_nil in H2'. done.
        * exact (IHα _ _ _ _ _ _ H2 H2').
  Qed.
End agree.

Lemma c86_later g order fuel tab v toks fuel' r mm n :
  iteration_order g order -> closed (nonterminals (g_vocabulary g)) (productions g) ->
  build_table fuel order g = Ret (tab, []) -> parse v tab toks fuel' = Ret (r, mm) ->
  begins_sentence (productions g) (take n toks) -> Forall (fun m => n <= fst m) mm.
Proof.
  intros Ho Hcl Ht H (s & stop & more & Hs & Hty & E).
  assert (Hsub : forall A t p, tab !! (A, t) = Some p -> p ∈ productions g /\ left p = A).
  { intros A t p Hp. destruct (c28_table_entries _ _ _ _ _ Ho Hcl Ht) as [_ H2]. destruct (H2 _ _ _ Hp) as (? & ? & _). done. }
  destruct (c33_parse_start g order fuel tab v s stop [] Ho Hcl Ht Hs Hty) as (p & cs & _ & _ & _ & n2 & Hn). specialize (Hn n2 ltac:(lia)).
  unfold parse in H, Hn. apply rbind_Ret in H as ([[r1 j] mm1] & H & E1). injection E1 as -> ->.
  apply rbind_Ret in Hn as ([[r2 j2] mm2] & Hn & E2). injection E2 as -> ->.
  destruct (decide (n <= length toks)) as [Hl|Hl].
  - refine (proj1 (parse_ast_agree (productions g) v tab toks (s ++ [stop]) n Hsub _ _ _ _ _ _ _ _ _ _ H Hn)).
    intros i Hi. assert (types (s ++ [stop]) !! i = types (take n toks) !! i) as Ei.
    { rewrite E, lookup_app_l; [done|]. unfold types. rewrite map_length, take_length. lia. }
    unfold types in Ei. rewrite !(list_lookup_fmap (fun t => T (token_type t))) in Ei. rewrite lookup_take in Ei by done.
    destruct (toks !! i), ((s ++ [stop]) !! i); simpl in *; congruence.
  - rewrite take_ge in E by lia.
    assert (Forall (fun m => length toks <= fst m) mm) as F.
    { refine (proj1 (parse_ast_agree (productions g) v tab toks (s ++ [stop]) (length toks) Hsub _ _ _ _ _ _ _ _ _ _ H Hn)).
      intros i Hi. assert (types (s ++ [stop]) !! i = types toks !! i) as Ei.
      { rewrite E, lookup_app_l; [done|]. unfold types. by rewrite map_length. }
      unfold types in Ei. rewrite !(list_lookup_fmap (fun t => T (token_type t))) in Ei.
      destruct (toks !! i), ((s ++ [stop]) !! i); simpl in *; congruence. }
    destruct (parse_ast_repaired _ _ _ _ Hsub _ _ _ _ _ _ H) as (_ & [F2 _] & _).
    destruct mm as [|m mm]; [done|]. exfalso. apply Forall_cons in F as [F _], F2 as [[_ (tok & Hk & _)] _]. apply lookup_lt_Some in Hk. lia.
Qed.

Lemma c86_first g order fuel tab v toks fuel' r k u mm :
  iteration_order g order -> closed (nonterminals (g_vocabulary g)) (productions g) ->
  build_table fuel order g = Ret (tab, []) -> parse v tab toks fuel' = Ret (r, (k, u) :: mm) ->
  ~ begins_sentence (productions g) (take (S k) toks).
Proof.
  intros Ho Hcl Ht H Hb. pose proof (c86_later _ _ _ _ _ _ _ _ _ _ Ho Hcl Ht H Hb) as F. apply Forall_cons in F as [F _]. simpl in F. lia.
Qed.

Lemma derives_closed N P α β : closed N P -> derives P α β -> (forall b, NT b ∈ α -> b ∈ N) -> forall b, NT b ∈ β -> b ∈ N.
Proof.
  intros Hcl H. induction H as [|α β γ Hs _ IH]; intros Hα; [exact Hα|]. apply IH. clear IH. destruct Hs as [x p y Hp].
  intros b Hb. rewrite !elem_of_app in Hb. destruct Hb as [Hb|[Hb|Hb]].
  - apply Hα. apply elem_of_app. by left.
  - destruct (Hcl _ Hp) as [_ H]. by apply H.
  - apply Hα. apply elem_of_app. right. by apply elem_of_list_further.
Qed.
Lemma form_derivable (N : gset nat) P γ : (forall b, b ∈ N -> exists w, derives P [NT b] (map T w)) -> (forall b, NT b ∈ γ -> b ∈ N) -> exists w, derives P γ (map T w).
Proof.
  intros HN. induction γ as [|[b|t] γ IH]; intros H; [exists []; apply derives_refl|..].
  - destruct (HN b) as [w1 H1]; [apply H, elem_of_list_here|]. destruct IH as [w2 H2]; [intros x Hx; by apply H, elem_of_list_further|].
    exists (w1 ++ w2). rewrite map_app. exact (derives_app P [NT b] _ γ _ H1 H2).
  - destruct IH as [w2 H2]; [intros x Hx; by apply H, elem_of_list_further|]. exists (t :: w2). exact (derives_app P [T t] [T t] γ _ (derives_refl _ _) H2).
Qed.
Lemma c86_before g order fuel tab w0 v toks fuel' r k u mm :
  iteration_order g order -> closed (nonterminals (g_vocabulary g)) (productions g) -> 0 ∈ nonterminals (g_vocabulary g) ->
  (forall b, b ∈ nonterminals (g_vocabulary g) -> exists w, derives (productions g) [NT b] (map T w)) ->
  build_table fuel order g = Ret (tab, w0) -> parse v tab toks fuel' = Ret (r, (k, u) :: mm) ->
  exists w, derives (productions g) [NT 0] (types (take k toks) ++ T u :: map T w).
Proof.
  intros Ho Hcl H0 HN Ht H. destruct (c67_first _ _ _ _ _ _ _ _ _ _ _ _ Ho Hcl Ht H) as (tok & γ & _ & _ & Hd).
  destruct (form_derivable _ _ γ HN) as [w Hw].
  { intros b Hb. apply (derives_closed _ _ _ _ Hcl Hd).
    - intros b' Hb'. apply elem_of_list_singleton in Hb'. by injection Hb' as ->.
    - apply elem_of_app. right. by apply elem_of_list_further. }
  exists w. eapply derives_trans; [exact Hd|].
  apply (derives_app _ (types (take k toks)) (types (take k toks)) (T u :: γ)); [apply derives_refl|].
  apply (derives_app _ [T u] [T u] γ); [apply derives_refl|done].
Qed.
