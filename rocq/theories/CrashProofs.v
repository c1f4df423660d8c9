(** CrashProofs.v -- C87: the first sign of trouble is at the first token that no sentence has there, whether the run returns or panics. *)
From Verif Require Export SpecCrash EarliestProofs.

Section same.
  Context (voc : vocabulary) (toks : list token).
  Lemma log_items_same rec lrec α : (forall c A, rec c A = let! (a, m) := forget_log (lrec c A) in Ret (a, m)) ->
    forall c k m, parse_items voc toks rec α c k m = let! (a, m') := forget_log (log_items voc toks lrec α c k) in Ret (a, m ++ m').
  Proof using.
    intros Hrec. induction α as [|[B|u] α IH]; intros c k m; simpl.
    - by rewrite app_nil_r.
    - rewrite Hrec. destruct (lrec c B) as [l [[r c2]|e]]; cbn; [|by destruct e].
      rewrite IH. destruct (log_items _ _ _ _ _ _) as [l' [[c3 k3]|e]]; cbn; [|by destruct e]. by rewrite (assoc_L (++)).
    - destruct (toks !! c) as [tok|]; cbn; [|done]. rewrite IH.
      destruct (log_items _ _ _ _ _ _) as [l' [[c3 k3]|e]]; cbn; [|by destruct e].
      destruct (negb _); [|done]. by rewrite <- (assoc_L (++)).
  Qed.
  Lemma log_ast_same tab f : forall c A, parse_ast voc tab toks f c A = let! (a, m) := forget_log (log_ast voc tab toks f c A) in Ret (a, m).
  Proof using.
    induction f as [|f IH]; intros c A; [done|]. simpl.
    destruct (toks !! c) as [tok|]; cbn; [|done]. destruct (tab !! _) as [p|]; cbn; [|done].
    rewrite (log_items_same _ _ _ IH). destruct (log_items _ _ _ _ _ _) as [l' [[c3 k3]|e]]; cbn; [|by destruct e]. by rewrite app_nil_r.
  Qed.
End same.

Lemma c87_same voc tab toks fuel : parse voc tab toks fuel = forget_log (log_parse voc tab toks fuel).
Proof.
  unfold parse, log_parse. rewrite log_ast_same. destruct (log_ast _ _ _ _ _ _) as [l [[r c]|e]]; cbn; [|by destruct e]. by rewrite app_nil_r.
Qed.

(** ** Cursors only grow. *)
Definition from_cursor {A} (n : nat) (cur : A -> nat) (o : logged A) : Prop :=
  Forall (fun m => n <= fst m) (fst o) /\ match snd o with inl a => n <= cur a | inr e => forall k, halt_cursor e = Some k -> n <= k end.
Lemma log_items_from n voc toks rec α : (forall c A, n <= c -> from_cursor n snd (rec c A)) ->
  forall c k, n <= c -> from_cursor n fst (log_items voc toks rec α c k).
Proof.
  intros Hrec. induction α as [|[B|u] α IH]; intros c k Hc; simpl.
  - split; [constructor|done].
  - specialize (Hrec c B Hc). destruct (rec c B) as [l [[r c2]|e]]; destruct Hrec as [F H]; simpl in *; [|done].
    match goal with |- context [log_items voc toks rec α c2 ?k'] => specialize (IH c2 k' H); destruct (log_items _ _ _ _ _ _) as [l' x] end.
    destruct IH as [F' H']. split; [|done]. simpl. by apply Forall_app.
  - destruct (toks !! c) as [tok|]; cbn; [|split; [constructor|]; intros ? [= <-]; done].
    match goal with |- context [log_items voc toks rec α (c + 1) ?k'] => specialize (IH (c + 1) k' ltac:(lia)); destruct (log_items _ _ _ _ _ _) as [l' x] end.
    destruct IH as [F' H']. destruct (negb _); (split; [|done]); simpl in *; [by constructor|done].
Qed.
Lemma log_ast_from n voc tab toks f : forall c A, n <= c -> from_cursor n snd (log_ast voc tab toks f c A).
Proof.
  induction f as [|f IH]; intros c A Hc; [split; [constructor|done]|]. simpl.
  destruct (toks !! c) as [tok|]; cbn; [|split; [constructor|]; intros ? [= <-]; done].
  destruct (tab !! _) as [p|]; cbn; [|split; [constructor|]; intros ? [= <-]; done].
  pose proof (log_items_from n voc toks _ (right p) IH c [] Hc) as [F H]. destruct (log_items _ _ _ _ _ _) as [l [[c1 k1]|e]]; [|done].
  split; [|done]. simpl in *. by rewrite app_nil_r.
Qed.

(** ** The same tokens, the same run. *)
Section agree_log.
  Context (voc : vocabulary) (tab : table) (toks toks' : list token) (n : nat).
  Context (Hag : forall i, i < n -> token_type <$> toks !! i = token_type <$> toks' !! i).

  Definition agrees {A} (cur : A -> nat) (j' : nat) (o : logged A) : Prop :=
    Forall (fun m => n <= fst m) (fst o) /\
    match snd o with inl a => cur a = j' \/ n <= cur a | inr e => forall k, halt_cursor e = Some k -> n <= k end.
  Lemma from_agrees {A} (cur : A -> nat) j' o : from_cursor n cur o -> agrees cur j' o.
  Proof using. intros [F H]. split; [done|]. destruct (snd o); [by right|done]. Qed.

  Lemma log_ast_agree f : forall f' c A r' j', parse_ast voc tab toks' f' c A = Ret (r', j', []) -> agrees snd j' (log_ast voc tab toks f c A).
  Proof using Hag.
    induction f as [|f IH]; intros f' c A r' j' H'; [split; [constructor|done]|]. destruct (decide (n <= c)) as [Hc|Hc].
    { by apply from_agrees, log_ast_from. }
    destruct f' as [|f']; [done|]. simpl in H'.
    apply rbind_Ret in H' as (tok' & Ht' & H'). apply rbind_Ret in H' as (p' & Hp' & H'). apply unwrap_Ret in Ht', Hp'.
    apply rbind_Ret in H' as ([[c1' k1'] m1'] & H' & E). injection E as _ <- ->.
    pose proof (Hag c ltac:(lia)) as Ea. rewrite Ht' in Ea. simpl. destruct (toks !! c) as [tok|]; [|done]. injection Ea as Ea. cbn.
    rewrite Ea, Hp'. cbn.
    enough (forall α c k k' c1' k1', parse_items voc toks' (parse_ast voc tab toks' f') α c k' [] = Ret (c1', k1', []) ->
      agrees fst c1' (log_items voc toks (log_ast voc tab toks f) α c k)) as K.
    { specialize (K _ _ [] _ _ _ H'). destruct (log_items _ _ _ _ _ _) as [l [[c1 k1]|e]]; [|done].
      destruct K as [F K]. split; [|done]. simpl in *. by rewrite app_nil_r. }
    clear -IH Hag. induction α as [|[B|u] α IHα]; intros c k k' c1' k1' H'; simpl in H'.
    - injection H' as <- <-. split; [constructor|]. by left.
    - apply rbind_Ret in H' as ([[r' c2'] m2'] & H1' & H2').
      assert (m2' = []) as -> by exact (parse_items_nil _ _ _ _ _ _ _ _ _ H2').
      specialize (IH _ _ _ _ _ H1'). simpl. destruct (log_ast _ _ _ _ _ _) as [l [[r c2]|e]]; destruct IH as [F Hj]; simpl in *; [|done].
      match goal with |- context [log_items voc toks _ α c2 ?k'] => set (k2 := k') end.
      assert (agrees fst c1' (log_items voc toks (log_ast voc tab toks f) α c2 k2)) as [F2 H2].
      { destruct Hj as [->|Hj]; [by eapply IHα|]. apply from_agrees, log_items_from; [|done]. intros. by apply log_ast_from. }
      destruct (log_items _ _ _ _ _ _) as [l' x]. split; [|done]. simpl. by apply Forall_app.
    - apply rbind_Ret in H' as (tok' & H1' & H2'). apply unwrap_Ret in H1'. simpl.
      destruct (decide (n <= c)) as [Hc|Hc].
      { exact (from_agrees _ _ _ (log_items_from n voc toks _ (T u :: α) (log_ast_from n voc tab toks f) c k Hc)). }
      pose proof (Hag c ltac:(lia)) as Ea. rewrite H1' in Ea. destruct (toks !! c) as [tok|]; [|done]. injection Ea as Ea. cbn.
      rewrite Ea. destruct (negb _) eqn:Eb.
      + apply parse_items_nil in H2'. done.
      + cbn. specialize (IHα (c + 1) (k ++ [Terminal tok]) _ _ _ H2').
        destruct (log_items _ _ _ _ _ _) as [l' x]. exact IHα.
  Qed.
End agree_log.

Lemma c87_no_early g order fuel tab v toks fuel' n :
  iteration_order g order -> closed (nonterminals (g_vocabulary g)) (productions g) -> build_table fuel order g = Ret (tab, []) ->
  begins_sentence (productions g) (take n toks) -> n <= length toks ->
  let '(mm, x) := log_parse v tab toks fuel' in
  Forall (fun m => n <= fst m) mm /\ (forall e k, x = inr e -> halt_cursor e = Some k -> n <= k).
Proof.
  intros Ho Hcl Ht (s & stop & more & Hs & Hty & E) Hl.
  destruct (c33_parse_start g order fuel tab v s stop [] Ho Hcl Ht Hs Hty) as (p & cs & _ & _ & _ & n2 & Hn). specialize (Hn n2 ltac:(lia)).
  unfold parse in Hn. apply rbind_Ret in Hn as ([[r2 j2] mm2] & Hn & E2). injection E2 as -> ->.
  unfold log_parse.
  assert (agrees n snd j2 (log_ast v tab toks fuel' 0 0)) as [F H].
  { refine (log_ast_agree v tab toks (s ++ [stop]) n _ _ _ _ _ _ _ Hn).
    intros i Hi. assert (types (s ++ [stop]) !! i = types (take n toks) !! i) as Ei.
    { rewrite E, lookup_app_l; [done|]. unfold types. rewrite map_length, take_length. lia. }
    unfold types in Ei. rewrite !(list_lookup_fmap (fun t => T (token_type t))) in Ei. rewrite lookup_take in Ei by done.
    destruct (toks !! i), ((s ++ [stop]) !! i); simpl in *; congruence. }
  destruct (log_ast _ _ _ _ _ _) as [l [[r c]|e]]; simpl in *.
  - split; [by rewrite app_nil_r|]. done.
  - split; [done|]. intros e' k [= <-]. apply H.
Qed.

Lemma c87_first g order fuel tab v toks fuel' k :
  iteration_order g order -> closed (nonterminals (g_vocabulary g)) (productions g) -> build_table fuel order g = Ret (tab, []) ->
  first_trouble (log_parse v tab toks fuel') = Some k -> k < length toks -> ~ begins_sentence (productions g) (take (S k) toks).
Proof.
  intros Ho Hcl Ht Hk Hl Hb. pose proof (c87_no_early _ _ _ _ v toks fuel' _ Ho Hcl Ht Hb ltac:(lia)) as K.
  destruct (log_parse _ _ _ _) as [[|[k' u] mm] x]; destruct K as [F K].
  - destruct x as [r|e]; [done|]. simpl in Hk. specialize (K _ _ eq_refl Hk). lia.
  - injection Hk as ->. apply Forall_cons in F as [F _]. simpl in F. lia.
Qed.

(** ** What is read before the first trouble begins a derivation. *)
Section viable.
  Context (P : gset production) (voc : vocabulary) (tab : table) (toks : list token).
  Context (Hsub : forall A t p, tab !! (A, t) = Some p -> p ∈ P /\ left p = A).

  Definition viable {A} (cur : A -> nat) (c : nat) (α : list item) (o : logged A) : Prop :=
    (forall a, o = ([], inl a) -> c <= cur a <= length toks /\ derives P α (types (segment toks c (cur a)))) /\
    (forall k, first_trouble o = Some k -> c <= k <= length toks /\ exists γ, derives P α (types (segment toks c k) ++ γ) /\
       forall x, expected_next o = Some x -> head γ = Some x).

  Lemma log_ast_viable f : forall c A, c <= length toks -> viable snd c [NT A] (log_ast voc tab toks f c A).
  Proof using Hsub.
    induction f as [|f IH]; intros c A Hc; [by split|]. simpl.
    destruct (toks !! c) as [tok|] eqn:Et; cbn.
    2:{ split; [done|]. intros k [= <-]. split; [done|]. exists [NT A]. rewrite segment_refl. split; [apply derives_refl|done]. }
    destruct (tab !! _) as [p|] eqn:Ep; cbn.
    2:{ split; [done|]. intros k [= <-]. split; [done|]. exists [NT A]. rewrite segment_refl. split; [apply derives_refl|]. by intros x [= <-]. }
    destruct (Hsub _ _ _ Ep) as [HpP <-].
    enough (forall α c k, c <= length toks -> viable fst c α (log_items voc toks (log_ast voc tab toks f) α c k)) as K.
    { specialize (K (right p) c [] Hc). destruct (log_items _ _ _ _ _ _) as [l [[c1 k1]|e]]; destruct K as [K1 K2]; unfold lret; cbn [lbind].
      - rewrite app_nil_r. split.
        + intros [r j] [= -> _ <-]. destruct (K1 _ eq_refl) as [? Hd]. split; [done|].
          eapply derives_trans; [by apply derives_prod|done].
        + intros k Hk. destruct l as [|[k' u] l]; [done|]. destruct (K2 _ Hk) as (? & γ & Hd & Hx). split; [done|].
          exists γ. split; [|done]. eapply derives_trans; [by apply derives_prod|done].
      - split; [done|]. intros k Hk. assert (first_trouble (A := nat * list ast) (l, inr e) = Some k) as Hk' by done.
        destruct (K2 _ Hk') as (? & γ & Hd & Hx). split; [done|]. exists γ. split; [|exact Hx]. eapply derives_trans; [by apply derives_prod|done]. }
    clear -IH. induction α as [|[B|u] α IHα]; intros c k Hc; simpl.
    - split; [|done]. intros a [= <-]. simpl. rewrite segment_refl. split; [done|apply derives_refl].
    - specialize (IH c B Hc). destruct (log_ast _ _ _ _ _ _) as [[|[k1 u] l] [[r c2]|e]]; destruct IH as [H1 H2]; cbn [lbind].
      + destruct (H1 _ eq_refl) as [Hc2 Hd]. simpl in Hc2, Hd.
        match goal with |- context [log_items voc toks _ α c2 ?k'] => specialize (IHα c2 k' ltac:(lia)); destruct (log_items _ _ _ _ _ _) as [l' x] end.
        destruct IHα as [K1 K2]. split.
        * intros a [= -> ->]. destruct (K1 _ eq_refl) as [? Hd2]. split; [lia|]. rewrite <- (segment_app _ _ c2) by lia. unfold types in *. rewrite map_app.
          exact (derives_app P [NT B] _ α _ Hd Hd2).
        * intros k' Hk'. destruct (K2 _ Hk') as (? & γ & Hd2 & Hx). split; [lia|]. exists γ. split; [|done].
          rewrite <- (segment_app _ _ c2) by lia. unfold types in *. rewrite map_app, <- (assoc_L (++)). exact (derives_app P [NT B] _ α _ Hd Hd2).
      + split; [done|]. intros k' Hk'. destruct (H2 _ Hk') as (? & γ & Hd & Hx). split; [done|]. exists (γ ++ α). split.
        * rewrite (assoc_L (++)). exact (derives_app P [NT B] _ α α Hd (derives_refl _ _)).
        * intros x Hx'. specialize (Hx x Hx'). by destruct γ.
      + destruct (log_items _ _ _ _ _ _) as [l' x]. split; [done|].
        intros k' Hk'. destruct (H2 _ Hk') as (? & γ & Hd & Hx). split; [done|]. exists (γ ++ α). split.
        * rewrite (assoc_L (++)). exact (derives_app P [NT B] _ α α Hd (derives_refl _ _)).
        * intros y Hy. specialize (Hx y Hy). by destruct γ.
      + split; [done|]. intros k' Hk'. destruct (H2 _ Hk') as (? & γ & Hd & Hx). split; [done|]. exists (γ ++ α). split.
        * rewrite (assoc_L (++)). exact (derives_app P [NT B] _ α α Hd (derives_refl _ _)).
        * intros x Hx'. specialize (Hx x Hx'). by destruct γ.
    - destruct (toks !! c) as [tok|] eqn:Et; cbn.
      2:{ split; [done|]. intros k' [= <-]. split; [done|]. exists (T u :: α). rewrite segment_refl. split; [apply derives_refl|done]. }
      specialize (IHα (c + 1) (k ++ [Terminal tok]) ltac:(apply lookup_lt_Some in Et; lia)).
      destruct (log_items _ _ _ _ _ _) as [l' x]. destruct (Nat.eqb_spec u (token_type tok)) as [->|Hne]; cbn.
      + destruct IHα as [K1 K2]. split.
        * intros a [= -> ->]. destruct (K1 _ eq_refl) as [? Hd2]. split; [lia|]. rewrite <- (segment_app _ _ (c + 1)) by lia. rewrite (segment_S _ _ _ Et).
          unfold types in *. rewrite map_app. exact (derives_app P [T (token_type tok)] _ α _ (derives_refl _ _) Hd2).
        * intros k' Hk'. destruct (K2 _ Hk') as (? & γ & Hd2 & Hx). split; [lia|]. exists γ. split; [|done].
          rewrite <- (segment_app _ _ (c + 1)) by lia. rewrite (segment_S _ _ _ Et). unfold types in *. rewrite map_app, <- (assoc_L (++)).
          exact (derives_app P [T (token_type tok)] _ α _ (derives_refl _ _) Hd2).
      + split; [done|]. intros k' [= <-]. split; [done|]. exists (T u :: α). rewrite segment_refl. split; [apply derives_refl|]. by intros y [= <-].
  Qed.
End viable.

Lemma c87_before g order fuel tab w0 v toks fuel' k :
  iteration_order g order -> closed (nonterminals (g_vocabulary g)) (productions g) -> build_table fuel order g = Ret (tab, w0) ->
  first_trouble (log_parse v tab toks fuel') = Some k ->
  k <= length toks /\ exists γ, derives (productions g) [NT 0] (types (take k toks) ++ γ) /\
    forall x, expected_next (log_parse v tab toks fuel') = Some x -> head γ = Some x.
Proof.
  intros Ho Hcl Ht Hk.
  assert (Hsub : forall A t p, tab !! (A, t) = Some p -> p ∈ productions g /\ left p = A).
  { intros A t p Hp. destruct (c28_table_entries _ _ _ _ _ Ho Hcl Ht) as [_ H2]. destruct (H2 _ _ _ Hp) as (? & ? & _). done. }
  destruct (log_ast_viable (productions g) v tab toks Hsub fuel' 0 0 ltac:(lia)) as [_ K]. unfold log_parse in *.
  destruct (log_ast _ _ _ _ _ _) as [l [[r c]|e]]; cbn in *; rewrite ?app_nil_r in *.
  - destruct l as [|[k' u] l]; [done|]. destruct (K _ Hk) as (? & γ & Hd & Hx). split; [lia|]. exists γ.
    unfold segment in Hd. rewrite Nat.sub_0_r, drop_0 in Hd. done.
  - destruct (K _ Hk) as (? & γ & Hd & Hx). split; [lia|]. exists γ. unfold segment in Hd. rewrite Nat.sub_0_r, drop_0 in Hd. done.
Qed.

Lemma c87_exact g order fuel tab v toks fuel' k :
  iteration_order g order -> closed (nonterminals (g_vocabulary g)) (productions g) -> 0 ∈ nonterminals (g_vocabulary g) ->
  (forall b, b ∈ nonterminals (g_vocabulary g) -> exists w, derives (productions g) [NT b] (map T w)) ->
  build_table fuel order g = Ret (tab, []) -> first_trouble (log_parse v tab toks fuel') = Some k ->
  k <= length toks /\ begins_sentence (productions g) (take k toks) /\ (k < length toks -> ~ begins_sentence (productions g) (take (S k) toks)).
Proof.
  intros Ho Hcl H0 HN Ht Hk. destruct (c87_before _ _ _ _ _ v toks fuel' k Ho Hcl Ht Hk) as (Hl & γ & Hd & _).
  split; [done|]. split; [|intros Hl'; exact (c87_first _ _ _ _ _ _ _ _ Ho Hcl Ht Hk Hl')].
  destruct (form_derivable _ _ γ HN) as [w Hw].
  { intros b Hb. apply (derives_closed _ _ _ _ Hcl Hd).
    - intros b' Hb'. apply elem_of_list_singleton in Hb'. by injection Hb' as ->.
    - apply elem_of_app. by right. }
  exists (take k toks ++ map (fun i => token_new i [] []) w), (token_new 1 [] []), (map T w ++ [T 1]).
  assert (types (map (fun i => token_new i [] []) w) = map T w) as Ew by (unfold types; by rewrite map_map).
  unfold sentence. unfold types in *. rewrite !map_app, Ew. split; [|split; [done|]].
  - eapply derives_trans; [exact Hd|]. apply (derives_app _ (map _ (take k toks)) (map _ (take k toks)) γ); [apply derives_refl|done].
  - by rewrite <- (assoc_L (++)).
Qed.

(** ** Fuel *)
Lemma log_items_mono voc toks rec rec' α : (forall c A, snd (rec c A) <> inr NoFuel -> rec' c A = rec c A) ->
  forall c k, snd (log_items voc toks rec α c k) <> inr NoFuel -> log_items voc toks rec' α c k = log_items voc toks rec α c k.
Proof.
  intros Hrec. induction α as [|[B|u] α IH]; intros c k H; simpl in *; [done|..].
  - specialize (Hrec c B). destruct (rec c B) as [l [[r c2]|e]]; cbn in *.
    + rewrite Hrec by done. cbn. destruct (log_items voc toks rec α c2 _) as [l' x] eqn:E. rewrite IH, E; [done|]. by rewrite E.
    + rewrite Hrec; [done|]. intros [= ->]. by apply H.
  - destruct (toks !! c) as [tok|]; cbn in *; [|done]. destruct (log_items voc toks rec α (c + 1) _) as [l' x] eqn:E. rewrite IH, E; [done|]. by rewrite E.
Qed.
Lemma log_ast_mono voc tab toks f : forall f' c A, f <= f' -> snd (log_ast voc tab toks f c A) <> inr NoFuel ->
  log_ast voc tab toks f' c A = log_ast voc tab toks f c A.
Proof.
  induction f as [|f IH]; intros f' c A Hf H; [done|]. destruct f' as [|f']; [lia|]. simpl in *.
  destruct (toks !! c) as [tok|]; cbn in *; [|done]. destruct (tab !! _) as [p|]; cbn in *; [|done].
  destruct (log_items voc toks (log_ast voc tab toks f) (right p) c []) as [l x] eqn:E.
  rewrite (log_items_mono voc toks (log_ast voc tab toks f)), E; [done|..].
  - intros c' A'. apply IH. lia.
  - rewrite E. destruct x as [[c1 k1]|e]; [done|]. intros [= ->]. by apply H.
Qed.
Lemma log_parse_mono voc tab toks f f' : f <= f' -> snd (log_parse voc tab toks f) <> inr NoFuel -> log_parse voc tab toks f' = log_parse voc tab toks f.
Proof.
  intros Hf H. unfold log_parse in *. rewrite (log_ast_mono voc tab toks f f'); [done|done|].
  destruct (log_ast _ _ _ _ _ _) as [l [[r c]|e]]; [done|]. simpl in *. congruence.
Qed.
Lemma c87_terminates g order fuel tab v toks :
  iteration_order g order -> closed (nonterminals (g_vocabulary g)) (productions g) -> build_table fuel order g = Ret (tab, []) ->
  exists n out, snd out <> inr NoFuel /\ forall fuel', n <= fuel' -> log_parse v tab toks fuel' = out.
Proof.
  intros Ho Hcl Ht. destruct (c34_parse_terminates g order fuel tab v toks 0 0 Ho Hcl Ht) as [n Hn]. exists n, (log_parse v tab toks n).
  assert (snd (log_parse v tab toks n) <> inr NoFuel) as Hs.
  { destruct (Hn n (le_n _)) as [H _]. rewrite log_ast_same in H. unfold log_parse. destruct (log_ast _ _ _ _ _ _) as [l [[r c]|e]]; [done|].
    simpl. intros [= ->]. by apply H. }
  split; [done|]. intros fuel' Hf. by apply log_parse_mono.
Qed.

Lemma c87_quiet g order fuel tab w v toks fuel' :
  iteration_order g order -> closed (nonterminals (g_vocabulary g)) (productions g) -> build_table fuel order g = Ret (tab, w) ->
  first_trouble (log_parse v tab toks fuel') = None -> snd (log_parse v tab toks fuel') <> inr NoFuel ->
  exists r s rest, log_parse v tab toks fuel' = ([], inl r) /\ toks = s ++ rest /\ sentence (productions g) 0 s /\ rule_leaves r = s.
Proof.
  intros Ho Hcl Ht H1 H2. pose proof (c87_same v tab toks fuel') as E.
  destruct (log_parse _ _ _ _) as [[|[k u] mm] [r|e]]; [|by destruct e|done..].
  destruct (c36_prefix_sentence _ _ _ _ _ _ _ _ _ Ho Hcl Ht E) as (s & rest & ? & ? & ?). by exists r, s, rest.
Qed.
