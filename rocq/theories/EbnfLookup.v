(** EbnfLookup.v -- the items that constructs are translated to, read off the caches of the production pass. *)
From Verif Require Export SpecSource EbnfMain.

Definition suffix_cache (s : production_state) (k : SpecEbnf.suffix) : gmap nat nat :=
  match k with Star => star_cache s | Plus => plus_cache s | Question => question_cache s end.
Inductive key := KSuffix (k : SpecEbnf.suffix) (id : nat) | KBlock (rs : list (list item)).
Definition cached (s : production_state) (k : key) : option nat :=
  match k with KSuffix k id => suffix_cache s k !! id | KBlock rs => block_cache s !! rs end.
Definition keeps (s s' : production_state) : Prop := forall k n, cached s k = Some n -> cached s' k = Some n.

Section lookup.
  Context (v0 : vocabulary).
  Inductive lk_elem (s : production_state) : element -> item -> Prop :=
  | lk_plain a it : lk_atom s a it -> lk_elem s (Element a None) it
  | lk_suffix a it k b n : lk_atom s a it -> cached s (KSuffix k (item_id it)) = Some n -> lk_elem s (Element a (Some (k, b))) (NT n)
  with lk_atom (s : production_state) : atom -> item -> Prop :=
  | lk_token n t : t_name_to_id v0 !! n = Some t -> lk_atom s (TokenRef n) (T t)
  | lk_rule n i : nt_name_to_id v0 !! n = Some i -> lk_atom s (RuleRef n) (NT i)
  | lk_group alts n rs : lk_alts s alts rs -> cached s (KBlock rs) = Some n -> lk_atom s (Group alts) (NT n)
  with lk_alts (s : production_state) : list alternative -> list (list item) -> Prop :=
  | lk_alts_nil : lk_alts s [] []
  | lk_alts_cons a r alts rs : lk_alt s a r -> lk_alts s alts rs -> lk_alts s (a :: alts) (r :: rs)
  with lk_alt (s : production_state) : alternative -> list item -> Prop :=
  | lk_epsilon : lk_alt s Epsilon []
  | lk_sequence es its : lk_elems s es its -> lk_alt s (Sequence es) its
  with lk_elems (s : production_state) : list element -> list item -> Prop :=
  | lk_nil : lk_elems s [] []
  | lk_cons e it es its : lk_elem s e it -> lk_elems s es its -> lk_elems s (e :: es) (it :: its).
End lookup.
Scheme lk_elem_mut := Minimality for lk_elem Sort Prop
with lk_atom_mut := Minimality for lk_atom Sort Prop
with lk_alts_mut := Minimality for lk_alts Sort Prop
with lk_alt_mut := Minimality for lk_alt Sort Prop
with lk_elems_mut := Minimality for lk_elems Sort Prop.
Combined Scheme lk_mut from lk_elem_mut, lk_atom_mut, lk_alts_mut, lk_alt_mut, lk_elems_mut.

Section simulation.
  Context (v0 : vocabulary) (R : nat) (G : list rule).
  Context (HR : forall i, i ∈ nonterminals v0 -> i < R) (Hv0 : vinv v0).
  Context (Hlit : forall l s, occurs (Element (StringLiteral l) s) G -> t_name_to_id v0 !! l = None).
  Notation inv := (prod_inv R v0).
  Notation lk_elem := (lk_elem v0).
  Notation lk_atom := (lk_atom v0).
  Notation lk_alts := (lk_alts v0).
  Notation lk_alt := (lk_alt v0).
  Notation lk_elems := (lk_elems v0).

  Lemma keeps_refl s : keeps s s.
  Proof using. by intros k n. Qed.
  Lemma keeps_trans s1 s2 s3 : keeps s1 s2 -> keeps s2 s3 -> keeps s1 s3.
  Proof using. intros A B k n H. by apply B, A. Qed.
  Lemma lk_mono s s' : keeps s s' ->
    (forall e it, lk_elem s e it -> lk_elem s' e it) /\
    (forall a it, lk_atom s a it -> lk_atom s' a it) /\
    (forall a it, lk_alts s a it -> lk_alts s' a it) /\
    (forall a it, lk_alt s a it -> lk_alt s' a it) /\
    (forall e it, lk_elems s e it -> lk_elems s' e it).
  Proof using.
    intros Hk. pose proof (lk_mut v0 s (lk_elem s') (lk_atom s') (lk_alts s') (lk_alt s') (lk_elems s')) as K.
    apply K; clear K; intros; try (by econstructor); econstructor; eauto.
  Qed.

  (** The same construct, up to lazy marks, always gets the same item. *)
  Lemma lk_functional s :
    (forall e it, lk_elem s e it -> forall e' it', plain_element e = plain_element e' -> lk_elem s e' it' -> it = it') /\
    (forall a it, lk_atom s a it -> forall a' it', plain_atom a = plain_atom a' -> lk_atom s a' it' -> it = it') /\
    (forall a it, lk_alts s a it -> forall a' it', map plain_alternative a = map plain_alternative a' -> lk_alts s a' it' -> it = it') /\
    (forall a it, lk_alt s a it -> forall a' it', plain_alternative a = plain_alternative a' -> lk_alt s a' it' -> it = it') /\
    (forall e it, lk_elems s e it -> forall e' it', map plain_element e = map plain_element e' -> lk_elems s e' it' -> it = it').
  Proof using.
    pose proof (lk_mut v0 s
      (fun e it => forall e' it', plain_element e = plain_element e' -> lk_elem s e' it' -> it = it')
      (fun a it => forall a' it', plain_atom a = plain_atom a' -> lk_atom s a' it' -> it = it')
      (fun a it => forall a' it', map plain_alternative a = map plain_alternative a' -> lk_alts s a' it' -> it = it')
      (fun a it => forall a' it', plain_alternative a = plain_alternative a' -> lk_alt s a' it' -> it = it')
      (fun e it => forall e' it', map plain_element e = map plain_element e' -> lk_elems s e' it' -> it = it')) as K.
    apply K; clear K.
    - intros a it _ IH e' it' E H. destruct H as [a' it' H|a' it' k b n H Hc]; cbn [plain_element] in E; [|done].
      injection E as E. by eapply IH.
    - intros a it k b n _ IH Hc e' it' E H. destruct H as [a' it' H|a' it' k' b' n' H Hc']; cbn [plain_element] in E; [done|].
      injection E as E <-. rewrite (IH _ _ E H) in Hc. congruence.
    - intros n t Hn a' it' E H. destruct H as [n' t' H|n' i' H|alts' n' rs' H Hc]; cbn [plain_atom] in E; [|done|done]. injection E as <-. congruence.
    - intros n t Hn a' it' E H. destruct H as [n' t' H|n' i' H|alts' n' rs' H Hc]; cbn [plain_atom] in E; [done| |done]. injection E as <-. congruence.
    - intros alts n rs _ IH Hc a' it' E H. destruct H as [n' t' H|n' i' H|alts' n' rs' H Hc']; cbn [plain_atom] in E; [done|done|].
      injection E as E. rewrite (IH _ _ E H) in Hc. congruence.
    - intros a' it' E H. destruct H; [done|]. discriminate E.
    - intros a r alts rs _ IH1 _ IH2 a' it' E H. destruct H as [|a' r' alts' rs' H1 H2]; [discriminate E|]. injection E as E1 E2.
      by rewrite (IH1 _ _ E1 H1), (IH2 _ _ E2 H2).
    - intros a' it' E H. destruct H as [|es its H]; [done|]. destruct H; [done|]. discriminate E.
    - intros es its _ IH a' it' E H. destruct H as [|es' its' H]; cbn [plain_alternative] in E; injection E as E.
      + by apply (IH []); [|constructor].
      + by eapply IH.
    - intros a' it' E H. destruct H; [done|]. discriminate E.
    - intros e it es its _ IH1 _ IH2 a' it' E H. destruct H as [|e' it1 es' its' H1 H2]; [discriminate E|]. injection E as E1 E2.
      by rewrite (IH1 _ _ E1 H1), (IH2 _ _ E2 H2).
  Qed.

  (** What is in the caches. *)
  Record wf (s : production_state) : Prop := {
    wf_range : forall k n, cached s k = Some n -> R <= n < ps_next_rule_id s;
    wf_inj : forall k k' n, cached s k = Some n -> cached s k' = Some n -> k = k';
    wf_cover : forall n, R <= n < ps_next_rule_id s -> exists k, cached s k = Some n;
    wf_suffix : forall k id n, cached s (KSuffix k id) = Some n -> exists a b it,
      occurs (Element a (Some (k, b))) G /\ lk_atom s a it /\ item_id it = id;
    wf_block : forall rs n, cached s (KBlock rs) = Some n -> exists alts sx,
      occurs (Element (Group alts) sx) G /\ lk_alts s alts rs;
  }.
  Lemma make_wf s s' k0 : wf s -> R <= ps_next_rule_id s -> ps_next_rule_id s' = S (ps_next_rule_id s) -> cached s k0 = None ->
    (forall k n, cached s' k = Some n <-> (k = k0 /\ n = ps_next_rule_id s) \/ cached s k = Some n) ->
    match k0 with
    | KSuffix k id => exists a b it, occurs (Element a (Some (k, b))) G /\ lk_atom s a it /\ item_id it = id
    | KBlock rs => exists alts sx, occurs (Element (Group alts) sx) G /\ lk_alts s alts rs
    end -> wf s' /\ keeps s s'.
  Proof using.
    intros Hw HRn Hn H0 Hc Hp. assert (keeps s s') as Hk by (intros k n H; apply Hc; by right).
    pose proof (lk_mono s s' Hk) as (_ & M2 & M3 & _). split; [|done]. split.
    - intros k n [[-> ->]|H]%Hc; [lia|]. apply (wf_range _ Hw) in H. lia.
    - intros k k' n [[-> ->]|H]%Hc [[-> E]|H']%Hc; [done| | |by eapply (wf_inj _ Hw)].
      + apply (wf_range _ Hw) in H'. lia.
      + subst. apply (wf_range _ Hw) in H. lia.
    - intros n Hlt. destruct (decide (n = ps_next_rule_id s)) as [->|]; [exists k0; apply Hc; by left|].
      destruct (wf_cover _ Hw n) as [k H]; [lia|]. exists k. apply Hc. by right.
    - intros k id n [[<- ->]|H]%Hc.
      + destruct Hp as (a & b & it & ? & ? & ?). exists a, b, it. auto.
      + destruct (wf_suffix _ Hw _ _ _ H) as (a & b & it & ? & ? & ?). exists a, b, it. auto.
    - intros rs n [[<- ->]|H]%Hc.
      + destruct Hp as (alts & sx & ? & ?). exists alts, sx. auto.
      + destruct (wf_block _ Hw _ _ H) as (alts & sx & ? & ?). exists alts, sx. auto.
  Qed.

  Lemma suffix_lk s k a b it it' s' : inv s -> wf s -> occurs (Element a (Some (k, b))) G -> lk_atom s a it ->
    match k with Star => apply_star | Plus => apply_plus | Question => apply_question end (item_id it) it s = (it', s') ->
    wf s' /\ keeps s s' /\ lk_elem s' (Element a (Some (k, b))) it'.
  Proof using.
    intros Hi Hw Ho Ha H. pose proof (pi_next _ _ _ Hi) as HN.
    destruct (cached s (KSuffix k (item_id it))) as [n|] eqn:E.
    - assert (it' = NT n /\ s' = s) as [-> ->].
      { destruct k; cbn [cached suffix_cache] in E; unfold apply_star, apply_plus, apply_question in H; rewrite E in H; by injection H as <- <-. }
      split_and!; [done|apply keeps_refl|]. by econstructor.
    - assert (wf s' /\ keeps s s') as [Hw' Hk].
      { apply (make_wf s s' (KSuffix k (item_id it))); try done.
        - destruct k; cbn [cached suffix_cache] in E; unfold apply_star, apply_plus, apply_question in H; rewrite E in H; by injection H as <- <-.
        - intros [k' id|rs] n; destruct k; cbn [cached suffix_cache] in E; unfold apply_star, apply_plus, apply_question in H; rewrite E in H; injection H as <- <-;
            try destruct k'; cbn [cached suffix_cache star_cache plus_cache question_cache block_cache]; rewrite ?lookup_insert_Some; split;
            try (by right); try (by intros [[? ?]|?]); naive_solver.
        - exists a, b, it. auto. }
      split_and!; [done|done|].
      assert (exists n, it' = NT n /\ cached s' (KSuffix k (item_id it)) = Some n) as (n & -> & Hn).
      { destruct k; cbn [cached suffix_cache] in E; unfold apply_star, apply_plus, apply_question in H; rewrite E in H; injection H as <- <-;
          eexists; (split; [done|]); cbn; apply lookup_insert. }
      econstructor; [|exact Hn]. by apply (proj1 (proj2 (lk_mono s s' Hk))).
  Qed.
  Lemma block_lk s alts sx rs id s' : inv s -> wf s -> occurs (Element (Group alts) sx) G -> lk_alts s alts rs -> make_block rs s = (id, s') ->
    wf s' /\ keeps s s' /\ lk_atom s' (Group alts) (NT id).
  Proof using.
    intros Hi Hw Ho Ha H. pose proof (pi_next _ _ _ Hi) as HN. unfold make_block in H.
    destruct (block_cache s !! rs) as [n|] eqn:E; injection H as <- <-.
    - split_and!; [done|apply keeps_refl|]. by econstructor.
    - match goal with |- wf ?s' /\ _ => assert (wf s' /\ keeps s s') as [Hw' Hk] end.
      { apply (make_wf s _ (KBlock rs)); try done.
        - intros [k' id|rs'] n; [destruct k'|]; cbn [cached suffix_cache star_cache plus_cache question_cache block_cache]; rewrite ?lookup_insert_Some; split;
            try (by right); try (by intros [[? ?]|?]); naive_solver.
        - exists alts, sx. auto. }
      split_and!; [done|done|]. econstructor; [by apply (proj1 (proj2 (proj2 (lk_mono _ _ Hk))))|]. cbn. apply lookup_insert.
  Qed.

  Definition elem_lk (f : rule_ctx -> production_state -> res (item * production_state)) (e : element) (c : rule_ctx) : Prop :=
    forall s it s', inv s -> wf s -> f c s = Ret (it, s') -> wf s' /\ keeps s s' /\ lk_elem s' e it.

  Lemma elements_lk fuel es cs s its s' : Forall2 (elem_lk (visit_element fuel)) es cs -> inv s -> wf s ->
    visit_elements (visit_element fuel) cs s = Ret (its, s') -> wf s' /\ keeps s s' /\ lk_elems s' es its.
  Proof using HR Hv0.
    intros HF. revert s its. induction HF as [|e c es cs He _ IH]; intros s its Hi Hs H; simpl in H.
    - injection H as <- <-. split_and!; [done|apply keeps_refl|constructor].
    - destruct (visit_element fuel c s) as [[it s1]| |] eqn:E; simpl in H; [|done|done].
      destruct (visit_elements _ cs s1) as [[its' s2]| |] eqn:E2; simpl in H; [|done|done]. injection H as <- <-.
      destruct (next_mono v0 R HR Hv0 _ _ _ _ _ Hi E) as [Hi1 _].
      destruct (He s it s1 Hi Hs E) as (Hs1 & X1 & T1). destruct (IH s1 its' Hi1 Hs1 E2) as (Hs2 & X2 & T2).
      split_and!; [done|by eapply keeps_trans|]. constructor; [|done]. by apply (proj1 (lk_mono _ _ X2)).
  Qed.
  Lemma alternative_lk fuel a c s its s' : alternative_tree a c ->
    (forall es e c', a = Sequence es -> e ∈ es -> element_tree e c' -> elem_lk (visit_element fuel) e c') -> inv s -> wf s ->
    visit_alternative (visit_element fuel) c s = Ret (its, s') -> wf s' /\ keeps s s' /\ lk_alt s' a its.
  Proof using HR Hv0.
    intros Ht HF Hi Hs H. apply alternative_view in Ht. unfold visit_alternative in H. destruct a as [|es].
    - destruct Ht as [x Ex]. rewrite Ex in H. injection H as <- <-. split_and!; [done|apply keeps_refl|constructor].
    - destruct Ht as [Ex Ht]. rewrite Ex in H.
      assert (Forall2 (elem_lk (visit_element fuel)) es (element_list c)) as HF'.
      { assert (forall e c', e ∈ es -> element_tree e c' -> elem_lk (visit_element fuel) e c') as HF1 by (intros e c'; by apply HF).
        clear -Ht HF1. induction Ht as [|e c' es cs' He _ IH]; constructor.
        - apply HF1; [apply elem_of_list_here|done].
        - apply IH. intros e' c0 He'. apply HF1. by apply elem_of_list_further. }
      destruct (elements_lk fuel es (element_list c) s its s' HF' Hi Hs H) as (? & ? & ?). split_and!; [done|done|by constructor].
  Qed.
  Lemma alternatives_lk fuel alts cs s rs s' : Forall2 alternative_tree alts cs ->
    (forall a es e c', a ∈ alts -> a = Sequence es -> e ∈ es -> element_tree e c' -> elem_lk (visit_element fuel) e c') -> inv s -> wf s ->
    visit_alternatives (visit_element fuel) cs s = Ret (rs, s') -> wf s' /\ keeps s s' /\ lk_alts s' alts rs.
  Proof using HR Hv0.
    intros Ht. revert s rs. induction Ht as [|a c alts cs Ha _ IH]; intros s rs HF Hi Hs H; simpl in H.
    - injection H as <- <-. split_and!; [done|apply keeps_refl|constructor].
    - destruct (visit_alternative _ c s) as [[r s1]| |] eqn:E; simpl in H; [|done|done].
      destruct (visit_alternatives _ cs s1) as [[rs' s2]| |] eqn:E2; simpl in H; [|done|done]. injection H as <- <-.
      destruct (alternative_mono v0 R HR Hv0 _ _ _ _ _ Hi E) as [Hi1 _].
      destruct (alternative_lk fuel a c s r s1 Ha) as (Hs1 & X1 & T1); [|done|done|done|].
      { intros es e c' -> He. eapply HF; [apply elem_of_list_here|done|done]. }
      destruct (IH s1 rs') as (Hs2 & X2 & T2); [|done|done|done|].
      { intros a' es e c' Ha'. apply HF. by apply elem_of_list_further. }
      split_and!; [done|by eapply keeps_trans|]. constructor; [|done]. by apply (proj1 (proj2 (proj2 (proj2 (lk_mono _ _ X2))))).
  Qed.
  Lemma apply_suffix_lk a sx c s it it' s' : element_view (Element a sx) c -> (forall k b, sx = Some (k, b) -> occurs (Element a (Some (k, b))) G) ->
    inv s -> wf s -> lk_atom s a it -> apply_suffix c (item_id it) it s = (it', s') ->
    wf s' /\ keeps s s' /\ lk_elem s' (Element a sx) it'.
  Proof using.
    intros [_ Hx] Hocc Hi Hs Ht H. unfold apply_suffix in H. destruct sx as [[k b]|].
    - destruct Hx as (x & Ex & Hk). rewrite Ex in H. apply (suffix_lk s k a b it it' s' Hi Hs); [by apply Hocc|done|].
      destruct k.
      + destruct Hk as [t Et]. by rewrite Et in H.
      + destruct Hk as [E [t Et]]. by rewrite E, Et in H.
      + destruct Hk as [E Et]. by rewrite E, Et in H.
    - rewrite Hx in H. injection H as <- <-. split_and!; [done|apply keeps_refl|by constructor].
  Qed.
  Lemma element_lk fuel : forall e c, element_tree e c -> (forall x, within_element x e -> occurs x G) -> elem_lk (visit_element fuel) e c.
  Proof using HR Hv0 Hlit.
    induction fuel as [|fuel IH]; intros e c Ht Hocc s it s' Hi Hs H; [done|]. cbn [visit_element] in H.
    pose proof (element_tree_view _ _ Ht) as Hview. destruct e as [a sx].
    assert (Hocc' : forall k b, sx = Some (k, b) -> occurs (Element a (Some (k, b))) G).
    { intros k b ->. apply Hocc. constructor. }
    pose proof Hview as [Hv _]. destruct a as [name|l|name|alts].
    - destruct Hv as (_ & t & Et & <-). rewrite Et in H. unfold get_terminal_id_by_name in H. rewrite (pi_t1 _ _ _ Hi) in H.
      destruct (t_name_to_id v0 !! text t) as [id|] eqn:E; simpl in H; [|done]. injection H as H.
      eapply (apply_suffix_lk (TokenRef (text t)) sx c s (T id)); eauto. by constructor.
    - exfalso. destruct Hv as (E1 & t & Et & <-). rewrite E1, Et in H. unfold get_terminal_id_by_name in H. rewrite (pi_t1 _ _ _ Hi) in H.
      rewrite (Hlit (text t) sx) in H by (apply Hocc; constructor). done.
    - destruct Hv as (E1 & E2 & t & Et & <-). rewrite E1, E2, Et in H. unfold get_nonterminal_id_by_name in H. rewrite (pi_n1 _ _ _ Hi) in H.
      destruct (nt_name_to_id v0 !! text t) as [id|] eqn:E; simpl in H; [|done]. injection H as H.
      eapply (apply_suffix_lk (RuleRef (text t)) sx c s (NT id)); eauto. by constructor.
    - destruct Hv as (E1 & E2 & E3 & b & Eb & Hb). rewrite E1, E2, E3, Eb in H. unfold visit_block in H.
      destruct (visit_alternatives (visit_element fuel) (alternative_list b) s) as [[rs s1]| |] eqn:Ea; simpl in H; [|done|done].
      destruct (make_block rs s1) as [id s2] eqn:Em. injection H as H.
      destruct (alternatives_mono v0 R HR Hv0 _ _ _ _ _ Hi Ea) as [Hi1 _].
      destruct (alternatives_lk fuel alts (alternative_list b) s rs s1) as (Hs1 & X1 & T1); [by apply block_alternatives| |done|done|done|].
      { intros a es e c' Ha Hes He Hc'. apply IH; [done|]. intros x Hx. apply Hocc. by eapply within_group_elem. }
      destruct (block_lk s1 alts sx rs id s2 Hi1 Hs1) as (Hs2 & X2 & T2); [apply Hocc; constructor|done|done|].
      destruct (alternatives_inv R v0 (visit_element fuel) (alternative_list b) s rs s1 (element_inv R v0 HR Hv0 fuel) Hi Ea) as (_ & _ & K1).
      destruct (block_inv R v0 HR Hv0 rs s1 id s2 Hi1 K1 Em) as (Hi2 & _ & _).
      destruct (apply_suffix_lk (Group alts) sx c s2 (NT id) it s' Hview Hocc' Hi2 Hs2 T2 H) as (Hs3 & X3 & T3).
      split_and!; [done| |done]. eapply keeps_trans; [exact X1|]. by eapply keeps_trans.
  Qed.
End simulation.

Section rules.
  Context (v0 : vocabulary) (R : nat) (G : list rule) (N : nat).
  Context (HR : forall i, i ∈ nonterminals v0 -> i < R) (Hv0 : vinv v0).
  Context (Hlit : forall l s, occurs (Element (StringLiteral l) s) G -> t_name_to_id v0 !! l = None).
  Context (Hinj : forall k it it', allowed v0 R G N k it -> allowed v0 R G N k it' -> item_id it = item_id it' -> it = it').
  Notation inv := (prod_inv R v0).

  Definition processed_lk (L : list (str * alternative)) (s : production_state) : Prop :=
    processed v0 R G N L s /\ wf v0 R G s /\
    (forall id r, id < R -> Production id r ∈ ps_productions s -> exists name alt, (name, alt) ∈ L /\
       nt_name_to_id v0 !! name = Some id /\ lk_alt v0 s alt r) /\
    (forall name alt, (name, alt) ∈ L -> exists id r, nt_name_to_id v0 !! name = Some id /\
       Production id r ∈ ps_productions s /\ lk_alt v0 s alt r).

  Lemma rule_alternative_lk fuel L name id alt c s s' : processed_lk L s -> nt_name_to_id v0 !! name = Some id ->
    alternative_tree alt c -> (forall x, within_alternative x alt -> occurs x G) ->
    visit_rule_alternative fuel id s c = Ret s' -> ps_next_rule_id s' <= N -> processed_lk (L ++ [(name, alt)]) s'.
  Proof using HR Hv0 Hinj Hlit.
    intros (HP & Hw & Hsound & Hcomp) Hname Ht Hocc H HN.
    pose proof (rule_alternative_sim v0 R G N HR Hv0 Hlit Hinj fuel L name id alt c s s' HP Hname Ht Hocc H HN) as HP'.
    destruct HP as (Hi & Hs & _ & _).
    destruct (named_below v0 R HR Hv0 _ _ Hname) as [Hid HidR].
    unfold visit_rule_alternative in H.
    destruct (visit_alternative (visit_element fuel) c s) as [[r s1]| |] eqn:E; simpl in H; [|done|done]. injection H as <-. cbn [ps_next_rule_id] in HN.
    destruct (alternative_sim v0 R G N HR Hv0 fuel alt c s r s1 Ht) as (Hs1 & [X1 X1'] & _); [|done|done|done|done|].
    { intros es e c' -> He Hc'. apply element_sim; try done. intros x Hx. apply Hocc. by econstructor. }
    destruct (alternative_lk v0 R G HR Hv0 fuel alt c s r s1 Ht) as (Hw1 & K1 & T1); [|done|done|done|].
    { intros es e c' -> He Hc'. apply element_lk; try done. intros x Hx. apply Hocc. by econstructor. }
    match type of HP' with processed _ _ _ _ _ ?s' => set (s2 := s') in * end.
    assert (keeps s1 s2) as K2 by (intros [[]|] n; done).
    assert (keeps s2 s1) as K2' by (intros [[]|] n; done).
    pose proof (lk_mono v0 s1 s2 K2) as (_ & M2 & M3 & M4 & _).
    pose proof (lk_mono v0 s s2 (keeps_trans _ _ _ K1 K2)) as (_ & _ & _ & N4 & _).
    split; [done|]. split.
    { split.
      - intros k n Hk. apply (wf_range _ _ _ _ Hw1 k). by apply K2'.
      - intros k k' n H1 H2. apply (wf_inj _ _ _ _ Hw1 k k' n); by apply K2'.
      - intros n Hn. destruct (wf_cover _ _ _ _ Hw1 n Hn) as [k Hk]. exists k. by apply K2.
      - intros k i n Hk. destruct (wf_suffix _ _ _ _ Hw1 k i n (K2' _ _ Hk)) as (a & b & it & ? & ? & ?). exists a, b, it. auto.
      - intros rs n Hk. destruct (wf_block _ _ _ _ Hw1 rs n (K2' _ _ Hk)) as (alts & sx & ? & ?). exists alts, sx. auto. }
    cbn [s2 ps_productions ps_next_rule_id]. split.
    - intros id' r' Hid'. rewrite elem_of_union, elem_of_singleton. intros [[= -> ->]|Hp].
      + exists name, alt. split_and!; [apply elem_of_app; right; apply elem_of_list_here|done|by apply M4].
      + apply X1' in Hp; [|pose proof (pi_next _ _ _ Hi); lia]. destruct (Hsound id' r' Hid' Hp) as (n' & a' & ? & ? & ?).
        exists n', a'. split_and!; [apply elem_of_app; by left|done|by apply N4].
    - intros n' a'. rewrite elem_of_app, elem_of_list_singleton. intros [HL|[= -> ->]].
      + destruct (Hcomp n' a' HL) as (id' & r' & ? & Hp & ?). exists id', r'. split_and!; [done| |by apply N4].
        apply elem_of_union; right. apply X1'; [|done]. pose proof (sem_left _ _ _ _ _ Hs _ Hp). done.
      + exists id, r. split_and!; [done|set_solver|by apply M4].
  Qed.
  Lemma rule_alternatives_lk fuel name id alts cs : Forall2 alternative_tree alts cs -> forall L s s',
    processed_lk L s -> nt_name_to_id v0 !! name = Some id ->
    (forall alt x, alt ∈ alts -> within_alternative x alt -> occurs x G) ->
    rfold (visit_rule_alternative fuel id) cs s = Ret s' -> ps_next_rule_id s' <= N -> processed_lk (L ++ map (pair name) alts) s'.
  Proof using HR Hv0 Hinj Hlit.
    induction 1 as [|a c alts cs Ha _ IH]; intros L s s' HP Hname Hocc H HN; simpl in H.
    - injection H as <-. simpl. by rewrite app_nil_r.
    - destruct (visit_rule_alternative fuel id s c) as [s1| |] eqn:E; simpl in H; [|done|done].
      destruct (named_below v0 R HR Hv0 _ _ Hname) as [Hid _]. destruct (rule_alternative_inv v0 R HR Hv0 _ _ _ _ _ (proj1 (proj1 HP)) Hid E) as [Hi1 _].
      destruct (rule_alternatives_mono v0 R HR Hv0 _ _ _ _ _ Hi1 Hid H).
      simpl. change ((name, a) :: map (pair name) alts) with ([(name, a)] ++ map (pair name) alts). rewrite app_assoc.
      apply (IH _ s1); [|done| |done|done].
      + eapply rule_alternative_lk; eauto; [|lia]. intros x. apply Hocc, elem_of_list_here.
      + intros alt x Halt. apply Hocc. by apply elem_of_list_further.
  Qed.
  Lemma rules_lk fuel rules cs : Forall2 (fun na c => rule_tree (ParserRule na.1 na.2) c) rules cs -> forall L s s',
    processed_lk L s -> (forall name alts alt x, (name, alts) ∈ rules -> alt ∈ alts -> within_alternative x alt -> occurs x G) ->
    rfold (production_visit_parser_rule fuel) cs s = Ret s' -> ps_next_rule_id s' <= N ->
    processed_lk (L ++ concat (map (fun na => map (pair na.1) na.2) rules)) s'.
  Proof using HR Hv0 Hinj Hlit.
    induction 1 as [|[name alts] c rules cs Ht _ IH]; intros L s s' HP Hocc H HN; simpl in H.
    - injection H as <-. simpl. by rewrite app_nil_r.
    - destruct (production_visit_parser_rule fuel s c) as [s1| |] eqn:E; simpl in H; [|done|done].
      destruct (rule_inv v0 R HR Hv0 _ _ _ _ (proj1 (proj1 HP)) E) as [Hi1 _]. destruct (rules_mono v0 R HR Hv0 _ _ _ _ Hi1 H).
      cbn [map concat fst snd]. rewrite app_assoc. apply (IH _ s1); [| |done|done].
      + apply rule_view in Ht as (_ & (t & Et & Hn) & b & Eb & Hb). unfold production_visit_parser_rule in E. cbn [fst snd] in *.
        rewrite Et, Eb in E. simpl in E. unfold get_nonterminal_id_by_name in E. rewrite (pi_n1 _ _ _ (proj1 (proj1 HP))), Hn in E.
        destruct (nt_name_to_id v0 !! name) as [id|] eqn:En; simpl in E; [|done].
        eapply rule_alternatives_lk; [by apply block_alternatives|done|exact En| |exact E|lia].
        intros alt x. apply (Hocc name), elem_of_list_here.
      + intros n' alts' alt x Hn'. apply (Hocc n'). by apply elem_of_list_further.
  Qed.
End rules.

(** Both together: the caches and the productions. *)
Section both.
  Context (v0 : vocabulary) (R : nat) (s : production_state) (P : gset production).
  Inductive mk_elem : element -> item -> Prop :=
  | mk_plain a it : mk_atom a it -> mk_elem (Element a None) it
  | mk_suffix a it k b n : mk_atom a it -> cached s (KSuffix k (item_id it)) = Some n -> R <= n ->
      rights P n (suffix_rights k n it) -> mk_elem (Element a (Some (k, b))) (NT n)
  with mk_atom : atom -> item -> Prop :=
  | mk_token n t : t_name_to_id v0 !! n = Some t -> mk_atom (TokenRef n) (T t)
  | mk_rule n i : nt_name_to_id v0 !! n = Some i -> mk_atom (RuleRef n) (NT i)
  | mk_group alts n rs : mk_alts alts rs -> cached s (KBlock rs) = Some n -> R <= n -> rights P n rs -> mk_atom (Group alts) (NT n)
  with mk_alts : list alternative -> list (list item) -> Prop :=
  | mk_alts_nil : mk_alts [] []
  | mk_alts_cons a r alts rs : mk_alt a r -> mk_alts alts rs -> mk_alts (a :: alts) (r :: rs)
  with mk_alt : alternative -> list item -> Prop :=
  | mk_epsilon : mk_alt Epsilon []
  | mk_sequence es its : mk_elems es its -> mk_alt (Sequence es) its
  with mk_elems : list element -> list item -> Prop :=
  | mk_nil : mk_elems [] []
  | mk_cons e it es its : mk_elem e it -> mk_elems es its -> mk_elems (e :: es) (it :: its).
End both.
Scheme mk_elem_mut := Minimality for mk_elem Sort Prop
with mk_atom_mut := Minimality for mk_atom Sort Prop
with mk_alts_mut := Minimality for mk_alts Sort Prop
with mk_alt_mut := Minimality for mk_alt Sort Prop
with mk_elems_mut := Minimality for mk_elems Sort Prop.
Combined Scheme mk_mut from mk_elem_mut, mk_atom_mut, mk_alts_mut, mk_alt_mut, mk_elems_mut.

Section both_facts.
  Context (v0 : vocabulary) (R : nat) (G : list rule) (s : production_state) (P : gset production).
  Context (HR : forall name id, nt_name_to_id v0 !! name = Some id -> id < R) (Hv0 : vinv v0).
  Context (Hrange : forall k n, cached s k = Some n -> R <= n < ps_next_rule_id s).
  Notation N := (ps_next_rule_id s).
  Notation mk_elem := (mk_elem v0 R s P).
  Notation mk_atom := (mk_atom v0 R s P).
  Notation mk_alts := (mk_alts v0 R s P).
  Notation mk_alt := (mk_alt v0 R s P).
  Notation mk_elems := (mk_elems v0 R s P).

  Lemma mk_tr :
    (forall e it, mk_elem e it -> tr_elem v0 R P N e it) /\
    (forall a it, mk_atom a it -> tr_atom v0 R P N a it) /\
    (forall a it, mk_alts a it -> tr_alts v0 R P N a it) /\
    (forall a it, mk_alt a it -> tr_alt v0 R P N a it) /\
    (forall e it, mk_elems e it -> tr_elems v0 R P N e it).
  Proof using Hrange.
    pose proof (mk_mut v0 R s P (tr_elem v0 R P N) (tr_atom v0 R P N) (tr_alts v0 R P N) (tr_alt v0 R P N) (tr_elems v0 R P N)) as K.
    apply K; clear K; intros; try (by econstructor); econstructor; eauto.
  Qed.
  Lemma mk_lk :
    (forall e it, mk_elem e it -> lk_elem v0 s e it) /\
    (forall a it, mk_atom a it -> lk_atom v0 s a it) /\
    (forall a it, mk_alts a it -> lk_alts v0 s a it) /\
    (forall a it, mk_alt a it -> lk_alt v0 s a it) /\
    (forall e it, mk_elems e it -> lk_elems v0 s e it).
  Proof using.
    pose proof (mk_mut v0 R s P (lk_elem v0 s) (lk_atom v0 s) (lk_alts v0 s) (lk_alt v0 s) (lk_elems v0 s)) as K.
    apply K; clear K; intros; try (by econstructor); econstructor; eauto.
  Qed.

  Lemma suffix_rights_item k n it it' : rights P n (suffix_rights k n it) -> rights P n (suffix_rights k n it') -> it = it'.
  Proof using.
    intros H1 H2. assert (forall r, r ∈ suffix_rights k n it <-> r ∈ suffix_rights k n it') as H by (intros r; by rewrite <- (H1 r), (H2 r)).
    destruct k; simpl in H.
    - assert ([it; NT n] ∈ [[it'; NT n]; []]) as K by (apply H; apply elem_of_list_here). rewrite !elem_of_cons in K. destruct K as [K|[K|K%elem_of_nil]]; [by injection K|discriminate K|done].
    - assert ([it; NT n] ∈ [[it'; NT n]; [it']]) as K by (apply H; apply elem_of_list_here). rewrite !elem_of_cons in K. destruct K as [K|[K|K%elem_of_nil]]; [by injection K|discriminate K|done].
    - assert ([it] ∈ [[it']; []]) as K by (apply H; apply elem_of_list_here). rewrite !elem_of_cons in K. destruct K as [K|[K|K%elem_of_nil]]; [by injection K|discriminate K|done].
  Qed.

  (** Different constructs get different items. *)
  Context (Hkey : forall k k' n, cached s k = Some n -> cached s k' = Some n -> k = k').
  Lemma mk_injective :
    (forall e it, mk_elem e it -> forall e', mk_elem e' it -> plain_element e = plain_element e') /\
    (forall a it, mk_atom a it -> forall a', mk_atom a' it -> plain_atom a = plain_atom a') /\
    (forall a it, mk_alts a it -> forall a', mk_alts a' it -> map plain_alternative a = map plain_alternative a') /\
    (forall a it, mk_alt a it -> forall a', mk_alt a' it -> plain_alternative a = plain_alternative a') /\
    (forall e it, mk_elems e it -> forall e', mk_elems e' it -> map plain_element e = map plain_element e').
  Proof using HR Hv0 Hkey.
    pose proof (mk_mut v0 R s P
      (fun e it => mk_elem e it /\ forall e', mk_elem e' it -> plain_element e = plain_element e')
      (fun a it => mk_atom a it /\ forall a', mk_atom a' it -> plain_atom a = plain_atom a')
      (fun a it => forall a', mk_alts a' it -> map plain_alternative a = map plain_alternative a')
      (fun a it => forall a', mk_alt a' it -> plain_alternative a = plain_alternative a')
      (fun e it => forall e', mk_elems e' it -> map plain_element e = map plain_element e')) as K.
    match type of K with ?A -> _ => idtac end.
    assert (Hat : forall a k b n it0 , mk_atom a (NT n) -> cached s (KSuffix k it0) = Some n -> R <= n -> b = true -> False).
    { intros a k b n it0 Ha Hc Hn _. inversion Ha as [|name i Hi|alts n' rs Has Hc' Hn' Hr]; subst.
      - apply HR in Hi. lia.
      - pose proof (Hkey _ _ _ Hc Hc'). done. }
    assert (K' : (forall e it, mk_elem e it -> mk_elem e it /\ forall e', mk_elem e' it -> plain_element e = plain_element e') /\
      (forall a it, mk_atom a it -> mk_atom a it /\ forall a', mk_atom a' it -> plain_atom a = plain_atom a') /\
      (forall a it, mk_alts a it -> forall a', mk_alts a' it -> map plain_alternative a = map plain_alternative a') /\
      (forall a it, mk_alt a it -> forall a', mk_alt a' it -> plain_alternative a = plain_alternative a') /\
      (forall e it, mk_elems e it -> forall e', mk_elems e' it -> map plain_element e = map plain_element e')).
    { apply K; clear K.
      - intros a it Ha [_ IH]. split; [by constructor|]. intros e' H'. inversion H' as [a' it' Ha'|a' it' k b n Ha' Hc Hn Hr]; subst.
        + cbn [plain_element]. by rewrite (IH _ Ha').
        + exfalso. by eapply (Hat a k true n).
      - intros a it k b n Ha [_ IH] Hc Hn Hr. split; [by econstructor|]. intros e' H'.
        inversion H' as [a' it' Ha'|a' it' k' b' n' Ha' Hc' Hn' Hr']; subst.
        + exfalso. by eapply (Hat a' k true n).
        + pose proof (Hkey _ _ _ Hc Hc') as E. injection E as <- _. pose proof (suffix_rights_item _ _ _ _ Hr Hr') as <-.
          cbn [plain_element]. by rewrite (IH _ Ha').
      - intros n t Hn. split; [by constructor|]. intros a' H'. inversion H' as [n' t' Hn'| |]; subst.
        assert (n = n') as ->; [|done]. apply (vi_t _ Hv0) in Hn, Hn'. congruence.
      - intros n i Hn. split; [by constructor|]. intros a' H'. inversion H' as [|n' i' Hn'|alts n' rs Has Hc' Hnn Hr]; subst.
        + assert (n = n') as ->; [|done]. apply (vi_n _ Hv0) in Hn, Hn'. congruence.
        + apply HR in Hn. lia.
      - intros alts n rs Has IH Hc Hn Hr. split; [by econstructor|]. intros a' H'.
        inversion H' as [|n' i' Hn'|alts' n' rs' Has' Hc' Hnn Hr']; subst.
        + apply HR in Hn'. lia.
        + pose proof (Hkey _ _ _ Hc Hc') as E. injection E as <-. cbn [plain_atom]. by rewrite (IH _ Has').
      - intros a' H'. by inversion H'.
      - intros a r alts rs _ IH1 _ IH2 a' H'. inversion H' as [|a1 r1 alts1 rs1 H1 H2]; subst. cbn [map]. by rewrite (IH1 _ H1), (IH2 _ H2).
      - intros a' H'. inversion H' as [|es its Hes]; subst; [done|]. by inversion Hes.
      - intros es its Hes IH a' H'. inversion H' as [|es' its' Hes']; subst; cbn [plain_alternative].
        + by inversion Hes.
        + by rewrite (IH _ Hes').
      - intros a' H'. by inversion H'.
      - intros e it es its _ [_ IH1] _ IH2 a' H'. inversion H' as [|e1 it1 es1 its1 H1 H2]; subst. cbn [map]. by rewrite (IH1 _ H1), (IH2 _ H2). }
    destruct K' as (K1 & K2 & K3 & K4 & K5). split_and!; [intros e it H; apply (K1 _ _ H)|intros e it H; apply (K2 _ _ H)|done..].
  Qed.
  Lemma mk_alt_functional a a' r r' : plain_alternative a = plain_alternative a' -> mk_alt a r -> mk_alt a' r' -> r = r'.
  Proof using.
    intros E H H'. destruct mk_lk as (_ & _ & _ & K & _).
    exact (proj1 (proj2 (proj2 (proj2 (lk_functional v0 s)))) a r (K _ _ H) a' r' E (K _ _ H')).
  Qed.
  Lemma mk_elem_functional e it it' : mk_elem e it -> mk_elem e it' -> it = it'.
  Proof using.
    intros H H'. destruct mk_lk as (K & _). exact (proj1 (lk_functional v0 s) e it (K _ _ H) e it' eq_refl (K _ _ H')).
  Qed.
  Lemma mk_atom_functional e it it' : mk_atom e it -> mk_atom e it' -> it = it'.
  Proof using.
    intros H H'. destruct mk_lk as (_ & K & _). exact (proj1 (proj2 (lk_functional v0 s)) e it (K _ _ H) e it' eq_refl (K _ _ H')).
  Qed.

  (** From the caches alone to both. *)
  Lemma lk_mk : P = ps_productions s -> sem v0 R G N s ->
    (forall k it it', allowed v0 R G N k it -> allowed v0 R G N k it' -> item_id it = item_id it' -> it = it') ->
    (forall e it, lk_elem v0 s e it -> (forall x, within_element x e -> occurs x G) -> mk_elem e it) /\
    (forall a it, lk_atom v0 s a it -> (forall alts alt x, a = Group alts -> alt ∈ alts -> within_alternative x alt -> occurs x G) -> mk_atom a it) /\
    (forall a it, lk_alts v0 s a it -> (forall alt x, alt ∈ a -> within_alternative x alt -> occurs x G) -> mk_alts a it) /\
    (forall a it, lk_alt v0 s a it -> (forall x, within_alternative x a -> occurs x G) -> mk_alt a it) /\
    (forall e it, lk_elems v0 s e it -> (forall e' x, e' ∈ e -> within_element x e' -> occurs x G) -> mk_elems e it).
  Proof using Hrange.
    intros EP Hsem Hinj.
    pose proof (lk_mut v0 s
      (fun e it => (forall x, within_element x e -> occurs x G) -> mk_elem e it)
      (fun a it => (forall alts alt x, a = Group alts -> alt ∈ alts -> within_alternative x alt -> occurs x G) -> mk_atom a it)
      (fun a it => (forall alt x, alt ∈ a -> within_alternative x alt -> occurs x G) -> mk_alts a it)
      (fun a it => (forall x, within_alternative x a -> occurs x G) -> mk_alt a it)
      (fun e it => (forall e' x, e' ∈ e -> within_element x e' -> occurs x G) -> mk_elems e it)) as K.
    assert (Hin : forall a sx, (forall x, within_element x (Element a sx) -> occurs x G) ->
      forall alts alt x, a = Group alts -> alt ∈ alts -> within_alternative x alt -> occurs x G).
    { intros a sx H alts alt x -> Ha Hx. apply H. by eapply within_group. }
    apply K; clear K.
    - intros a it _ IH Ho. constructor. apply IH. by eapply Hin.
    - intros a it k b n _ IH Hc Ho. assert (mk_atom a it) as Ha by (apply IH; by eapply Hin).
      assert (allowed v0 R G N k it) as Hal.
      { exists a, b, P, N. split_and!; [apply Ho; constructor|lia|by apply mk_tr]. }
      destruct (Hrange _ _ Hc) as [Hn _]. econstructor; [done|done|done|].
      assert (exists it0, item_id it0 = item_id it /\ allowed v0 R G N k it0 /\ rights P n (suffix_rights k n it0)) as (it0 & E & Hal0 & Hr).
      { subst P. destruct k; [apply (sem_star _ _ _ _ _ Hsem)|apply (sem_plus _ _ _ _ _ Hsem)|apply (sem_question _ _ _ _ _ Hsem)]; done. }
      by rewrite <- (Hinj k it0 it Hal0 Hal E).
    - intros n t Hn _. by constructor.
    - intros n t Hn _. by constructor.
    - intros alts n rs _ IH Hc Ho. destruct (Hrange _ _ Hc) as [Hn _]. econstructor; [|done|done|].
      + apply IH. intros alt x. by apply Ho.
      + subst P. by apply (sem_block _ _ _ _ _ Hsem).
    - constructor.
    - intros a r alts rs _ IH1 _ IH2 Ho. constructor.
      + apply IH1. intros x. apply Ho, elem_of_list_here.
      + apply IH2. intros alt x Ha. apply Ho. by apply elem_of_list_further.
    - constructor.
    - intros es its _ IH Ho. constructor. apply IH. intros e' x He Hx. apply Ho. by econstructor.
    - constructor.
    - intros e it es its _ IH1 _ IH2 Ho. constructor.
      + apply IH1. intros x. apply Ho, elem_of_list_here.
      + apply IH2. intros e' x He. apply Ho. by apply elem_of_list_further.
  Qed.
End both_facts.
