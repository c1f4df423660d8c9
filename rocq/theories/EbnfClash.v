(** EbnfClash.v -- what the production pass makes of operands with clashing numbers (C41). *)
From Verif Require Export SpecClash EbnfLookup.

Section first.
  Context (v0 : vocabulary) (R : nat) (G : list rule).
  Context (HR : forall i, i ∈ nonterminals v0 -> i < R) (Hv0 : vinv v0).
  Context (Hlit : forall l s, occurs (Element (StringLiteral l) s) G -> t_name_to_id v0 !! l = None).
  Notation inv := (prod_inv R v0).
  Notation wf := (wf v0 R G).
  Notation lk_elem := (lk_elem v0).
  Notation lk_atom := (lk_atom v0).
  Notation lk_alts := (lk_alts v0).
  Notation lk_alt := (lk_alt v0).

  (** L: the operands met so far. *)
  Record met (L : list (SpecEbnf.suffix * atom)) (s : production_state) : Prop := {
    met_left : forall p, p ∈ ps_productions s -> left p < ps_next_rule_id s;
    met_block : forall rs n, cached s (KBlock rs) = Some n -> rights (ps_productions s) n rs;
    met_first : forall k id n, cached s (KSuffix k id) = Some n -> exists L1 a it L2, L = L1 ++ (k, a) :: L2 /\
      lk_atom s a it /\ item_id it = id /\ rights (ps_productions s) n (suffix_rights k n it) /\
      forall a', (k, a') ∈ L1 -> exists it', lk_atom s a' it' /\ item_id it' <> id;
    met_seen : forall k a, (k, a) ∈ L -> exists it n, lk_atom s a it /\ cached s (KSuffix k (item_id it)) = Some n;
  }.

  Lemma made s s' rs : (forall p, p ∈ ps_productions s -> left p < ps_next_rule_id s) ->
    (forall p, p ∈ ps_productions s' <-> p ∈ ps_productions s \/ (left p = ps_next_rule_id s /\ right p ∈ rs)) ->
    ps_next_rule_id s' = S (ps_next_rule_id s) ->
    ext s s' /\ rights (ps_productions s') (ps_next_rule_id s) rs /\ (forall p, p ∈ ps_productions s' -> left p < ps_next_rule_id s').
  Proof using.
    intros Hs HP Hn. split_and!.
    - split; [lia|]. intros n r Hlt. rewrite HP. simpl. split; [auto|]. intros [?|[? _]]; [done|lia].
    - intros r. rewrite HP. simpl. split; [|auto]. intros [Hp|[_ ?]]; [|done]. apply Hs in Hp. simpl in Hp. lia.
    - intros p. rewrite HP, Hn. intros [Hp|[-> _]]; [|lia]. apply Hs in Hp. lia.
  Qed.

  (** Facts about the old entries stay. *)
  Lemma met_old L L' s s' : wf s -> met L s -> keeps s s' -> ext s s' -> (exists M, L' = L ++ M) ->
    (forall rs n, cached s (KBlock rs) = Some n -> rights (ps_productions s') n rs) /\
    (forall k id n, cached s (KSuffix k id) = Some n -> exists L1 a it L2, L' = L1 ++ (k, a) :: L2 /\
      lk_atom s' a it /\ item_id it = id /\ rights (ps_productions s') n (suffix_rights k n it) /\
      forall a', (k, a') ∈ L1 -> exists it', lk_atom s' a' it' /\ item_id it' <> id) /\
    (forall k a, (k, a) ∈ L -> exists it n, lk_atom s' a it /\ cached s' (KSuffix k (item_id it)) = Some n).
  Proof using.
    intros Hw Hm Hk [X X'] [M ->]. pose proof (lk_mono v0 s s' Hk) as (_ & M2 & _). split_and!.
    - intros rs n Hc. eapply rights_same; [exact X'|by apply (wf_range _ _ _ _ Hw _ _ Hc)|by apply (met_block _ _ Hm)].
    - intros k id n Hc. destruct (met_first _ _ Hm k id n Hc) as (L1 & a & it & L2 & -> & Ha & E & Hr & Hb).
      exists L1, a, it, (L2 ++ M). split_and!; [by rewrite <- app_assoc|auto|done| |].
      + eapply rights_same; [exact X'|by apply (wf_range _ _ _ _ Hw _ _ Hc)|done].
      + intros a' Ha'. destruct (Hb a' Ha') as (it' & ? & ?). eauto.
    - intros k a Hka. destruct (met_seen _ _ Hm k a Hka) as (it & n & ? & ?). exists it, n. split; [by apply M2|by apply Hk].
  Qed.

  Lemma suffix_met L s k a b it it' s' : inv s -> wf s -> met L s -> occurs (Element a (Some (k, b))) G -> lk_atom s a it ->
    match k with Star => apply_star | Plus => apply_plus | Question => apply_question end (item_id it) it s = (it', s') ->
    met (L ++ [(k, a)]) s' /\ ext s s'.
  Proof using.
    intros Hi Hw Hm Ho Ha H. pose proof (pi_next _ _ _ Hi) as HN.
    destruct (suffix_lk v0 R G s k a b it it' s' Hi Hw Ho Ha H) as (Hw' & Hk & _).
    destruct (cached s (KSuffix k (item_id it))) as [n|] eqn:E.
    - assert (s' = s) as ->.
      { destruct k; cbn [cached suffix_cache] in E; unfold apply_star, apply_plus, apply_question in H; rewrite E in H; by injection H as _ <-. }
      split; [|apply ext_refl].
      destruct (met_old L (L ++ [(k, a)]) s s Hw Hm Hk (ext_refl s)) as (A & B & C); [eauto|]. split; [apply Hm|exact A|exact B|].
      intros k' a'. rewrite elem_of_app, elem_of_list_singleton. intros [?|[= -> ->]]; [by apply C|]. eauto.
    - assert (exists rs, rs = suffix_rights k (ps_next_rule_id s) it /\ ps_next_rule_id s' = S (ps_next_rule_id s) /\
        (forall p, p ∈ ps_productions s' <-> p ∈ ps_productions s \/ (left p = ps_next_rule_id s /\ right p ∈ rs)) /\
        (forall key n, cached s' key = Some n <-> (key = KSuffix k (item_id it) /\ n = ps_next_rule_id s) \/ cached s key = Some n)) as (rs & Ers & En & Ep & Ec).
      { eexists. split; [done|].
        destruct k; cbn [cached suffix_cache] in E; unfold apply_star, apply_plus, apply_question in H; rewrite E in H; injection H as <- <-;
          (split; [done|]); (split; [intros p; apply two_productions|]);
          (intros [k' id|rs] n; [destruct k'|]; cbn [cached suffix_cache star_cache plus_cache question_cache block_cache]; rewrite ?lookup_insert_Some; split;
            try (by right); try (by intros [[? ?]|?]); naive_solver). }
      destruct (made s s' rs (met_left _ _ Hm) Ep En) as (X & Hr & Hl). split; [|done].
      destruct (met_old L (L ++ [(k, a)]) s s' Hw Hm Hk X) as (A & B & C); [eauto|].
      pose proof (lk_mono v0 s s' Hk) as (_ & M2 & _). split.
      + exact Hl.
      + intros rs' n Hc. apply Ec in Hc as [[? _]|Hc]; [done|]. by apply A.
      + intros k' id n Hc. apply Ec in Hc as [[[= -> ->] ->]|Hc]; [|by apply B].
        exists L, a, it, []. split_and!; [done|by apply M2|done|by rewrite <- Ers|].
        intros a' Ha'. destruct (met_seen _ _ Hm k a' Ha') as (it1 & n1 & H1 & H2). exists it1. split; [by apply M2|]. intros Eid. rewrite Eid in H2. congruence.
      + intros k' a'. rewrite elem_of_app, elem_of_list_singleton. intros [?|[= -> ->]]; [by apply C|].
        exists it, (ps_next_rule_id s). split; [by apply M2|]. apply Ec. by left.
  Qed.
  Lemma block_met L s alts sx rs id s' : inv s -> wf s -> met L s -> occurs (Element (Group alts) sx) G -> lk_alts s alts rs -> make_block rs s = (id, s') ->
    met L s' /\ ext s s'.
  Proof using.
    intros Hi Hw Hm Ho Ha H. destruct (block_lk v0 R G s alts sx rs id s' Hi Hw Ho Ha H) as (Hw' & Hk & _). unfold make_block in H.
    destruct (block_cache s !! rs) as [n|] eqn:E; injection H as <- <-; [split; [done|apply ext_refl]|].
    match goal with |- met _ ?s' /\ _ => destruct (made s s' rs (met_left _ _ Hm)) as (X & Hr & Hl) end;
      [intros p; cbn [ps_productions]; apply elem_of_insert_productions|done|]. split; [|done].
    match type of Hk with keeps _ ?s' => destruct (met_old L L s s' Hw Hm Hk X) as (A & B & C) end; [exists []; by rewrite app_nil_r|]. split.
    - exact Hl.
    - intros rs' n Hc. cbn [cached block_cache] in Hc. apply lookup_insert_Some in Hc as [[<- <-]|[_ Hc]]; [exact Hr|]. by apply A.
    - intros k id n Hc. apply (B k id n). by destruct k.
    - exact C.
  Qed.

  Definition elem_met (f : rule_ctx -> production_state -> res (item * production_state)) (e : element) (c : rule_ctx) : Prop :=
    forall L s it s', inv s -> wf s -> met L s -> f c s = Ret (it, s') ->
      wf s' /\ keeps s s' /\ lk_elem s' e it /\ met (L ++ element_operands e) s' /\ ext s s'.

  Lemma elements_met fuel es cs L s its s' : Forall2 (elem_met (visit_element fuel)) es cs -> inv s -> wf s -> met L s ->
    visit_elements (visit_element fuel) cs s = Ret (its, s') -> met (L ++ concat (map element_operands es)) s' /\ ext s s'.
  Proof using HR Hv0.
    intros HF. revert L s its. induction HF as [|e c es cs He _ IH]; intros L s its Hi Hs Hm H; simpl in H.
    - injection H as <- <-. simpl. rewrite app_nil_r. split; [done|apply ext_refl].
    - destruct (visit_element fuel c s) as [[it s1]| |] eqn:E; simpl in H; [|done|done].
      destruct (visit_elements _ cs s1) as [[its' s2]| |] eqn:E2; simpl in H; [|done|done]. injection H as <- <-.
      destruct (next_mono v0 R HR Hv0 _ _ _ _ _ Hi E) as [Hi1 _].
      destruct (He L s it s1 Hi Hs Hm E) as (Hs1 & X1 & T1 & M1 & Y1). destruct (IH _ s1 its' Hi1 Hs1 M1 E2) as (M2 & Y2).
      cbn [map concat]. rewrite app_assoc. split; [done|by eapply ext_trans].
  Qed.
  Lemma alternative_met fuel a c L s its s' : alternative_tree a c ->
    (forall es e c', a = Sequence es -> e ∈ es -> element_tree e c' -> elem_met (visit_element fuel) e c') -> inv s -> wf s -> met L s ->
    visit_alternative (visit_element fuel) c s = Ret (its, s') -> met (L ++ alternative_operands a) s' /\ ext s s'.
  Proof using HR Hv0.
    intros Ht HF Hi Hs Hm H. apply alternative_view in Ht. unfold visit_alternative in H. destruct a as [|es].
    - destruct Ht as [x Ex]. rewrite Ex in H. injection H as <- <-. simpl. rewrite app_nil_r. split; [done|apply ext_refl].
    - destruct Ht as [Ex Ht]. rewrite Ex in H.
      assert (Forall2 (elem_met (visit_element fuel)) es (element_list c)) as HF'.
      { assert (forall e c', e ∈ es -> element_tree e c' -> elem_met (visit_element fuel) e c') as HF1 by (intros e c'; by apply HF).
        clear -Ht HF1. induction Ht as [|e c' es cs' He _ IH]; constructor.
        - apply HF1; [apply elem_of_list_here|done].
        - apply IH. intros e' c0 He'. apply HF1. by apply elem_of_list_further. }
      by apply (elements_met fuel es (element_list c) L s its s').
  Qed.
  Lemma elem_met_lk f e c : elem_met f e c -> forall L s it s', inv s -> wf s -> met L s -> f c s = Ret (it, s') -> wf s' /\ keeps s s' /\ lk_elem s' e it.
  Proof using. intros H L s it s' Hi Hw Hm E. destruct (H L s it s' Hi Hw Hm E) as (? & ? & ? & _). done. Qed.
  Lemma alternatives_met fuel alts cs L s rs s' : Forall2 alternative_tree alts cs ->
    (forall a es e c', a ∈ alts -> a = Sequence es -> e ∈ es -> element_tree e c' -> elem_met (visit_element fuel) e c' /\ elem_lk v0 R G (visit_element fuel) e c') ->
    inv s -> wf s -> met L s ->
    visit_alternatives (visit_element fuel) cs s = Ret (rs, s') -> met (L ++ concat (map alternative_operands alts)) s' /\ ext s s'.
  Proof using HR Hv0.
    intros Ht. revert L s rs. induction Ht as [|a c alts cs Ha _ IH]; intros L s rs HF Hi Hs Hm H; simpl in H.
    - injection H as <- <-. simpl. rewrite app_nil_r. split; [done|apply ext_refl].
    - destruct (visit_alternative _ c s) as [[r s1]| |] eqn:E; simpl in H; [|done|done].
      destruct (visit_alternatives _ cs s1) as [[rs' s2]| |] eqn:E2; simpl in H; [|done|done]. injection H as <- <-.
      destruct (alternative_mono v0 R HR Hv0 _ _ _ _ _ Hi E) as [Hi1 _].
      destruct (alternative_lk v0 R G HR Hv0 fuel a c s r s1 Ha) as (Hs1 & X1 & T1); [|done|done|done|].
      { intros es e c' -> He Hc'. eapply HF; [apply elem_of_list_here|done|done|done]. }
      destruct (alternative_met fuel a c L s r s1 Ha) as (M1 & Y1); [|done|done|done|done|].
      { intros es e c' -> He Hc'. eapply HF; [apply elem_of_list_here|done|done|done]. }
      destruct (IH (L ++ alternative_operands a) s1 rs') as (M2 & Y2); [|done|done|done|done|].
      { intros a' es e c' Ha'. apply HF. by apply elem_of_list_further. }
      cbn [map concat]. rewrite app_assoc. split; [done|by eapply ext_trans].
  Qed.
  Lemma apply_suffix_met a sx c L s it it' s' : element_view (Element a sx) c -> (forall k b, sx = Some (k, b) -> occurs (Element a (Some (k, b))) G) ->
    inv s -> wf s -> met L s -> lk_atom s a it -> apply_suffix c (item_id it) it s = (it', s') ->
    met (L ++ match sx with Some (k, _) => [(k, a)] | None => [] end) s' /\ ext s s'.
  Proof using.
    intros [_ Hx] Hocc Hi Hs Hm Ht H. unfold apply_suffix in H. destruct sx as [[k b]|].
    - destruct Hx as (x & Ex & Hk). rewrite Ex in H. apply (suffix_met L s k a b it it' s' Hi Hs Hm); [by apply Hocc|done|].
      destruct k.
      + destruct Hk as [t Et]. by rewrite Et in H.
      + destruct Hk as [E [t Et]]. by rewrite E, Et in H.
      + destruct Hk as [E Et]. by rewrite E, Et in H.
    - rewrite Hx in H. injection H as <- <-. rewrite app_nil_r. split; [done|apply ext_refl].
  Qed.
  Lemma element_met fuel : forall e c, element_tree e c -> (forall x, within_element x e -> occurs x G) -> elem_met (visit_element fuel) e c.
  Proof using HR Hv0 Hlit.
    induction fuel as [|fuel IH]; intros e c Ht Hocc L s it s' Hi Hs Hm H; [done|].
    destruct (element_lk v0 R G HR Hv0 Hlit (S fuel) e c Ht Hocc s it s' Hi Hs H) as (W & K & T0). split; [done|]. split; [done|]. split; [done|].
    cbn [visit_element] in H.
    pose proof (element_tree_view _ _ Ht) as Hview. destruct e as [a sx].
    assert (Hocc' : forall k b, sx = Some (k, b) -> occurs (Element a (Some (k, b))) G).
    { intros k b ->. apply Hocc. constructor. }
    pose proof Hview as [Hv _]. destruct a as [name|l|name|alts].
    - destruct Hv as (_ & t & Et & <-). rewrite Et in H. unfold get_terminal_id_by_name in H. rewrite (pi_t1 _ _ _ Hi) in H.
      destruct (t_name_to_id v0 !! text t) as [id|] eqn:E; simpl in H; [|done]. injection H as H.
      cbn [element_operands atom_operands app].
      eapply (apply_suffix_met (TokenRef (text t)) sx c L s (T id)); eauto. by constructor.
    - exfalso. destruct Hv as (E1 & t & Et & <-). rewrite E1, Et in H. unfold get_terminal_id_by_name in H. rewrite (pi_t1 _ _ _ Hi) in H.
      rewrite (Hlit (text t) sx) in H by (apply Hocc; constructor). done.
    - destruct Hv as (E1 & E2 & t & Et & <-). rewrite E1, E2, Et in H. unfold get_nonterminal_id_by_name in H. rewrite (pi_n1 _ _ _ Hi) in H.
      destruct (nt_name_to_id v0 !! text t) as [id|] eqn:E; simpl in H; [|done]. injection H as H.
      cbn [element_operands atom_operands app].
      eapply (apply_suffix_met (RuleRef (text t)) sx c L s (NT id)); eauto. by constructor.
    - destruct Hv as (E1 & E2 & E3 & b & Eb & Hb). rewrite E1, E2, E3, Eb in H. unfold visit_block in H.
      destruct (visit_alternatives (visit_element fuel) (alternative_list b) s) as [[rs s1]| |] eqn:Ea; simpl in H; [|done|done].
      destruct (make_block rs s1) as [id s2] eqn:Em. injection H as H.
      destruct (alternatives_mono v0 R HR Hv0 _ _ _ _ _ Hi Ea) as [Hi1 _].
      destruct (alternatives_lk v0 R G HR Hv0 fuel alts (alternative_list b) s rs s1) as (Hs1 & X1 & T1); [by apply block_alternatives| |done|done|done|].
      { intros a es e c' Ha Hes He Hc'. apply element_lk; try done. intros x Hx. apply Hocc. by eapply within_group_elem. }
      destruct (alternatives_met fuel alts (alternative_list b) L s rs s1) as (M1 & Y1); [by apply block_alternatives| |done|done|done|done|].
      { intros a es e c' Ha Hes He Hc'. assert (forall x, within_element x e -> occurs x G) as Ho' by (intros x Hx; apply Hocc; by eapply within_group_elem).
        split; [by apply IH|by apply element_lk]. }
      destruct (block_lk v0 R G s1 alts sx rs id s2 Hi1 Hs1) as (Hs2 & X2 & T2); [apply Hocc; constructor|done|done|].
      destruct (block_met _ s1 alts sx rs id s2 Hi1 Hs1 M1) as (M2 & Y2); [apply Hocc; constructor|done|done|].
      destruct (alternatives_inv R v0 (visit_element fuel) (alternative_list b) s rs s1 (element_inv R v0 HR Hv0 fuel) Hi Ea) as (_ & _ & K1).
      destruct (block_inv R v0 HR Hv0 rs s1 id s2 Hi1 K1 Em) as (Hi2 & _ & _).
      destruct (apply_suffix_met (Group alts) sx c _ s2 (NT id) it s' Hview Hocc' Hi2 Hs2 M2 T2 H) as (M3 & Y3).
      cbn [element_operands atom_operands]. rewrite app_assoc. split; [done|]. eapply ext_trans; [exact Y1|]. by eapply ext_trans.
  Qed.

  (** *** Rules *)
  Definition done_rules (D : list (str * alternative)) (s : production_state) : Prop :=
    inv s /\ wf s /\ met (concat (map (fun na => alternative_operands na.2) D)) s /\
    (forall id r, id < R -> Production id r ∈ ps_productions s -> exists name alt, (name, alt) ∈ D /\
       nt_name_to_id v0 !! name = Some id /\ lk_alt s alt r) /\
    (forall name alt, (name, alt) ∈ D -> exists id r, nt_name_to_id v0 !! name = Some id /\
       Production id r ∈ ps_productions s /\ lk_alt s alt r).

  Lemma rule_alternative_met fuel D name id alt c s s' : done_rules D s -> nt_name_to_id v0 !! name = Some id ->
    alternative_tree alt c -> (forall x, within_alternative x alt -> occurs x G) ->
    visit_rule_alternative fuel id s c = Ret s' -> done_rules (D ++ [(name, alt)]) s'.
  Proof using HR Hv0 Hlit.
    intros (Hi & Hw & Hm & Hsound & Hcomp) Hname Ht Hocc H.
    destruct (named_below v0 R HR Hv0 _ _ Hname) as [Hid HidR].
    destruct (rule_alternative_inv v0 R HR Hv0 _ _ _ _ _ Hi Hid H) as [Hi' _].
    unfold visit_rule_alternative in H.
    destruct (visit_alternative (visit_element fuel) c s) as [[r s1]| |] eqn:E; simpl in H; [|done|done]. injection H as <-.
    destruct (alternative_mono v0 R HR Hv0 _ _ _ _ _ Hi E) as [Hi1 _].
    assert (forall es e c', alt = Sequence es -> e ∈ es -> element_tree e c' -> forall x, within_element x e -> occurs x G) as Ho.
    { intros es e c' -> He _ x Hx. apply Hocc. by econstructor. }
    destruct (alternative_lk v0 R G HR Hv0 fuel alt c s r s1 Ht) as (Hw1 & K1 & T1); [|done|done|done|].
    { intros es e c' Ea He Hc'. apply element_lk; try done. by eapply Ho. }
    match type of Hm with met ?L _ => destruct (alternative_met fuel alt c L s r s1 Ht) as (M1 & [X1 X1']) end; [|done|done|exact Hm|done|].
    { intros es e c' Ea He Hc'. apply element_met; try done. by eapply Ho. }
    match type of Hi' with prod_inv _ _ ?s' => set (s2 := s') in * end.
    assert (keeps s1 s2) as K2 by (intros [[]|] n; done).
    assert (keeps s2 s1) as K2' by (intros [[]|] n; done).
    pose proof (lk_mono v0 s1 s2 K2) as (_ & M2 & M3 & M4 & _).
    pose proof (lk_mono v0 s s2 (keeps_trans _ _ _ K1 K2)) as (_ & _ & _ & N4 & _).
    assert (same_generated R (ps_next_rule_id s1) (ps_productions s1) (ps_productions s2)) as Hsame.
    { intros n r' Hn. cbn [s2 ps_productions]. rewrite elem_of_union, elem_of_singleton. split; [auto|]. intros [[= -> _]|?]; [lia|done]. }
    split; [done|]. split.
    { split.
      - intros k n Hk. apply (wf_range _ _ _ _ Hw1 k). by apply K2'.
      - intros k k' n H1 H2. apply (wf_inj _ _ _ _ Hw1 k k' n); by apply K2'.
      - intros n Hn. destruct (wf_cover _ _ _ _ Hw1 n Hn) as [k Hk]. exists k. by apply K2.
      - intros k i n Hk. destruct (wf_suffix _ _ _ _ Hw1 k i n (K2' _ _ Hk)) as (a & b & it & ? & ? & ?). exists a, b, it. auto.
      - intros rs n Hk. destruct (wf_block _ _ _ _ Hw1 rs n (K2' _ _ Hk)) as (alts & sx & ? & ?). exists alts, sx. auto. }
    split.
    { rewrite map_app, concat_app. cbn [map concat snd]. rewrite app_nil_r. split.
      - intros p. cbn [s2 ps_productions ps_next_rule_id]. rewrite elem_of_union, elem_of_singleton.
        intros [->|Hp]; [simpl; pose proof (pi_next _ _ _ Hi1); lia|]. by apply (met_left _ _ M1).
      - intros rs n Hk. apply K2' in Hk. eapply rights_generated; [exact Hsame|by apply (wf_range _ _ _ _ Hw1 _ _ Hk)|by apply (met_block _ _ M1)].
      - intros k i n Hk. apply K2' in Hk. destruct (met_first _ _ M1 k i n Hk) as (L1 & a & it & L2 & EL & Ha & Ei & Hr & Hb).
        exists L1, a, it, L2. split_and!; [done|by apply M2|done| |].
        + eapply rights_generated; [exact Hsame|by apply (wf_range _ _ _ _ Hw1 _ _ Hk)|done].
        + intros a' Ha'. destruct (Hb a' Ha') as (it' & ? & ?). eauto.
      - intros k a Hka. destruct (met_seen _ _ M1 k a Hka) as (it & n & ? & ?). exists it, n. split; [by apply M2|by apply K2]. }
    cbn [s2 ps_productions ps_next_rule_id]. split.
    - intros id' r' Hid'. rewrite elem_of_union, elem_of_singleton. intros [[= -> ->]|Hp].
      + exists name, alt. split_and!; [apply elem_of_app; right; apply elem_of_list_here|done|by apply M4].
      + apply X1' in Hp; [|pose proof (pi_next _ _ _ Hi); lia]. destruct (Hsound id' r' Hid' Hp) as (n' & a' & ? & ? & ?).
        exists n', a'. split_and!; [apply elem_of_app; by left|done|by apply N4].
    - intros n' a'. rewrite elem_of_app, elem_of_list_singleton. intros [HL|[= -> ->]].
      + destruct (Hcomp n' a' HL) as (id' & r' & ? & Hp & ?). exists id', r'. split_and!; [done| |by apply N4].
        apply elem_of_union; right. apply X1'; [|done]. pose proof (met_left _ _ Hm _ Hp). done.
      + exists id, r. split_and!; [done|set_solver|by apply M4].
  Qed.
  Lemma rule_alternatives_met fuel name id alts cs : Forall2 alternative_tree alts cs -> forall D s s',
    done_rules D s -> nt_name_to_id v0 !! name = Some id ->
    (forall alt x, alt ∈ alts -> within_alternative x alt -> occurs x G) ->
    rfold (visit_rule_alternative fuel id) cs s = Ret s' -> done_rules (D ++ map (pair name) alts) s'.
  Proof using HR Hv0 Hlit.
    induction 1 as [|a c alts cs Ha _ IH]; intros D s s' HP Hname Hocc H; simpl in H.
    - injection H as <-. simpl. by rewrite app_nil_r.
    - destruct (visit_rule_alternative fuel id s c) as [s1| |] eqn:E; simpl in H; [|done|done].
      simpl. change ((name, a) :: map (pair name) alts) with ([(name, a)] ++ map (pair name) alts). rewrite app_assoc.
      apply (IH _ s1); [|done| |done].
      + eapply rule_alternative_met; eauto. intros x. apply Hocc, elem_of_list_here.
      + intros alt x Halt. apply Hocc. by apply elem_of_list_further.
  Qed.
  Lemma rules_met fuel rules cs : Forall2 (fun na c => rule_tree (ParserRule na.1 na.2) c) rules cs -> forall D s s',
    done_rules D s -> (forall name alts alt x, (name, alts) ∈ rules -> alt ∈ alts -> within_alternative x alt -> occurs x G) ->
    rfold (production_visit_parser_rule fuel) cs s = Ret s' ->
    done_rules (D ++ concat (map (fun na => map (pair na.1) na.2) rules)) s'.
  Proof using HR Hv0 Hlit.
    induction 1 as [|[name alts] c rules cs Ht _ IH]; intros D s s' HP Hocc H; simpl in H.
    - injection H as <-. simpl. by rewrite app_nil_r.
    - destruct (production_visit_parser_rule fuel s c) as [s1| |] eqn:E; simpl in H; [|done|done].
      cbn [map concat fst snd]. rewrite app_assoc. apply (IH _ s1); [| |done].
      + apply rule_view in Ht as (_ & (t & Et & Hn) & b & Eb & Hb). unfold production_visit_parser_rule in E. cbn [fst snd] in *.
        rewrite Et, Eb in E. simpl in E. unfold get_nonterminal_id_by_name in E. rewrite (pi_n1 _ _ _ (proj1 HP)), Hn in E.
        destruct (nt_name_to_id v0 !! name) as [id|] eqn:En; simpl in E; [|done].
        eapply rule_alternatives_met; [by apply block_alternatives|done|exact En| |exact E].
        intros alt x. apply (Hocc name), elem_of_list_here.
      + intros n' alts' alt x Hn'. apply (Hocc n'). by apply elem_of_list_further.
  Qed.
End first.
