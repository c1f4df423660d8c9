(** EbnfProofs.v -- the production pass on the tree of a grammar (C40, C42). *)
From Verif Require Export EbnfSymbols.

Scheme matches_element_mut := Minimality for matches_element Sort Prop
with matches_atom_mut := Minimality for matches_atom Sort Prop
with matches_alternative_mut := Minimality for matches_alternative Sort Prop
with matches_elements_mut := Minimality for matches_elements Sort Prop.

Combined Scheme matches_mut from matches_element_mut, matches_atom_mut, matches_alternative_mut, matches_elements_mut.

(** The right-hand sides of nonterminal n. *)
Definition rights (P : gset production) (n : nat) (rs : list (list item)) : Prop :=
  forall r, Production n r ∈ P <-> r ∈ rs.
Definition suffix_rights (k : SpecEbnf.suffix) (n : nat) (it : item) : list (list item) :=
  match k with
  | Star => [[it; NT n]; []]
  | Plus => [[it; NT n]; [it]]
  | Question => [[it]; []]
  end.

(** [tr_* ..]: what constructs are translated to. *)
Section translation.
  Context (v0 : vocabulary) (R : nat).
  Inductive tr_elem (P : gset production) (N : nat) : element -> item -> Prop :=
  | tr_plain a it : tr_atom P N a it -> tr_elem P N (Element a None) it
  | tr_suffix a it k b n : tr_atom P N a it -> R <= n < N -> rights P n (suffix_rights k n it) ->
      tr_elem P N (Element a (Some (k, b))) (NT n)
  with tr_atom (P : gset production) (N : nat) : atom -> item -> Prop :=
  | tr_token n t : t_name_to_id v0 !! n = Some t -> tr_atom P N (TokenRef n) (T t)
  | tr_rule n i : nt_name_to_id v0 !! n = Some i -> tr_atom P N (RuleRef n) (NT i)
  | tr_group alts n rs : tr_alts P N alts rs -> R <= n < N -> rights P n rs -> tr_atom P N (Group alts) (NT n)
  with tr_alts (P : gset production) (N : nat) : list alternative -> list (list item) -> Prop :=
  | tr_alts_nil : tr_alts P N [] []
  | tr_alts_cons a r alts rs : tr_alt P N a r -> tr_alts P N alts rs -> tr_alts P N (a :: alts) (r :: rs)
  with tr_alt (P : gset production) (N : nat) : alternative -> list item -> Prop :=
  | tr_epsilon : tr_alt P N Epsilon []
  | tr_sequence es its : tr_elems P N es its -> tr_alt P N (Sequence es) its
  with tr_elems (P : gset production) (N : nat) : list element -> list item -> Prop :=
  | tr_nil : tr_elems P N [] []
  | tr_cons e it es its : tr_elem P N e it -> tr_elems P N es its -> tr_elems P N (e :: es) (it :: its).
End translation.
Scheme tr_elem_mut := Minimality for tr_elem Sort Prop
with tr_atom_mut := Minimality for tr_atom Sort Prop
with tr_alts_mut := Minimality for tr_alts Sort Prop
with tr_alt_mut := Minimality for tr_alt Sort Prop
with tr_elems_mut := Minimality for tr_elems Sort Prop.
Combined Scheme tr_mut from tr_elem_mut, tr_atom_mut, tr_alts_mut, tr_alt_mut, tr_elems_mut.

Section simulation.
  Context (v0 : vocabulary) (R : nat) (G : list rule) (N : nat).
  Context (HR : forall i, i ∈ nonterminals v0 -> i < R) (Hv0 : vinv v0).
  Context (Hlit : forall l s, occurs (Element (StringLiteral l) s) G -> t_name_to_id v0 !! l = None).
  Notation inv := (prod_inv R v0).
  Notation tr_elem := (tr_elem v0 R).
  Notation tr_atom := (tr_atom v0 R).
  Notation tr_alts := (tr_alts v0 R).
  Notation tr_alt := (tr_alt v0 R).
  Notation tr_elems := (tr_elems v0 R).

  Definition item_id (it : item) : nat := match it with T t => t | NT n => n end.
  Definition allowed (k : SpecEbnf.suffix) (it : item) : Prop :=
    exists a b P M, occurs (Element a (Some (k, b))) G /\ M <= N /\ tr_atom P M a it.
  Context (Hinj : forall k it it', allowed k it -> allowed k it' -> item_id it = item_id it' -> it = it').

  (** P' has the same productions as P for the nonterminals below M; for the generated ones below M. *)
  Definition same_below (M : nat) (P P' : gset production) : Prop :=
    forall n r, n < M -> Production n r ∈ P <-> Production n r ∈ P'.
  Definition same_generated (M : nat) (P P' : gset production) : Prop :=
    forall n r, R <= n < M -> Production n r ∈ P <-> Production n r ∈ P'.
  Lemma same_below_generated M P P' : same_below M P P' -> same_generated M P P'.
  Proof using. intros H n r Hn. apply H. lia. Qed.
  Lemma rights_generated M P P' n rs : same_generated M P P' -> R <= n < M -> rights P n rs -> rights P' n rs.
  Proof using. intros H Hn Hr r. rewrite <- (H n r Hn). apply Hr. Qed.
  Lemma rights_same M P P' n rs : same_below M P P' -> n < M -> rights P n rs -> rights P' n rs.
  Proof using. intros H Hn Hr r. rewrite <- (H n r Hn). apply Hr. Qed.
  Lemma tr_mono_generated P P' M M' : same_generated M P P' -> M <= M' ->
    (forall e it, tr_elem P M e it -> tr_elem P' M' e it) /\
    (forall a it, tr_atom P M a it -> tr_atom P' M' a it) /\
    (forall a it, tr_alts P M a it -> tr_alts P' M' a it) /\
    (forall a it, tr_alt P M a it -> tr_alt P' M' a it) /\
    (forall e it, tr_elems P M e it -> tr_elems P' M' e it).
  Proof using.
    intros Hs HM. pose proof (tr_mut v0 R P M (tr_elem P' M') (tr_atom P' M') (tr_alts P' M') (tr_alt P' M') (tr_elems P' M')) as K.
    apply K; clear K; intros; try (by econstructor); econstructor; eauto; [lia|..]; try lia; eapply rights_generated; eauto; lia.
  Qed.
  Lemma tr_mono P P' M M' : same_below M P P' -> M <= M' ->
    (forall e it, tr_elem P M e it -> tr_elem P' M' e it) /\
    (forall a it, tr_atom P M a it -> tr_atom P' M' a it) /\
    (forall a it, tr_alts P M a it -> tr_alts P' M' a it) /\
    (forall a it, tr_alt P M a it -> tr_alt P' M' a it) /\
    (forall e it, tr_elems P M e it -> tr_elems P' M' e it).
  Proof using. intros H. apply tr_mono_generated. by apply same_below_generated. Qed.

  Definition cache_ok (k : SpecEbnf.suffix) (c : gmap nat nat) (s : production_state) : Prop :=
    forall id n, c !! id = Some n -> R <= n < ps_next_rule_id s /\
      exists it, item_id it = id /\ allowed k it /\ rights (ps_productions s) n (suffix_rights k n it).
  Record sem (s : production_state) : Prop := {
    sem_left : forall p, p ∈ ps_productions s -> left p < ps_next_rule_id s;
    sem_star : cache_ok Star (star_cache s) s;
    sem_plus : cache_ok Plus (plus_cache s) s;
    sem_question : cache_ok Question (question_cache s) s;
    sem_block : forall rs n, block_cache s !! rs = Some n -> R <= n < ps_next_rule_id s /\ rights (ps_productions s) n rs;
  }.
  Definition ext (s s' : production_state) : Prop :=
    ps_next_rule_id s <= ps_next_rule_id s' /\ same_below (ps_next_rule_id s) (ps_productions s) (ps_productions s').
  Lemma ext_refl s : ext s s.
  Proof using. split; [done|]. by intros n r. Qed.
  Lemma ext_trans s1 s2 s3 : ext s1 s2 -> ext s2 s3 -> ext s1 s3.
  Proof using. intros [A B] [C D]. split; [lia|]. intros n r Hn. rewrite (B n r Hn). apply D. lia. Qed.

  Lemma cache_mono k c s s' : ext s s' -> cache_ok k c s -> cache_ok k c s'.
  Proof using.
    intros [E1 E2] H id n Hc. destruct (H id n Hc) as (Hn & it & ? & ? & Hr). split; [lia|]. exists it. split_and!; [done|done|].
    eapply rights_same; [exact E2|lia|done].
  Qed.

  (** Making nonterminal next with right-hand sides rs. *)
  Lemma make_sem s s' rs : sem s ->
    (forall p, p ∈ ps_productions s' <-> p ∈ ps_productions s \/ (left p = ps_next_rule_id s /\ right p ∈ rs)) ->
    ps_next_rule_id s' = S (ps_next_rule_id s) ->
    ext s s' /\ rights (ps_productions s') (ps_next_rule_id s) rs /\ (forall p, p ∈ ps_productions s' -> left p < ps_next_rule_id s').
  Proof using.
    intros Hs HP Hn. split_and!.
    - split; [lia|]. intros n r Hlt. rewrite HP. simpl. split; [auto|]. intros [?|[? _]]; [done|lia].
    - intros r. rewrite HP. simpl. split; [|auto]. intros [Hp|[_ ?]]; [|done]. apply (sem_left _ Hs) in Hp. simpl in Hp. lia.
    - intros p. rewrite HP, Hn. intros [Hp|[-> _]]; [|lia]. apply (sem_left _ Hs) in Hp. lia.
  Qed.
  Lemma two_productions n r1 r2 P p : p ∈ ({[Production n r1]} ∪ ({[Production n r2]} ∪ P) : gset production) <->
    p ∈ P \/ (left p = n /\ right p ∈ [r1; r2]).
  Proof using.
    rewrite !elem_of_union, !elem_of_singleton, !elem_of_cons. destruct p as [l r]; simpl. split.
    - intros [[= -> ->]|[[= -> ->]|?]]; auto.
    - intros [?|(-> & [->|[->|?%elem_of_nil]])]; auto. done.
  Qed.

  Lemma insert_cache_ok k c s s' id n it : ext s s' -> cache_ok k c s -> R <= n < ps_next_rule_id s' ->
    item_id it = id -> allowed k it -> rights (ps_productions s') n (suffix_rights k n it) ->
    cache_ok k (<[id := n]> c) s'.
  Proof using.
    intros He Hc Hn Hid Ha Hr id' n'. rewrite lookup_insert_Some. intros [[<- <-]|[_ Hc']].
    - split; [done|]. eauto.
    - by apply (cache_mono k c s s' He Hc).
  Qed.

  Lemma suffix_sem s k it it' s' : inv s -> sem s -> allowed k it ->
    match k with Star => apply_star | Plus => apply_plus | Question => apply_question end (item_id it) it s = (it', s') ->
    sem s' /\ ext s s' /\ exists n, it' = NT n /\ R <= n < ps_next_rule_id s' /\ rights (ps_productions s') n (suffix_rights k n it).
  Proof using Hinj.
    intros Hi Hs Ha H. pose proof (pi_next _ _ _ Hi) as HN.
    assert (Hit : forall c n, cache_ok k c s -> c !! item_id it = Some n ->
      R <= n < ps_next_rule_id s /\ rights (ps_productions s) n (suffix_rights k n it)).
    { intros c n Hc Hl. destruct (Hc _ _ Hl) as (? & it0 & E & Ha0 & Hr). by rewrite <- (Hinj k it0 it Ha0 Ha E). }
    destruct k.
    - unfold apply_star in H. destruct (star_cache s !! item_id it) as [n|] eqn:E; injection H as <- <-.
      + split_and!; [done|apply ext_refl|]. destruct (Hit _ _ (sem_star _ Hs) E). eauto.
      + match goal with |- sem ?s' /\ _ => destruct (make_sem s s' [[it; NT (ps_next_rule_id s)]; []] Hs) as (He & Hr & Hl) end;
          [intros p; apply two_productions|done|].
        cbn [ps_next_rule_id] in *.
        split_and!; [|done|exists (ps_next_rule_id s); split_and!; [done|lia|cbn [ps_next_rule_id]; lia|done]].
        split; cbn [star_cache plus_cache question_cache block_cache].
        * done.
        * eapply (insert_cache_ok _ _ s); [done|apply Hs|cbn [ps_next_rule_id]; lia|done|done|done].
        * eapply cache_mono; [done|apply Hs].
        * eapply cache_mono; [done|apply Hs].
        * intros rs n Hb. destruct (sem_block _ Hs rs n Hb). split; [cbn [ps_next_rule_id]; lia|]. eapply rights_same; [apply He|lia|done].
    - unfold apply_plus in H. destruct (plus_cache s !! item_id it) as [n|] eqn:E; injection H as <- <-.
      + split_and!; [done|apply ext_refl|]. destruct (Hit _ _ (sem_plus _ Hs) E). eauto.
      + match goal with |- sem ?s' /\ _ => destruct (make_sem s s' [[it; NT (ps_next_rule_id s)]; [it]] Hs) as (He & Hr & Hl) end;
          [intros p; apply two_productions|done|].
        cbn [ps_next_rule_id] in *.
        split_and!; [|done|exists (ps_next_rule_id s); split_and!; [done|lia|cbn [ps_next_rule_id]; lia|done]].
        split; cbn [star_cache plus_cache question_cache block_cache].
        * done.
        * eapply cache_mono; [done|apply Hs].
        * eapply (insert_cache_ok _ _ s); [done|apply Hs|cbn [ps_next_rule_id]; lia|done|done|done].
        * eapply cache_mono; [done|apply Hs].
        * intros rs n Hb. destruct (sem_block _ Hs rs n Hb). split; [cbn [ps_next_rule_id]; lia|]. eapply rights_same; [apply He|lia|done].
    - unfold apply_question in H. destruct (question_cache s !! item_id it) as [n|] eqn:E; injection H as <- <-.
      + split_and!; [done|apply ext_refl|]. destruct (Hit _ _ (sem_question _ Hs) E). eauto.
      + match goal with |- sem ?s' /\ _ => destruct (make_sem s s' [[it]; []] Hs) as (He & Hr & Hl) end;
          [intros p; apply two_productions|done|].
        cbn [ps_next_rule_id] in *.
        split_and!; [|done|exists (ps_next_rule_id s); split_and!; [done|lia|cbn [ps_next_rule_id]; lia|done]].
        split; cbn [star_cache plus_cache question_cache block_cache].
        * done.
        * eapply cache_mono; [done|apply Hs].
        * eapply cache_mono; [done|apply Hs].
        * eapply (insert_cache_ok _ _ s); [done|apply Hs|cbn [ps_next_rule_id]; lia|done|done|done].
        * intros rs n Hb. destruct (sem_block _ Hs rs n Hb). split; [cbn [ps_next_rule_id]; lia|]. eapply rights_same; [apply He|lia|done].
  Qed.

  Lemma block_sem s rs id s' : inv s -> sem s -> make_block rs s = (id, s') ->
    sem s' /\ ext s s' /\ R <= id < ps_next_rule_id s' /\ rights (ps_productions s') id rs.
  Proof using.
    intros Hi Hs H. pose proof (pi_next _ _ _ Hi) as HN. unfold make_block in H.
    destruct (block_cache s !! rs) as [n|] eqn:E; injection H as <- <-.
    - destruct (sem_block _ Hs rs n E). split_and!; try done; try lia; try apply ext_refl.
    - match goal with |- sem ?s' /\ _ => destruct (make_sem s s' rs Hs) as (He & Hr & Hl) end;
        [intros p; cbn [ps_productions]; apply elem_of_insert_productions|done|].
      cbn [ps_next_rule_id] in *. split_and!; [|done|lia|lia|done].
      split; cbn [star_cache plus_cache question_cache block_cache]; try done; try (eapply cache_mono; [done|apply Hs]).
      intros rs' n Hb. apply lookup_insert_Some in Hb as [[<- <-]|[_ Hb]]; [split; [cbn [ps_next_rule_id]; lia|done]|].
      destruct (sem_block _ Hs rs' n Hb). split; [cbn [ps_next_rule_id]; lia|]. eapply rights_same; [apply He|lia|done].
  Qed.

  Definition elem_sim (f : rule_ctx -> production_state -> res (item * production_state)) (e : element) (c : rule_ctx) : Prop :=
    forall s it s', inv s -> sem s -> f c s = Ret (it, s') -> ps_next_rule_id s' <= N ->
    sem s' /\ ext s s' /\ tr_elem (ps_productions s') (ps_next_rule_id s') e it.

  Lemma next_mono fuel c s it s' : inv s -> visit_element fuel c s = Ret (it, s') -> inv s' /\ ps_next_rule_id s <= ps_next_rule_id s'.
  Proof using HR Hv0.
    intros Hi H. destruct (element_inv R v0 HR Hv0 fuel c s it s' Hi H) as (Hi' & Hg & _). split; [done|].
    destruct (decide (ps_next_rule_id s <= ps_next_rule_id s')) as [|Hlt]; [done|]. exfalso.
    pose proof (pi_next _ _ _ Hi'). assert (ps_next_rule_id s' ∈ nonterminals (ps_vocabulary s')) as K.
    { apply Hg. apply (pi_n3 _ _ _ Hi). right. lia. }
    apply (pi_n3 _ _ _ Hi') in K as [K|K]; [|lia]. apply HR in K. lia.
  Qed.
  Lemma elements_mono fuel cs s its s' : inv s -> visit_elements (visit_element fuel) cs s = Ret (its, s') -> inv s' /\ ps_next_rule_id s <= ps_next_rule_id s'.
  Proof using HR Hv0.
    revert s its. induction cs as [|c cs IH]; intros s its Hi H; simpl in H; [injection H as <- <-; done|].
    destruct (visit_element fuel c s) as [[it s1]| |] eqn:E; simpl in H; [|done|done].
    destruct (visit_elements _ cs s1) as [[its' s2]| |] eqn:E2; simpl in H; [|done|done]. injection H as <- <-.
    destruct (next_mono _ _ _ _ _ Hi E) as [Hi1 ?]. destruct (IH _ _ Hi1 E2). split; [done|lia].
  Qed.
  Lemma alternative_mono fuel c s its s' : inv s -> visit_alternative (visit_element fuel) c s = Ret (its, s') -> inv s' /\ ps_next_rule_id s <= ps_next_rule_id s'.
  Proof using HR Hv0.
    intros Hi. unfold visit_alternative. destruct (alternative_epsilon c); [intros [= <- <-]; done|]. by apply elements_mono.
  Qed.
  Lemma alternatives_mono fuel cs s its s' : inv s -> visit_alternatives (visit_element fuel) cs s = Ret (its, s') -> inv s' /\ ps_next_rule_id s <= ps_next_rule_id s'.
  Proof using HR Hv0.
    revert s its. induction cs as [|c cs IH]; intros s its Hi H; simpl in H; [injection H as <- <-; done|].
    destruct (visit_alternative _ c s) as [[it s1]| |] eqn:E; simpl in H; [|done|done].
    destruct (visit_alternatives _ cs s1) as [[its' s2]| |] eqn:E2; simpl in H; [|done|done]. injection H as <- <-.
    destruct (alternative_mono _ _ _ _ _ Hi E) as [Hi1 ?]. destruct (IH _ _ Hi1 E2). split; [done|lia].
  Qed.

  Lemma elements_sim fuel es cs s its s' : Forall2 (elem_sim (visit_element fuel)) es cs -> inv s -> sem s ->
    visit_elements (visit_element fuel) cs s = Ret (its, s') -> ps_next_rule_id s' <= N ->
    sem s' /\ ext s s' /\ tr_elems (ps_productions s') (ps_next_rule_id s') es its.
  Proof using HR Hv0.
    intros HF. revert s its. induction HF as [|e c es cs He _ IH]; intros s its Hi Hs H HN; simpl in H.
    - injection H as <- <-. split_and!; [done|apply ext_refl|constructor].
    - destruct (visit_element fuel c s) as [[it s1]| |] eqn:E; simpl in H; [|done|done].
      destruct (visit_elements _ cs s1) as [[its' s2]| |] eqn:E2; simpl in H; [|done|done]. injection H as <- <-.
      destruct (next_mono _ _ _ _ _ Hi E) as [Hi1 _]. destruct (elements_mono _ _ _ _ _ Hi1 E2) as [Hi2 ?].
      destruct (He s it s1 Hi Hs E) as (Hs1 & X1 & T1); [lia|]. destruct (IH s1 its' Hi1 Hs1 E2 HN) as (Hs2 & X2 & T2).
      split_and!; [done|by eapply ext_trans|]. constructor; [|done].
      destruct X2 as [X2 X2']. by apply (proj1 (tr_mono _ _ _ _ X2' X2)).
  Qed.
  Lemma alternative_sim fuel a c s its s' : alternative_tree a c ->
    (forall es e c', a = Sequence es -> e ∈ es -> element_tree e c' -> elem_sim (visit_element fuel) e c') -> inv s -> sem s ->
    visit_alternative (visit_element fuel) c s = Ret (its, s') -> ps_next_rule_id s' <= N ->
    sem s' /\ ext s s' /\ tr_alt (ps_productions s') (ps_next_rule_id s') a its.
  Proof using HR Hv0.
    intros Ht HF Hi Hs H HN. apply alternative_view in Ht. unfold visit_alternative in H. destruct a as [|es].
    - destruct Ht as [x Ex]. rewrite Ex in H. injection H as <- <-. split_and!; [done|apply ext_refl|constructor].
    - destruct Ht as [Ex Ht]. rewrite Ex in H.
      assert (Forall2 (elem_sim (visit_element fuel)) es (element_list c)) as HF'.
      { assert (forall e c', e ∈ es -> element_tree e c' -> elem_sim (visit_element fuel) e c') as HF1 by (intros e c'; by apply HF).
        clear -Ht HF1. induction Ht as [|e c' es cs' He _ IH]; constructor.
        - apply HF1; [apply elem_of_list_here|done].
        - apply IH. intros e' c0 He'. apply HF1. by apply elem_of_list_further. }
      destruct (elements_sim fuel es (element_list c) s its s' HF' Hi Hs H HN) as (? & ? & ?). split_and!; [done|done|by constructor].
  Qed.
  Lemma alternatives_sim fuel alts cs s rs s' : Forall2 alternative_tree alts cs ->
    (forall a es e c', a ∈ alts -> a = Sequence es -> e ∈ es -> element_tree e c' -> elem_sim (visit_element fuel) e c') -> inv s -> sem s ->
    visit_alternatives (visit_element fuel) cs s = Ret (rs, s') -> ps_next_rule_id s' <= N ->
    sem s' /\ ext s s' /\ tr_alts (ps_productions s') (ps_next_rule_id s') alts rs.
  Proof using HR Hv0.
    intros Ht. revert s rs. induction Ht as [|a c alts cs Ha _ IH]; intros s rs HF Hi Hs H HN; simpl in H.
    - injection H as <- <-. split_and!; [done|apply ext_refl|constructor].
    - destruct (visit_alternative _ c s) as [[r s1]| |] eqn:E; simpl in H; [|done|done].
      destruct (visit_alternatives _ cs s1) as [[rs' s2]| |] eqn:E2; simpl in H; [|done|done]. injection H as <- <-.
      destruct (alternative_mono _ _ _ _ _ Hi E) as [Hi1 _]. destruct (alternatives_mono _ _ _ _ _ Hi1 E2) as [Hi2 ?].
      destruct (alternative_sim fuel a c s r s1 Ha) as (Hs1 & X1 & T1); [|done|done|done|lia|].
      { intros es e c' -> He. eapply HF; [apply elem_of_list_here|done|done]. }
      destruct (IH s1 rs') as (Hs2 & X2 & T2); [|done|done|done|done|].
      { intros a' es e c' Ha'. apply HF. by apply elem_of_list_further. }
      split_and!; [done|by eapply ext_trans|]. constructor; [|done].
      destruct X2 as [X2 X2']. by apply (proj1 (proj2 (proj2 (proj2 (tr_mono _ _ _ _ X2' X2))))).
  Qed.

  (** The suffix part. *)
  Lemma apply_suffix_sim a sx c s it it' s' : element_view (Element a sx) c -> (forall k b, sx = Some (k, b) -> occurs (Element a (Some (k, b))) G) ->
    inv s -> sem s -> tr_atom (ps_productions s) (ps_next_rule_id s) a it -> ps_next_rule_id s <= N ->
    apply_suffix c (item_id it) it s = (it', s') ->
    sem s' /\ ext s s' /\ tr_elem (ps_productions s') (ps_next_rule_id s') (Element a sx) it'.
  Proof using Hinj.
    intros [_ Hx] Hocc Hi Hs Ht HN H. unfold apply_suffix in H. destruct sx as [[k b]|].
    - destruct Hx as (x & Ex & Hk). rewrite Ex in H.
      assert (allowed k it) as Hal by (exists a, b, (ps_productions s), (ps_next_rule_id s); auto).
      destruct (suffix_sem s k it it' s' Hi Hs Hal) as (Hs' & X & n & -> & Hn & Hr).
      { destruct k.
        - destruct Hk as [t Et]. by rewrite Et in H.
        - destruct Hk as [E [t Et]]. by rewrite E, Et in H.
        - destruct Hk as [E Et]. by rewrite E, Et in H. }
      split_and!; [done|done|]. econstructor; [|done|done].
      destruct X as [X X']. by apply (proj1 (proj2 (tr_mono _ _ _ _ X' X))).
    - rewrite Hx in H. injection H as <- <-. split_and!; [done|apply ext_refl|by constructor].
  Qed.

  Lemma suffix_next c id it s it' s' : apply_suffix c id it s = (it', s') -> ps_next_rule_id s <= ps_next_rule_id s'.
  Proof using.
    unfold apply_suffix, apply_star, apply_plus, apply_question. repeat case_match; intros [= <- <-]; simpl; lia.
  Qed.
  Lemma block_next rs s id s' : make_block rs s = (id, s') -> ps_next_rule_id s <= ps_next_rule_id s'.
  Proof using. unfold make_block. case_match; intros [= <- <-]; simpl; lia. Qed.

  Lemma element_sim fuel : forall e c, element_tree e c -> (forall x, within_element x e -> occurs x G) -> elem_sim (visit_element fuel) e c.
  Proof using HR Hv0 Hinj Hlit.
    induction fuel as [|fuel IH]; intros e c Ht Hocc s it s' Hi Hs H HN; [done|]. cbn [visit_element] in H.
    pose proof (element_tree_view _ _ Ht) as Hview. destruct e as [a sx].
    assert (Hocc' : forall k b, sx = Some (k, b) -> occurs (Element a (Some (k, b))) G).
    { intros k b ->. apply Hocc. constructor. }
    pose proof Hview as [Hv _]. destruct a as [name|l|name|alts].
    - destruct Hv as (_ & t & Et & <-). rewrite Et in H. unfold get_terminal_id_by_name in H. rewrite (pi_t1 _ _ _ Hi) in H.
      destruct (t_name_to_id v0 !! text t) as [id|] eqn:E; simpl in H; [|done]. injection H as H. pose proof (suffix_next _ _ _ _ _ _ H).
      eapply (apply_suffix_sim (TokenRef (text t)) sx c s (T id)); eauto; [by constructor|lia].
    - exfalso. destruct Hv as (E1 & t & Et & <-). rewrite E1, Et in H. unfold get_terminal_id_by_name in H. rewrite (pi_t1 _ _ _ Hi) in H.
      rewrite (Hlit (text t) sx) in H by (apply Hocc; constructor). done.
    - destruct Hv as (E1 & E2 & t & Et & <-). rewrite E1, E2, Et in H. unfold get_nonterminal_id_by_name in H. rewrite (pi_n1 _ _ _ Hi) in H.
      destruct (nt_name_to_id v0 !! text t) as [id|] eqn:E; simpl in H; [|done]. injection H as H. pose proof (suffix_next _ _ _ _ _ _ H).
      eapply (apply_suffix_sim (RuleRef (text t)) sx c s (NT id)); eauto; [by constructor|lia].
    - destruct Hv as (E1 & E2 & E3 & b & Eb & Hb). rewrite E1, E2, E3, Eb in H. unfold visit_block in H.
      destruct (visit_alternatives (visit_element fuel) (alternative_list b) s) as [[rs s1]| |] eqn:Ea; simpl in H; [|done|done].
      destruct (make_block rs s1) as [id s2] eqn:Em. injection H as H.
      pose proof (suffix_next _ _ _ _ _ _ H). pose proof (block_next _ _ _ _ Em).
      destruct (alternatives_mono _ _ _ _ _ Hi Ea) as [Hi1 _].
      destruct (alternatives_sim fuel alts (alternative_list b) s rs s1) as (Hs1 & X1 & T1); [by apply block_alternatives| |done|done|done|lia|].
      { intros a es e c' Ha Hes He Hc'. apply IH; [done|]. intros x Hx. apply Hocc. by eapply within_group_elem. }
      destruct (block_sem s1 rs id s2 Hi1 Hs1 Em) as (Hs2 & X2 & Hid & Hr).
      destruct (alternatives_inv R v0 (visit_element fuel) (alternative_list b) s rs s1 (element_inv R v0 HR Hv0 fuel) Hi Ea) as (_ & _ & K1).
      destruct (block_inv R v0 HR Hv0 rs s1 id s2 Hi1 K1 Em) as (Hi2 & _ & _).
      destruct (apply_suffix_sim (Group alts) sx c s2 (NT id) it s' Hview Hocc' Hi2 Hs2) as (Hs3 & X3 & T3).
      + econstructor; [|done|done]. destruct X2 as [X2 X2']. by apply (proj1 (proj2 (proj2 (tr_mono _ _ _ _ X2' X2)))).
      + lia.
      + done.
      + split_and!; [done| |done]. eapply ext_trans; [exact X1|]. by eapply ext_trans.
  Qed.

  (** *** Rules *)
  Definition processed (L : list (str * alternative)) (s : production_state) : Prop :=
    inv s /\ sem s /\
    (forall id r, id < R -> Production id r ∈ ps_productions s -> exists name alt, (name, alt) ∈ L /\
       nt_name_to_id v0 !! name = Some id /\ tr_alt (ps_productions s) (ps_next_rule_id s) alt r) /\
    (forall name alt, (name, alt) ∈ L -> exists id r, nt_name_to_id v0 !! name = Some id /\
       Production id r ∈ ps_productions s /\ tr_alt (ps_productions s) (ps_next_rule_id s) alt r).

  Lemma named_below name id : nt_name_to_id v0 !! name = Some id -> id ∈ nonterminals v0 /\ id < R.
  Proof using HR Hv0.
    intros H. assert (id ∈ nonterminals v0) by (apply (vi_nd _ Hv0); exists name; by apply (vi_n _ Hv0)). split; [done|by apply HR].
  Qed.
  Lemma add_sem s id r : inv s -> sem s -> id < R ->
    let s' := {| ps_vocabulary := ps_vocabulary s; ps_productions := {[ Production id r ]} ∪ ps_productions s;
         ps_next_rule_id := ps_next_rule_id s; block_cache := block_cache s; star_cache := star_cache s;
         plus_cache := plus_cache s; question_cache := question_cache s |} in
    sem s' /\ same_generated (ps_next_rule_id s) (ps_productions s) (ps_productions s').
  Proof using.
    intros Hi Hs Hid s'. assert (same_generated (ps_next_rule_id s) (ps_productions s) (ps_productions s')) as Hsame.
    { intros n r' Hn. simpl. rewrite elem_of_union, elem_of_singleton. split; [auto|]. intros [[= -> _]|?]; [lia|done]. }
    split; [|done]. assert (forall k c, cache_ok k c s -> cache_ok k c s') as Hc.
    { intros k c H i n Hl. destruct (H i n Hl) as (Hn & it & ? & ? & Hr). split; [done|]. exists it. split_and!; [done|done|].
      eapply rights_generated; [exact Hsame|done|done]. }
    split; simpl; try (apply Hc; apply Hs).
    - intros p. rewrite elem_of_union, elem_of_singleton. intros [->|Hp]; [simpl; pose proof (pi_next _ _ _ Hi); lia|]. by apply (sem_left _ Hs).
    - intros rs n Hb. destruct (sem_block _ Hs rs n Hb) as [? Hr]. split; [done|]. eapply rights_generated; [exact Hsame|done|done].
  Qed.

  Lemma rule_alternative_inv fuel id s c s' : inv s -> id ∈ nonterminals v0 -> visit_rule_alternative fuel id s c = Ret s' ->
    inv s' /\ ps_next_rule_id s <= ps_next_rule_id s'.
  Proof using HR Hv0.
    intros Hi Hid H. unfold visit_rule_alternative in H.
    destruct (visit_alternative (visit_element fuel) c s) as [[r' s2]| |] eqn:E; simpl in H; [|done|done]. injection H as <-.
    destruct (alternative_inv R v0 _ _ _ _ _ (element_inv R v0 HR Hv0 fuel) Hi E) as (Hi2 & G2 & K2).
    destruct (alternative_mono fuel c s r' s2 Hi E) as [_ Hle]. split; [|done].
    pose proof (pi_n3 _ _ _ Hi2 id) as Hid2. destruct Hi2. split; simpl; auto.
    intros q. rewrite elem_of_union, elem_of_singleton. intros [->|Hq]; [|auto]. simpl. split; [|done]. apply Hid2. by left.
  Qed.

  Lemma rule_alternative_sim fuel L name id alt c s s' : processed L s -> nt_name_to_id v0 !! name = Some id ->
    alternative_tree alt c -> (forall x, within_alternative x alt -> occurs x G) ->
    visit_rule_alternative fuel id s c = Ret s' -> ps_next_rule_id s' <= N -> processed (L ++ [(name, alt)]) s'.
  Proof using HR Hv0 Hinj Hlit.
    intros (Hi & Hs & Hsound & Hcomp) Hname Ht Hocc H HN.
    destruct (named_below _ _ Hname) as [Hid HidR]. destruct (rule_alternative_inv _ _ _ _ _ Hi Hid H) as [Hi' _].
    unfold visit_rule_alternative in H.
    destruct (visit_alternative (visit_element fuel) c s) as [[r s1]| |] eqn:E; simpl in H; [|done|done]. injection H as <-. cbn [ps_next_rule_id] in HN.
    destruct (alternative_mono _ _ _ _ _ Hi E) as [Hi1 _].
    destruct (alternative_sim fuel alt c s r s1 Ht) as (Hs1 & [X1 X1'] & T1); [|done|done|done|done|].
    { intros es e c' -> He Hc'. apply element_sim; [done|]. intros x Hx. apply Hocc. by econstructor. }
    destruct (add_sem s1 id r Hi1 Hs1 HidR) as [Hs2 Hsame].
    assert (Hmono : forall a it, tr_alt (ps_productions s1) (ps_next_rule_id s1) a it ->
      tr_alt ({[ Production id r ]} ∪ ps_productions s1) (ps_next_rule_id s1) a it).
    { apply (tr_mono_generated _ _ _ _ Hsame (le_n _)). }
    assert (Hmono0 : forall a it, tr_alt (ps_productions s) (ps_next_rule_id s) a it ->
      tr_alt ({[ Production id r ]} ∪ ps_productions s1) (ps_next_rule_id s1) a it).
    { intros a it Hit. apply Hmono. revert a it Hit. apply (tr_mono _ _ _ _ X1' X1). }
    split; [done|]. split; [done|]. cbn [ps_productions ps_next_rule_id]. split.
    - intros id' r' Hid'. rewrite elem_of_union, elem_of_singleton. intros [[= -> ->]|Hp].
      + exists name, alt. split_and!; [apply elem_of_app; right; apply elem_of_list_here|done|by apply Hmono].
      + apply X1' in Hp; [|pose proof (pi_next _ _ _ Hi); lia]. destruct (Hsound id' r' Hid' Hp) as (n' & a' & ? & ? & ?).
        exists n', a'. split_and!; [apply elem_of_app; by left|done|by apply Hmono0].
    - intros n' a'. rewrite elem_of_app, elem_of_list_singleton. intros [HL|[= -> ->]].
      + destruct (Hcomp n' a' HL) as (id' & r' & ? & Hp & ?). exists id', r'. split_and!; [done| |by apply Hmono0].
        apply elem_of_union; right. apply X1'; [|done]. pose proof (sem_left _ Hs _ Hp). done.
      + exists id, r. split_and!; [done|set_solver|by apply Hmono].
  Qed.

  Lemma rule_alternatives_mono fuel id cs s s' : inv s -> id ∈ nonterminals v0 -> rfold (visit_rule_alternative fuel id) cs s = Ret s' ->
    inv s' /\ ps_next_rule_id s <= ps_next_rule_id s'.
  Proof using HR Hv0.
    revert s. induction cs as [|c cs IH]; intros s Hi Hid H; simpl in H; [by injection H as <-|].
    destruct (visit_rule_alternative fuel id s c) as [s1| |] eqn:E; simpl in H; [|done|done].
    destruct (rule_alternative_inv _ _ _ _ _ Hi Hid E) as [Hi1 ?]. destruct (IH _ Hi1 Hid H). split; [done|lia].
  Qed.
  Lemma rule_alternatives_sim fuel name id alts cs : Forall2 alternative_tree alts cs -> forall L s s',
    processed L s -> nt_name_to_id v0 !! name = Some id ->
    (forall alt x, alt ∈ alts -> within_alternative x alt -> occurs x G) ->
    rfold (visit_rule_alternative fuel id) cs s = Ret s' -> ps_next_rule_id s' <= N -> processed (L ++ map (pair name) alts) s'.
  Proof using HR Hv0 Hinj Hlit.
    induction 1 as [|a c alts cs Ha _ IH]; intros L s s' HP Hname Hocc H HN; simpl in H.
    - injection H as <-. simpl. by rewrite app_nil_r.
    - destruct (visit_rule_alternative fuel id s c) as [s1| |] eqn:E; simpl in H; [|done|done].
      destruct (named_below _ _ Hname) as [Hid _]. destruct (rule_alternative_inv _ _ _ _ _ (proj1 HP) Hid E) as [Hi1 _].
      destruct (rule_alternatives_mono _ _ _ _ _ Hi1 Hid H).
      simpl. change ((name, a) :: map (pair name) alts) with ([(name, a)] ++ map (pair name) alts). rewrite app_assoc.
      apply (IH _ s1); [|done| |done|done].
      + eapply rule_alternative_sim; eauto; [|lia]. intros x. apply Hocc, elem_of_list_here.
      + intros alt x Halt. apply Hocc. by apply elem_of_list_further.
  Qed.

  Lemma rule_inv fuel c s s' : inv s -> production_visit_parser_rule fuel s c = Ret s' -> inv s' /\ ps_next_rule_id s <= ps_next_rule_id s'.
  Proof using HR Hv0.
    unfold production_visit_parser_rule. intros Hi H.
    destruct (parser_rule_rule_ref c) as [t|]; simpl in H; [|done]. unfold get_nonterminal_id_by_name in H. rewrite (pi_n1 _ _ _ Hi) in H.
    destruct (nt_name_to_id v0 !! text t) as [id|] eqn:E; simpl in H; [|done].
    destruct (parser_rule_block c) as [b|]; simpl in H; [|done]. destruct (named_below _ _ E) as [Hid _].
    by eapply rule_alternatives_mono.
  Qed.
  Lemma rules_mono fuel cs s s' : inv s -> rfold (production_visit_parser_rule fuel) cs s = Ret s' -> inv s' /\ ps_next_rule_id s <= ps_next_rule_id s'.
  Proof using HR Hv0.
    revert s. induction cs as [|c cs IH]; intros s Hi H; simpl in H; [by injection H as <-|].
    destruct (production_visit_parser_rule fuel s c) as [s1| |] eqn:E; simpl in H; [|done|done].
    destruct (rule_inv _ _ _ _ Hi E) as [Hi1 ?]. destruct (IH _ Hi1 H). split; [done|lia].
  Qed.
  Lemma rules_sim fuel rules cs : Forall2 (fun na c => rule_tree (ParserRule na.1 na.2) c) rules cs -> forall L s s',
    processed L s -> (forall name alts alt x, (name, alts) ∈ rules -> alt ∈ alts -> within_alternative x alt -> occurs x G) ->
    rfold (production_visit_parser_rule fuel) cs s = Ret s' -> ps_next_rule_id s' <= N ->
    processed (L ++ concat (map (fun na => map (pair na.1) na.2) rules)) s'.
  Proof using HR Hv0 Hinj Hlit.
    induction 1 as [|[name alts] c rules cs Ht _ IH]; intros L s s' HP Hocc H HN; simpl in H.
    - injection H as <-. simpl. by rewrite app_nil_r.
    - destruct (production_visit_parser_rule fuel s c) as [s1| |] eqn:E; simpl in H; [|done|done].
      destruct (rule_inv _ _ _ _ (proj1 HP) E) as [Hi1 _]. destruct (rules_mono _ _ _ _ Hi1 H).
      cbn [map concat fst snd]. rewrite app_assoc. apply (IH _ s1); [| |done|done].
      + apply rule_view in Ht as (_ & (t & Et & Hn) & b & Eb & Hb). unfold production_visit_parser_rule in E. cbn [fst snd] in *.
        rewrite Et, Eb in E. simpl in E. unfold get_nonterminal_id_by_name in E. rewrite (pi_n1 _ _ _ (proj1 HP)), Hn in E.
        destruct (nt_name_to_id v0 !! name) as [id|] eqn:En; simpl in E; [|done].
        eapply rule_alternatives_sim; [by apply block_alternatives|done|exact En| |exact E|lia].
        intros alt x. apply (Hocc name), elem_of_list_here.
      + intros n' alts' alt x Hn'. apply (Hocc n'). by apply elem_of_list_further.
  Qed.
End simulation.

(** ** The languages agree *)
Section language.
  Context (v0 : vocabulary) (R : nat) (G : list rule) (P : gset production) (N : nat).
  Context (HR : forall name id, nt_name_to_id v0 !! name = Some id -> id < R) (Hv0 : vinv v0).
  Notation tr_elem := (tr_elem v0 R P N).
  Notation tr_atom := (tr_atom v0 R P N).
  Notation tr_alts := (tr_alts v0 R P N).
  Notation tr_alt := (tr_alt v0 R P N).
  Notation tr_elems := (tr_elems v0 R P N).
  Context (Hsound : forall id r, id < R -> Production id r ∈ P -> exists name alts alt, ParserRule name alts ∈ G /\ alt ∈ alts /\
       nt_name_to_id v0 !! name = Some id /\ tr_alt alt r).
  Context (Hcomp : forall name alts alt, ParserRule name alts ∈ G -> alt ∈ alts -> exists id r, nt_name_to_id v0 !! name = Some id /\
       Production id r ∈ P /\ tr_alt alt r).

  Definition named_as (names : list str) (ids : list nat) : Prop := Forall2 (fun n i => t_name_to_id v0 !! n = Some i) names ids.

  Lemma tr_alts_alt alts rs alt : tr_alts alts rs -> alt ∈ alts -> exists r, r ∈ rs /\ tr_alt alt r.
  Proof using.
    induction 1 as [|a r alts rs Ha _ IH]; [by intros ?%elem_of_nil|]. intros [->|H]%elem_of_cons.
    - exists r. split; [apply elem_of_list_here|done].
    - destruct (IH H) as (r' & ? & ?). exists r'. split; [by apply elem_of_list_further|done].
  Qed.
  Lemma tr_alts_right alts rs r : tr_alts alts rs -> r ∈ rs -> exists alt, alt ∈ alts /\ tr_alt alt r.
  Proof using.
    induction 1 as [|a r' alts rs Ha _ IH]; [by intros ?%elem_of_nil|]. intros [->|H]%elem_of_cons.
    - exists a. split; [apply elem_of_list_here|done].
    - destruct (IH H) as (a' & ? & ?). exists a'. split; [by apply elem_of_list_further|done].
  Qed.
  Lemma derives_by n r ids : Production n r ∈ P -> derives P r (map T ids) -> derives P [NT n] (map T ids).
  Proof using. intros Hp Hd. eapply derives_trans; [exact (derives_prod P (Production n r) Hp)|exact Hd]. Qed.

  Lemma matches_derives :
    (forall e w, matches_element G e w -> forall it, tr_elem e it -> exists ids, named_as w ids /\ derives P [it] (map T ids)) /\
    (forall a w, matches_atom G a w -> forall it, tr_atom a it -> exists ids, named_as w ids /\ derives P [it] (map T ids)) /\
    (forall a w, matches_alternative G a w -> forall its, tr_alt a its -> exists ids, named_as w ids /\ derives P its (map T ids)) /\
    (forall es w, matches_elements G es w -> forall its, tr_elems es its -> exists ids, named_as w ids /\ derives P its (map T ids)).
  Proof using HR Hv0 Hsound Hcomp.
    pose proof (matches_mut G
      (fun e w => forall it, tr_elem e it -> exists ids, named_as w ids /\ derives P [it] (map T ids))
      (fun a w => forall it, tr_atom a it -> exists ids, named_as w ids /\ derives P [it] (map T ids))
      (fun a w => forall its, tr_alt a its -> exists ids, named_as w ids /\ derives P its (map T ids))
      (fun es w => forall its, tr_elems es its -> exists ids, named_as w ids /\ derives P its (map T ids))) as K.
    apply K; clear K.
    - intros a w _ IH it Ht. inversion Ht; subst. by apply IH.
    - intros a b it Ht. inversion Ht as [|? it0 ? ? n Ha Hn Hr]; subst. exists []. split; [constructor|].
      apply (derives_by n []); [apply Hr; set_solver|apply derives_refl].
    - intros a b w1 w2 _ IH1 _ IH2 it Ht. inversion Ht as [|? it0 ? ? n Ha Hn Hr]; subst.
      destruct (IH1 _ Ha) as (ids1 & ? & ?). destruct (IH2 _ Ht) as (ids2 & ? & ?). exists (ids1 ++ ids2). split; [by apply Forall2_app|].
      apply (derives_by n [it0; NT n]); [apply Hr; set_solver|]. rewrite map_app. by apply (derives_app P [it0] _ [NT n]).
    - intros a b w _ IH it Ht. inversion Ht as [|? it0 ? ? n Ha Hn Hr]; subst. destruct (IH _ Ha) as (ids & ? & ?). exists ids. split; [done|].
      apply (derives_by n [it0]); [apply Hr; set_solver|done].
    - intros a b w1 w2 _ IH1 _ IH2 it Ht. inversion Ht as [|? it0 ? ? n Ha Hn Hr]; subst.
      destruct (IH1 _ Ha) as (ids1 & ? & ?). destruct (IH2 _ Ht) as (ids2 & ? & ?). exists (ids1 ++ ids2). split; [by apply Forall2_app|].
      apply (derives_by n [it0; NT n]); [apply Hr; set_solver|]. rewrite map_app. by apply (derives_app P [it0] _ [NT n]).
    - intros a b it Ht. inversion Ht as [|? it0 ? ? n Ha Hn Hr]; subst. exists []. split; [constructor|].
      apply (derives_by n []); [apply Hr; set_solver|apply derives_refl].
    - intros a b w _ IH it Ht. inversion Ht as [|? it0 ? ? n Ha Hn Hr]; subst. destruct (IH _ Ha) as (ids & ? & ?). exists ids. split; [done|].
      apply (derives_by n [it0]); [apply Hr; set_solver|done].
    - intros name it Ht. inversion Ht as [? t Hl| |]; subst. exists [t]. split; [by repeat constructor|apply derives_refl].
    - intros l it Ht. inversion Ht.
    - intros name alts alt w HG Halt _ IH it Ht. inversion Ht as [|? i Hl|]; subst.
      destruct (Hcomp _ _ _ HG Halt) as (id & r & Hid & Hp & Hr). rewrite Hl in Hid. injection Hid as <-.
      destruct (IH _ Hr) as (ids & ? & ?). exists ids. split; [done|]. by apply (derives_by i r).
    - intros alts alt w Halt _ IH it Ht. inversion Ht as [| |? n rs Ha Hn Hr]; subst.
      destruct (tr_alts_alt _ _ _ Ha Halt) as (r & Hin & Hr'). destruct (IH _ Hr') as (ids & ? & ?). exists ids. split; [done|].
      apply (derives_by n r); [by apply Hr|done].
    - intros its Ht. inversion Ht; subst. exists []. split; [constructor|apply derives_refl].
    - intros es w _ IH its Ht. inversion Ht; subst. by apply IH.
    - intros its Ht. inversion Ht; subst. exists []. split; [constructor|apply derives_refl].
    - intros e es w1 w2 _ IH1 _ IH2 its Ht. inversion Ht as [|? it ? its' H1 H2]; subst.
      destruct (IH1 _ H1) as (ids1 & ? & ?). destruct (IH2 _ H2) as (ids2 & ? & ?). exists (ids1 ++ ids2). split; [by apply Forall2_app|].
      rewrite map_app. by apply (derives_app P [it] _ its').
  Qed.

  Lemma matches_two e1 e2 ws : matches_elements G [e1; e2] ws -> exists w1 w2, ws = w1 ++ w2 /\ matches_element G e1 w1 /\ matches_element G e2 w2.
  Proof using.
    intros H. inversion H as [|? ? w1 w' H1 H2]; subst. inversion H2 as [|? ? w2 w3 H3 H4]; subst. inversion H4; subst.
    rewrite app_nil_r. eauto.
  Qed.
  Lemma matches_one e ws : matches_elements G [e] ws -> matches_element G e ws.
  Proof using. intros H. inversion H as [|? ? w1 w' H1 H2]; subst. inversion H2; subst. by rewrite app_nil_r. Qed.
  Lemma matches_plain_inv a w : matches_element G (Element a None) w -> matches_atom G a w.
  Proof using. by inversion 1. Qed.

  Lemma parses_matches v α toks cs : parses P v α toks cs -> forall es, tr_elems es α ->
    exists ws, named_as ws (map token_type toks) /\ matches_elements G es ws.
  Proof using HR Hv0 Hsound.
    induction 1 as [|t β tok w cs Hty Hp IH|p β w1 w2 cs1 cs2 Hp H1 IH1 H2 IH2]; intros es Ht.
    - inversion Ht; subst. exists []. split; constructor.
    - inversion Ht as [|e ? es' ? He Hes]; subst. destruct (IH _ Hes) as (ws & Hws & Hm).
      inversion He as [a ? Ha|]; subst. inversion Ha as [name ? Hl| |]; subst.
      exists (name :: ws). split; [by constructor|]. apply (matches_cons G _ _ [name] ws); [by repeat constructor|done].
    - inversion Ht as [|e ? es' ? He Hes]; subst. destruct (IH2 _ Hes) as (ws2 & Hws2 & Hm2).
      assert (Halt : forall alt, tr_alt alt (right p) -> exists ws, named_as ws (map token_type w1) /\ matches_alternative G alt ws).
      { intros alt Ha. inversion Ha as [E0 E|es0 its0 Hes0 E0 E]; subst alt.
        - destruct (IH1 []) as (ws & Hws & Hm); [rewrite <- E; constructor|]. exists ws. split; [done|]. inversion Hm; subst. constructor.
        - subst its0. destruct (IH1 es0 Hes0) as (ws & Hws & Hm). exists ws. split; [done|by constructor]. }
      assert (exists ws1, named_as ws1 (map token_type w1) /\ matches_element G e ws1) as (ws1 & Hws1 & Hm1).
      { inversion He as [a ? Ha|a it k b n Ha Hn Hr]; subst.
        - inversion Ha as [|name ? Hl|alts ? rs Has Hn Hr]; subst.
          + destruct (Hsound (left p) (right p)) as (name' & alts & alt & HG & Hin & Hl' & Hta); [by eapply HR|by destruct p|].
            assert (name' = name) as ->.
            { apply (vi_n _ Hv0) in Hl, Hl'. congruence. }
            destruct (Halt alt Hta) as (ws & Hws & Hm). exists ws. split; [done|]. constructor. by econstructor.
          + destruct (tr_alts_right _ _ (right p) Has) as (alt & Hin & Hta); [apply Hr; by destruct p|].
            destruct (Halt alt Hta) as (ws & Hws & Hm). exists ws. split; [done|]. constructor. by econstructor.
        - assert (right p ∈ suffix_rights k (left p) it) as Hin by (apply Hr; by destruct p).
          assert (Hrec : right p = [it; NT (left p)] -> exists wsa wsb, named_as (wsa ++ wsb) (map token_type w1) /\
            matches_atom G a wsa /\ matches_element G (Element a (Some (k, b))) wsb).
          { intros E. destruct (IH1 [Element a None; Element a (Some (k, b))]) as (ws & Hws & Hm).
            - rewrite E. repeat constructor; [done|]. by econstructor.
            - apply matches_two in Hm as (wsa & wsb & -> & Ha' & Hb'). exists wsa, wsb. split_and!; [done|by apply matches_plain_inv|done]. }
          assert (Hone : right p = [it] -> exists ws, named_as ws (map token_type w1) /\ matches_atom G a ws).
          { intros E. destruct (IH1 [Element a None]) as (ws & Hws & Hm).
            - rewrite E. repeat constructor; done.
            - exists ws. split; [done|]. by apply matches_plain_inv, matches_one. }
          assert (Hnil : right p = [] -> named_as [] (map token_type w1)).
          { intros E. destruct (IH1 []) as (ws & Hws & Hm); [rewrite E; constructor|]. by inversion Hm; subst. }
          destruct k; simpl in Hin; rewrite !elem_of_cons in Hin; destruct Hin as [E|[E|?%elem_of_nil]]; try done.
          + destruct (Hrec E) as (wsa & wsb & ? & ? & ?). exists (wsa ++ wsb). split; [done|]. by apply matches_star_cons.
          + exists []. split; [by apply Hnil|constructor].
          + destruct (Hrec E) as (wsa & wsb & ? & ? & ?). exists (wsa ++ wsb). split; [done|]. by apply matches_plus_more.
          + destruct (Hone E) as (ws & ? & ?). exists ws. split; [done|by apply matches_plus_one].
          + destruct (Hone E) as (ws & ? & ?). exists ws. split; [done|by apply matches_question_yes].
          + exists []. split; [by apply Hnil|constructor]. }
      exists (ws1 ++ ws2). split; [rewrite map_app; by apply Forall2_app|by constructor].
  Qed.

  Lemma language name id w : nt_name_to_id v0 !! name = Some id ->
    derives P [NT id] (map T w) <-> exists names, named_as names w /\ matches_atom G (RuleRef name) names.
  Proof using HR Hv0 Hsound Hcomp.
    intros Hname. split.
    - intros Hd. assert (map T w = types (map (fun i => token_new i [] []) w)) as E.
      { unfold types. rewrite map_map. done. }
      rewrite E in Hd. apply (derives_parses P v0) in Hd as [cs Hcs].
      destruct (parses_matches v0 _ _ _ Hcs [Element (RuleRef name) None]) as (ws & Hws & Hm); [by repeat constructor|].
      exists ws. split; [|by apply matches_plain_inv, matches_one]. rewrite map_map in Hws. simpl in Hws. by rewrite map_id in Hws.
    - intros (names & Hn & Hm). destruct (proj1 (proj2 matches_derives) _ _ Hm (NT id)) as (ids & Hids & Hd); [by constructor|].
      assert (ids = w) as <-; [|done]. clear Hd Hm. revert ids Hids. induction Hn as [|n i names w Hi _ IH]; intros ids Hids.
      + by inversion Hids.
      + inversion Hids as [|? i' ? ids' Hi' Hids']; subst. rewrite Hi in Hi'. injection Hi' as <-. f_equal. by apply IH.
  Qed.
End language.
