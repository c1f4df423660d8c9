(** ProductionProofs.v -- the production pass on arbitrary trees: fuel, and closedness (C43). *)
From Verif Require Export SymbolProofs.

(** ** Fuel *)
Lemma height_child r c : Rule c ∈ children r -> height c < height r.
Proof.
  destruct r as [n cs i]. cbn [children]. intros H.
  assert (height c <= (fix go (cs : list ast) : nat := match cs with [] => 0 | Rule c :: cs' => height c `max` go cs' | _ :: cs' => go cs' end) cs) as Hh.
  { induction cs as [|[t|d|t] cs IH]; [by apply elem_of_nil in H|..]; apply elem_of_cons in H as [H|H]; try done.
    - by apply IH.
    - injection H as ->. lia.
    - specialize (IH H). lia.
    - by apply IH. }
  cbn [height]. lia.
Qed.
Lemma rule_contexts_child r ty c : c ∈ get_rule_contexts r ty -> Rule c ∈ children r /\ rule_index c = ty.
Proof.
  intros H. destruct (c15_rule_contexts r ty) as [E _].
  assert (Rule c ∈ map Rule (get_rule_contexts r ty)) as Hc by (apply elem_of_list_fmap; eauto).
  rewrite E in Hc. apply elem_of_list_filter in Hc as [Hc1 Hc2]. split; [done|]. by destruct Hc1 as (? & [= <-] & ?).
Qed.
Lemma rule_context_child r ty k c : get_rule_context r ty k = Some c -> Rule c ∈ children r /\ rule_index c = ty.
Proof.
  destruct (c15_rule_contexts r ty) as [_ E]. rewrite E. intros H. apply elem_of_list_lookup_2 in H. by apply rule_contexts_child.
Qed.

Section fuel.
  Definition agree (f g : rule_ctx -> production_state -> res (item * production_state)) (r : rule_ctx) : Prop :=
    forall s, f r s = g r s /\ f r s <> OutOfFuel.
  Lemma elements_agree f g es s : (forall e, e ∈ es -> agree f g e) ->
    visit_elements f es s = visit_elements g es s /\ visit_elements f es s <> OutOfFuel.
  Proof.
    revert s. induction es as [|e es IH]; intros s H; [done|]. simpl.
    destruct (H e (elem_of_list_here _ _) s) as [E1 E2]. rewrite <- E1.
    destruct (f e s) as [[it s1]| |]; simpl; [|done|done].
    destruct (IH s1) as [E3 E4]; [intros e' He; apply H; by apply elem_of_list_further|]. rewrite <- E3.
    destruct (visit_elements f es s1) as [[its s2]| |]; done.
  Qed.
  Lemma alternative_agree f g a s : (forall e, e ∈ element_list a -> agree f g e) ->
    visit_alternative f a s = visit_alternative g a s /\ visit_alternative f a s <> OutOfFuel.
  Proof. intros H. unfold visit_alternative. destruct (alternative_epsilon a); [done|]. by apply elements_agree. Qed.
  Lemma alternatives_agree f g alts s : (forall a e, a ∈ alts -> e ∈ element_list a -> agree f g e) ->
    visit_alternatives f alts s = visit_alternatives g alts s /\ visit_alternatives f alts s <> OutOfFuel.
  Proof.
    revert s. induction alts as [|a alts IH]; intros s H; [done|]. simpl.
    destruct (alternative_agree f g a s) as [E1 E2]; [intros e; apply H, elem_of_list_here|]. rewrite <- E1.
    destruct (visit_alternative f a s) as [[it s1]| |]; simpl; [|done|done].
    destruct (IH s1) as [E3 E4]; [intros a' e Ha; apply H; by apply elem_of_list_further|]. rewrite <- E3.
    destruct (visit_alternatives f alts s1) as [[its s2]| |]; done.
  Qed.
  Lemma element_fuel f1 f2 r : height r <= f1 -> height r <= f2 -> agree (visit_element f1) (visit_element f2) r.
  Proof.
    revert f2 r. induction f1 as [|f1 IH]; intros f2 r H1 H2.
    { destruct r; simpl in H1. lia. }
    destruct f2 as [|f2]; [destruct r; simpl in H2; lia|]. intros s. cbn [visit_element].
    destruct (element_token_ref r) as [t|]; [by destruct (get_terminal_id_by_name _ _)|].
    destruct (element_string_literal r) as [t|]; [by destruct (get_terminal_id_by_name _ _)|].
    destruct (element_rule_ref r) as [t|]; [by destruct (get_nonterminal_id_by_name _ _)|].
    destruct (element_block r) as [b|] eqn:Eb; [|done].
    apply rule_context_child in Eb as [Hb _]. apply height_child in Hb.
    unfold visit_block.
    destruct (alternatives_agree (visit_element f1) (visit_element f2) (alternative_list b) s) as [E1 E2].
    { intros a e Ha He. apply rule_contexts_child in Ha as [Ha _]. apply height_child in Ha.
      apply rule_contexts_child in He as [He _]. apply height_child in He. apply IH; lia. }
    rewrite <- E1. destruct (visit_alternatives (visit_element f1) (alternative_list b) s) as [[rs s1]| |]; [|done|done].
    simpl. by destruct (make_block rs s1).
  Qed.
  Lemma rfold_agree {A S} (f g : S -> A -> res S) l s : (forall x s, x ∈ l -> f s x = g s x /\ f s x <> OutOfFuel) ->
    rfold f l s = rfold g l s /\ rfold f l s <> OutOfFuel.
  Proof.
    revert s. induction l as [|x l IH]; intros s H; [done|]. simpl.
    destruct (H x s (elem_of_list_here _ _)) as [E1 E2]. rewrite <- E1. destruct (f s x) as [s1| |]; simpl; [|done|done].
    apply IH. intros y s0 Hy. apply H. by apply elem_of_list_further.
  Qed.
  Lemma rule_list_fuel f1 f2 r s : height r <= f1 -> height r <= f2 ->
    production_visit_rule_list f1 r s = production_visit_rule_list f2 r s /\ production_visit_rule_list f1 r s <> OutOfFuel.
  Proof.
    intros H1 H2. apply rfold_agree. intros p s0 Hp. apply rule_contexts_child in Hp as [Hp _]. apply height_child in Hp.
    unfold production_visit_parser_rule. destruct (parser_rule_rule_ref p) as [t|]; simpl; [|done].
    destruct (get_nonterminal_id_by_name _ _) as [id|]; simpl; [|done].
    destruct (parser_rule_block p) as [b|] eqn:Eb; simpl; [|done].
    apply rule_context_child in Eb as [Hb _]. apply height_child in Hb.
    apply rfold_agree. intros a s1 Ha. apply rule_contexts_child in Ha as [Ha _]. apply height_child in Ha.
    unfold visit_rule_alternative.
    destruct (alternative_agree (visit_element f1) (visit_element f2) a s1) as [E1 E2].
    { intros e He. apply rule_contexts_child in He as [He _]. apply height_child in He. apply element_fuel; lia. }
    rewrite <- E1. destruct (visit_alternative (visit_element f1) a s1) as [[x y]| |]; done.
  Qed.
End fuel.

Lemma rfold_no_fuel {A S} (f : S -> A -> res S) l s : (forall x s, x ∈ l -> f s x <> OutOfFuel) -> rfold f l s <> OutOfFuel.
Proof. intros H. apply (rfold_agree f f). auto. Qed.
Lemma load_tree_total r : load_tree r <> OutOfFuel.
Proof.
  unfold load_tree. rewrite literal_fold.
  match goal with |- context [rfold ?f ?l ?s] => pose proof (rfold_no_fuel f l s) as H; destruct (rfold f l s) as [s1| |] end; simpl; [|done|].
  2:{ exfalso. apply H; [|done]. intros x s _. unfold literal_visit_element. by destruct (element_string_literal x). }
  clear H. rewrite visit_children_fold by done.
  match goal with |- context [rfold ?f ?l ?s] => pose proof (rfold_no_fuel f l s) as H; destruct (rfold f l s) as [s2| |] end; simpl; [|done|].
  2:{ exfalso. apply H; [|done]. intros x s _. unfold visit_step. destruct x as [n cs i]. cbn [rule_index].
      destruct i as [|[|[|[|[|[|[|[|[|i]]]]]]]]]; cbn; try done.
      - unfold symbol_visit_parser_rule. destruct (parser_rule_rule_ref _); simpl; [|done]. by case_match.
      - unfold symbol_visit_lexer_rule. destruct (lexer_rule_token_ref _); simpl; [|done]. case_match; [done|].
        destruct (lexer_rule_regular _); simpl; [|done]. destruct (regular_regular_literal _); simpl; [|done].
        case_match; [done|]. unfold unwrap_regular. by destruct (slice_bytes _ _ _). }
  clear H. match goal with |- context [production_visit_rule_list ?f ?r ?s] => pose proof (proj2 (rule_list_fuel f f r s ltac:(done) ltac:(done))) as H; destruct (production_visit_rule_list f r s) end; done.
Qed.

(** ** Closedness *)
Definition item_ok (v : vocabulary) (it : item) : Prop :=
  match it with NT b => b ∈ nonterminals v | T t => t ∈ terminals v end.
Record prod_inv (R : nat) (v0 : vocabulary) (s : production_state) : Prop := {
  pi_ops : exists ops, ps_vocabulary s = vrun vocabulary_new ops;
  pi_t1 : t_name_to_id (ps_vocabulary s) = t_name_to_id v0;
  pi_t2 : t_id_to_name (ps_vocabulary s) = t_id_to_name v0;
  pi_t3 : terminals (ps_vocabulary s) = terminals v0;
  pi_n1 : nt_name_to_id (ps_vocabulary s) = nt_name_to_id v0;
  pi_n2 : nt_id_to_name (ps_vocabulary s) = nt_id_to_name v0;
  pi_n3 : forall i, i ∈ nonterminals (ps_vocabulary s) <-> i ∈ nonterminals v0 \/ R <= i < ps_next_rule_id s;
  pi_next : R <= ps_next_rule_id s;
  pi_prods : forall p, p ∈ ps_productions s -> left p ∈ nonterminals (ps_vocabulary s) /\
               forall it, it ∈ right p -> item_ok (ps_vocabulary s) it;
  pi_star : forall k i, star_cache s !! k = Some i -> i ∈ nonterminals (ps_vocabulary s);
  pi_plus : forall k i, plus_cache s !! k = Some i -> i ∈ nonterminals (ps_vocabulary s);
  pi_question : forall k i, question_cache s !! k = Some i -> i ∈ nonterminals (ps_vocabulary s);
  pi_block : forall k i, block_cache s !! k = Some i -> i ∈ nonterminals (ps_vocabulary s);
}.
Definition grows (s s' : production_state) : Prop := nonterminals (ps_vocabulary s) ⊆ nonterminals (ps_vocabulary s').

Lemma grows_refl s : grows s s.
Proof. unfold grows. done. Qed.
Lemma grows_trans s1 s2 s3 : grows s1 s2 -> grows s2 s3 -> grows s1 s3.
Proof. unfold grows. by intros ->. Qed.
Local Hint Resolve grows_refl : core.

Section closedness.
  Context (R : nat) (v0 : vocabulary).
  Context (HR : forall i, i ∈ nonterminals v0 -> i < R) (Hv0 : vinv v0).
  Notation inv := (prod_inv R v0).

  Lemma fresh_unnamed s : inv s ->
    fst (add_unnamed_nonterminal (ps_vocabulary s) (ps_next_rule_id s)) =
      {| nt_name_to_id := nt_name_to_id v0; nt_id_to_name := nt_id_to_name v0; t_name_to_id := t_name_to_id v0;
         t_id_to_name := t_id_to_name v0; nonterminals := {[ps_next_rule_id s]} ∪ nonterminals (ps_vocabulary s);
         terminals := terminals v0 |}.
  Proof using HR Hv0.
    intros H. destruct H as [_ H1 H2 H3 H4 H5 H6 H7 _ _ _ _ _].
    assert (Hf : ps_next_rule_id s ∉ nonterminals v0) by (intros ?%HR; lia).
    unfold add_unnamed_nonterminal. rewrite bool_decide_eq_false_2.
    2:{ rewrite H5. intros Hs. by apply Hf, (vi_nd _ Hv0). }
    rewrite bool_decide_eq_false_2; [|rewrite H6; intros [?|?]; [done|lia]].
    simpl. by rewrite H1, H2, H3, H4, H5.
  Qed.

  (** The common effect of making a nonterminal. *)
  Lemma make_inv s P' bc sc pc qc :
    inv s ->
    (forall p, p ∈ P' -> p ∈ ps_productions s \/ (left p = ps_next_rule_id s /\
        forall it, it ∈ right p -> it = NT (ps_next_rule_id s) \/ item_ok (ps_vocabulary s) it)) ->
    (forall k i, sc !! k = Some i -> i = ps_next_rule_id s \/ star_cache s !! k = Some i) ->
    (forall k i, pc !! k = Some i -> i = ps_next_rule_id s \/ plus_cache s !! k = Some i) ->
    (forall k i, qc !! k = Some i -> i = ps_next_rule_id s \/ question_cache s !! k = Some i) ->
    (forall k i, bc !! k = Some i -> i = ps_next_rule_id s \/ block_cache s !! k = Some i) ->
    let s' := ProductionState (fst (add_unnamed_nonterminal (ps_vocabulary s) (ps_next_rule_id s))) P'
                (S (ps_next_rule_id s)) bc sc pc qc in
    inv s' /\ grows s s' /\ ps_next_rule_id s ∈ nonterminals (ps_vocabulary s').
  Proof using HR Hv0.
    intros Hi HP Hsc Hpc Hqc Hbc s'.
    assert (Ev := fresh_unnamed s Hi).
    assert (G : grows s s'). { unfold grows, s'. simpl. rewrite Ev. simpl. set_solver. }
    assert (N : ps_next_rule_id s ∈ nonterminals (ps_vocabulary s')). { unfold s'. simpl. rewrite Ev. simpl. set_solver. }
    split; [|done].
    destruct Hi as [[ops Ho] H1 H2 H3 H4 H5 H6 H7 H8 H9 H10 H11 H12]. unfold grows in G.
    split; try (unfold s'; simpl; rewrite Ev; simpl; done).
    - exists (ops ++ [AddUnnamed (ps_next_rule_id s)]). unfold s'. simpl. by rewrite vrun_app, <- Ho.
    - intros i. unfold s'. simpl. rewrite Ev. simpl. rewrite elem_of_union, elem_of_singleton, H6. split.
      + intros [->|[?|?]]; [right; lia|by left|right; lia].
      + intros [?|?]; [auto|]. destruct (decide (i = ps_next_rule_id s)); [by left|right; right; lia].
    - unfold s'. simpl. lia.
    - intros p Hp. unfold s' in Hp. simpl in Hp. destruct (HP p Hp) as [Hp'|[Hl Hr]].
      + destruct (H8 p Hp') as [A B]. split; [by apply G|]. intros it Hit. specialize (B it Hit).
        destruct it as [b|t]; simpl in *; [by apply G|]. rewrite Ev. simpl. by rewrite <- H3.
      + split; [by rewrite Hl|]. intros it Hit. destruct (Hr it Hit) as [->|B]; [done|].
        destruct it as [b|t]; simpl in *; [by apply G|]. rewrite Ev. simpl. by rewrite <- H3.
    - intros k i Hk. unfold s' in Hk. simpl in Hk. destruct (Hsc k i Hk) as [->|Hk']; [done|]. by apply G, (H9 k).
    - intros k i Hk. unfold s' in Hk. simpl in Hk. destruct (Hpc k i Hk) as [->|Hk']; [done|]. by apply G, (H10 k).
    - intros k i Hk. unfold s' in Hk. simpl in Hk. destruct (Hqc k i Hk) as [->|Hk']; [done|]. by apply G, (H11 k).
    - intros k i Hk. unfold s' in Hk. simpl in Hk. destruct (Hbc k i Hk) as [->|Hk']; [done|]. by apply G, (H12 k).
  Qed.

  Lemma cache_insert {K} `{Countable K} (m : gmap K nat) k0 n : forall k i, <[k0 := n]> m !! k = Some i -> i = n \/ m !! k = Some i.
  Proof using. intros k i. rewrite lookup_insert_Some. intros [[_ <-]|[_ ?]]; auto. Qed.

  Lemma suffix_inv ctx id it s it' s' : inv s -> item_ok (ps_vocabulary s) it ->
    apply_suffix ctx id it s = (it', s') -> inv s' /\ grows s s' /\ item_ok (ps_vocabulary s') it'.
  Proof using HR Hv0.
    intros Hi Hit. unfold apply_suffix. destruct (element_ebnf_suffix ctx) as [sf|]; [|by intros [= <- <-]].
    destruct (suffix_star sf); [|destruct (suffix_plus sf)].
    - unfold apply_star. destruct (star_cache s !! id) as [k|] eqn:E.
      + intros [= <- <-]. split_and!; [done|done|]. simpl. by apply (pi_star _ _ _ Hi id).
      + intros [= <- <-]. apply (make_inv s); try (by apply cache_insert); auto.
        intros p. rewrite !elem_of_union, !elem_of_singleton. intros [->|[->|?]]; [right|right|auto]; (split; [done|]); simpl; intros x Hx.
        * apply elem_of_cons in Hx as [->|Hx]; [by right|]. apply elem_of_list_singleton in Hx as ->. by left.
        * by apply elem_of_nil in Hx.
    - unfold apply_plus. destruct (plus_cache s !! id) as [k|] eqn:E.
      + intros [= <- <-]. split_and!; [done|done|]. simpl. by apply (pi_plus _ _ _ Hi id).
      + intros [= <- <-]. apply (make_inv s); try (by apply cache_insert); auto.
        intros p. rewrite !elem_of_union, !elem_of_singleton. intros [->|[->|?]]; [right|right|auto]; (split; [done|]); simpl; intros x Hx.
        * apply elem_of_cons in Hx as [->|Hx]; [by right|]. apply elem_of_list_singleton in Hx as ->. by left.
        * apply elem_of_list_singleton in Hx as ->. by right.
    - unfold apply_question. destruct (question_cache s !! id) as [k|] eqn:E.
      + intros [= <- <-]. split_and!; [done|done|]. simpl. by apply (pi_question _ _ _ Hi id).
      + intros [= <- <-]. apply (make_inv s); try (by apply cache_insert); auto.
        intros p. rewrite !elem_of_union, !elem_of_singleton. intros [->|[->|?]]; [right|right|auto]; (split; [done|]); simpl; intros x Hx.
        * apply elem_of_list_singleton in Hx as ->. by right.
        * by apply elem_of_nil in Hx.
  Qed.

  Lemma elem_of_insert_productions id rs P p :
    p ∈ insert_productions id rs P <-> p ∈ P \/ (left p = id /\ right p ∈ rs).
  Proof using.
    unfold insert_productions. revert P. induction rs as [|r rs IH]; intros P; simpl.
    - split; [auto|]. intros [?|[_ H]]; [done|]. by apply elem_of_nil in H.
    - rewrite IH, elem_of_union, elem_of_singleton, elem_of_cons. split.
      + intros [[->|?]|[? ?]]; [right; simpl; auto|auto|auto].
      + intros [?|[E [Er|?]]]; [auto| |auto]. left. left. destruct p; simpl in *; congruence.
  Qed.

  Lemma block_inv rs s id s' : inv s -> (forall r it, r ∈ rs -> it ∈ r -> item_ok (ps_vocabulary s) it) ->
    make_block rs s = (id, s') -> inv s' /\ grows s s' /\ id ∈ nonterminals (ps_vocabulary s').
  Proof using HR Hv0.
    intros Hi Hrs. unfold make_block. destruct (block_cache s !! rs) as [k|] eqn:E.
    - intros [= <- <-]. split_and!; [done|done|]. by apply (pi_block _ _ _ Hi rs).
    - intros [= <- <-]. apply (make_inv s); try (by apply cache_insert); auto.
      intros p. rewrite elem_of_insert_productions. intros [?|[? Hr]]; [auto|]. right. split; [done|]. intros it Hit. right. by eapply Hrs.
  Qed.

  Definition preserves (f : rule_ctx -> production_state -> res (item * production_state)) : Prop :=
    forall r s it s', inv s -> f r s = Ret (it, s') -> inv s' /\ grows s s' /\ item_ok (ps_vocabulary s') it.

  Lemma item_ok_grows s s' it : inv s -> inv s' -> grows s s' -> item_ok (ps_vocabulary s) it -> item_ok (ps_vocabulary s') it.
  Proof using. intros H H' G. destruct it as [b|t]; simpl; [apply G|]. by rewrite (pi_t3 _ _ _ H), (pi_t3 _ _ _ H'). Qed.

  Lemma elements_inv f es s its s' : preserves f -> inv s -> visit_elements f es s = Ret (its, s') ->
    inv s' /\ grows s s' /\ forall it, it ∈ its -> item_ok (ps_vocabulary s') it.
  Proof using.
    intros Hf. revert s its. induction es as [|e es IH]; intros s its Hi H; simpl in H.
    - injection H as <- <-. split_and!; [done|done|]. intros it Hit. by apply elem_of_nil in Hit.
    - destruct (f e s) as [[it s1]| |] eqn:E; simpl in H; [|done|done].
      destruct (visit_elements f es s1) as [[its' s2]| |] eqn:E2; simpl in H; [|done|done]. injection H as <- <-.
      destruct (Hf e s it s1 Hi E) as (Hi1 & G1 & K1). destruct (IH s1 its' Hi1 E2) as (Hi2 & G2 & K2).
      split_and!; [done|by eapply grows_trans|]. intros x [->|Hx]%elem_of_cons; [|by apply K2].
      by apply (item_ok_grows s1).
  Qed.
  Lemma alternative_inv f a s its s' : preserves f -> inv s -> visit_alternative f a s = Ret (its, s') ->
    inv s' /\ grows s s' /\ forall it, it ∈ its -> item_ok (ps_vocabulary s') it.
  Proof using.
    intros Hf Hi. unfold visit_alternative. destruct (alternative_epsilon a).
    - intros [= <- <-]. split_and!; [done|done|]. intros it Hit. by apply elem_of_nil in Hit.
    - by apply elements_inv.
  Qed.
  Lemma alternatives_inv f alts s rs s' : preserves f -> inv s -> visit_alternatives f alts s = Ret (rs, s') ->
    inv s' /\ grows s s' /\ forall r it, r ∈ rs -> it ∈ r -> item_ok (ps_vocabulary s') it.
  Proof using.
    intros Hf. revert s rs. induction alts as [|a alts IH]; intros s rs Hi H; simpl in H.
    - injection H as <- <-. split_and!; [done|done|]. intros r it Hr. by apply elem_of_nil in Hr.
    - destruct (visit_alternative f a s) as [[its s1]| |] eqn:E; simpl in H; [|done|done].
      destruct (visit_alternatives f alts s1) as [[rs' s2]| |] eqn:E2; simpl in H; [|done|done]. injection H as <- <-.
      destruct (alternative_inv f a s its s1 Hf Hi E) as (Hi1 & G1 & K1). destruct (IH s1 rs' Hi1 E2) as (Hi2 & G2 & K2).
      split_and!; [done|by eapply grows_trans|]. intros r it [->|Hr]%elem_of_cons Hit; [|by eapply K2].
      eapply (item_ok_grows s1); auto.
  Qed.
  Lemma element_inv fuel : preserves (visit_element fuel).
  Proof using HR Hv0.
    induction fuel as [|fuel IH]; intros r s it s' Hi H; [done|]. cbn [visit_element] in H.
    assert (Hv : vinv (ps_vocabulary s)) by (destruct (pi_ops _ _ _ Hi) as [ops ->]; apply vinv_reach).
    assert (Ht : forall n id, get_terminal_id_by_name (ps_vocabulary s) n = Some id -> id ∈ terminals (ps_vocabulary s)).
    { intros n id Hn. apply (vi_td _ Hv). exists n. by apply (vi_t _ Hv). }
    destruct (element_token_ref r) as [t|].
    { destruct (get_terminal_id_by_name _ _) as [id|] eqn:E; simpl in H; [|done]. injection H as H.
      eapply suffix_inv; [exact Hi| |exact H]. simpl. by eapply Ht. }
    destruct (element_string_literal r) as [t|].
    { destruct (get_terminal_id_by_name _ _) as [id|] eqn:E; simpl in H; [|done]. injection H as H.
      eapply suffix_inv; [exact Hi| |exact H]. simpl. by eapply Ht. }
    destruct (element_rule_ref r) as [t|].
    { destruct (get_nonterminal_id_by_name _ _) as [id|] eqn:E; simpl in H; [|done]. injection H as H.
      eapply suffix_inv; [exact Hi| |exact H]. simpl. apply (vi_nd _ Hv). exists (text t). by apply (vi_n _ Hv). }
    destruct (element_block r) as [b|]; [|done]. unfold visit_block in H.
    destruct (visit_alternatives (visit_element fuel) (alternative_list b) s) as [[rs s1]| |] eqn:E1; simpl in H; [|done|done].
    destruct (make_block rs s1) as [id s2] eqn:E2. simpl in H. injection H as H.
    destruct (alternatives_inv _ _ _ _ _ IH Hi E1) as (Hi1 & G1 & K1).
    destruct (block_inv _ _ _ _ Hi1 K1 E2) as (Hi2 & G2 & K2).
    destruct (suffix_inv r id (NT id) s2 it s' Hi2 K2 H) as (Hi3 & G3 & K3).
    split_and!; [done|by eauto using grows_trans|done].
  Qed.

  Lemma rule_list_inv fuel r s s' : inv s -> production_visit_rule_list fuel r s = Ret s' -> inv s'.
  Proof using HR Hv0.
    intros Hi. apply rfold_inv; [|done]. clear s Hi. intros s p s0 _ Hi H. unfold production_visit_parser_rule in H.
    destruct (parser_rule_rule_ref p) as [t|]; simpl in H; [|done].
    destruct (get_nonterminal_id_by_name (ps_vocabulary s) (text t)) as [id|] eqn:E; simpl in H; [|done].
    destruct (parser_rule_block p) as [b|]; simpl in H; [|done].
    assert (Hid : id ∈ nonterminals (ps_vocabulary s)).
    { assert (Hv : vinv (ps_vocabulary s)) by (destruct (pi_ops _ _ _ Hi) as [ops ->]; apply vinv_reach).
      apply (vi_nd _ Hv). exists (text t). by apply (vi_n _ Hv). }
    eapply (rfold_inv (fun s => inv s /\ id ∈ nonterminals (ps_vocabulary s))); [|split; [exact Hi|exact Hid]|exact H].
    clear s Hi H E Hid. intros s a s1 _ [Hi Hid] H. unfold visit_rule_alternative in H.
    destruct (visit_alternative (visit_element fuel) a s) as [[r' s2]| |] eqn:E; simpl in H; [|done|done]. injection H as <-.
    destruct (alternative_inv _ _ _ _ _ (element_inv fuel) Hi E) as (Hi2 & G2 & K2).
    split; [|simpl; by apply G2]. destruct Hi2. split; simpl; auto.
    intros q. rewrite elem_of_union, elem_of_singleton. intros [->|Hq]; [|auto]. simpl. split; [by apply G2|done].
  Qed.
End closedness.
