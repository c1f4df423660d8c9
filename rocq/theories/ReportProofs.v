(** ReportProofs.v -- C81 for all grammars that load: the report with alternatives told apart by the symbols that stand for them. *)
From Verif Require Export OutputMain RewriteProofs SpecRewrite SpecReport.

Section lists.
  Context {K : Type} `{EqDecision K} (key : alternative -> K).
  Notation groups_report := (groups_report key).
  Notation alternatives_report := (alternatives_report key).
  Definition key_groups : list (list alternative) -> list (list K) := map (map key).
  Definition key_pairs : list (str * alternative) -> list (str * K) := map (fun na => (na.1, key na.2)).

  Lemma groups_report_ext gs : forall seen seen', (forall x, x ∈ seen <-> x ∈ seen') -> groups_report seen gs = groups_report seen' gs.
  Proof using.
    induction gs as [|g gs IH]; intros seen seen' E; [done|]. cbn [SpecReport.groups_report].
    rewrite (bool_decide_ext (map key g ∈ seen) (map key g ∈ seen')) by apply E. case_bool_decide.
    - by apply IH.
    - f_equal. apply IH. intros y. by rewrite !elem_of_cons, E.
  Qed.
  Lemma groups_report_app gs gs' : forall seen, groups_report seen (gs ++ gs') = groups_report seen gs ++ groups_report (key_groups gs ++ seen) gs'.
  Proof using.
    induction gs as [|g gs IH]; intros seen; [done|]. cbn [app SpecReport.groups_report key_groups map]. case_bool_decide as D.
    - rewrite IH. f_equal. apply groups_report_ext. intros x. fold (key_groups gs). rewrite elem_of_cons, !elem_of_app. naive_solver.
    - rewrite IH, <- app_assoc. f_equal. f_equal. apply groups_report_ext. intros x. fold (key_groups gs). rewrite !elem_of_app, !elem_of_cons, elem_of_app. naive_solver.
  Qed.
  Lemma key_groups_app a b : key_groups (a ++ b) = key_groups a ++ key_groups b.
  Proof using. apply map_app. Qed.
  Lemma alternatives_report_ext l : forall sg sg' sa sa', (forall x, x ∈ sg <-> x ∈ sg') -> (forall x, x ∈ sa <-> x ∈ sa') ->
    alternatives_report sg sa l = alternatives_report sg' sa' l.
  Proof using.
    induction l as [|[n a] l IH]; intros sg sg' sa sa' E1 E2; [done|]. cbn [SpecReport.alternatives_report].
    rewrite (groups_report_ext _ sg sg') by done. f_equal.
    rewrite (bool_decide_ext ((n, key a) ∈ sa) ((n, key a) ∈ sa')) by apply E2. f_equal.
    apply IH; intros x; [by rewrite !elem_of_app, E1|by rewrite !elem_of_cons, E2].
  Qed.
  Lemma alternatives_report_app l l' : forall sg sa,
    alternatives_report sg sa (l ++ l') = alternatives_report sg sa l ++ alternatives_report (key_groups (groups_of l) ++ sg) (key_pairs l ++ sa) l'.
  Proof using.
    induction l as [|[n a] l IH]; intros sg sa; [done|]. cbn [app SpecReport.alternatives_report]. rewrite IH, !app_assoc. f_equal.
    apply alternatives_report_ext; intros x.
    - change (groups_of ((n, a) :: l)) with (groups_alternative a ++ groups_of l). rewrite key_groups_app. fold (key_groups (groups_alternative a)). rewrite !elem_of_app. naive_solver.
    - change (key_pairs ((n, a) :: l)) with ((n, key a) :: key_pairs l). cbn [app]. rewrite !elem_of_app, !elem_of_cons, !elem_of_app. naive_solver.
  Qed.

  Lemma groups_report_nil gs : forall seen, groups_report seen gs = [] <-> forall alts, alts ∈ gs -> map key alts ∉ seen -> NoDup (map key alts).
  Proof using.
    induction gs as [|alts gs IH]; intros seen; cbn [SpecReport.groups_report].
    { split; [by intros _ a ?%elem_of_nil|done]. }
    case_bool_decide as D.
    - rewrite IH. split; intros H a.
      + intros [->|Ha]%elem_of_cons Hs; [done|by apply H].
      + intros Ha Hs. apply H; [by apply elem_of_list_further|done].
    - assert (forall {X Y} (a : list X) (y : Y) b, map (fun _ => y) a ++ b = [] <-> a = [] /\ b = []) as Hm.
      { intros X Y a y b. destruct a; cbn; naive_solver. }
      rewrite Hm, IH, repeats_nil. split.
      + intros [[Hn _] H] a [->|Ha]%elem_of_cons Hs; [done|].
        destruct (decide (map key a = map key alts)) as [->|Hne]; [done|]. apply H; [done|].
        rewrite elem_of_cons. naive_solver.
      + intros H. split; [split; [apply H; [apply elem_of_list_here|done]|by intros x _ ?%elem_of_nil]|].
        intros a Ha Hs. apply H; [by apply elem_of_list_further|]. intros ?. apply Hs. by apply elem_of_list_further.
  Qed.
  Lemma alternatives_report_nil l : forall sg sa, alternatives_report sg sa l = [] <->
    (forall na, na ∈ l -> forall alts, alts ∈ groups_alternative (snd na) -> map key alts ∉ sg -> NoDup (map key alts)) /\
    NoDup (map (fun na => (fst na, key (snd na))) l) /\
    forall na, na ∈ l -> (fst na, key (snd na)) ∉ sa.
  Proof using.
    induction l as [|[n a] l IH]; intros sg sa; cbn [SpecReport.alternatives_report].
    { split; [|done]. intros _. split_and!; [by intros ? ?%elem_of_nil|constructor|by intros ? ?%elem_of_nil]. }
    assert (forall {X} (a b c : list X), a ++ b ++ c = [] <-> a = [] /\ b = [] /\ c = []) as Hm.
    { intros X [|] [|] c; cbn; naive_solver. }
    rewrite Hm, IH, groups_report_nil. cbn [map]. rewrite NoDup_cons. cbn [fst snd]. split.
    - intros (K1 & K2 & K3 & K4 & K5). case_bool_decide as D; [done|]. split_and!.
      + intros na [->|Hna]%elem_of_cons alts Ha Hs; [by apply K1|].
        destruct (decide (map key alts ∈ map (map key) (groups_alternative a))) as [Hi|Hi].
        * apply elem_of_list_In, in_map_iff in Hi as (b & E & Hb). apply elem_of_list_In in Hb. rewrite <- E. apply K1; [done|by rewrite E].
        * apply (K3 na); [done..|]. rewrite elem_of_app. naive_solver.
      + intros Hi. apply elem_of_list_In, in_map_iff in Hi as (na & E & Hna). apply elem_of_list_In in Hna. apply (K5 na Hna). rewrite E. apply elem_of_list_here.
      + done.
      + intros na [->|Hna]%elem_of_cons; [done|]. intros Hs. apply (K5 na Hna). by apply elem_of_list_further.
    - intros (K1 & [K2 K3] & K4). split_and!.
      + intros alts Ha Hs. by apply (K1 (n, a) (elem_of_list_here _ _)).
      + rewrite bool_decide_eq_false_2; [done|]. apply (K4 (n, a)), elem_of_list_here.
      + intros na Hna alts Ha Hs. apply (K1 na); [by apply elem_of_list_further|done|]. intros ?. apply Hs. rewrite elem_of_app. by right.
      + done.
      + intros na Hna [E|Hs]%elem_of_cons.
        * apply K2. rewrite <- E. apply elem_of_list_In, in_map_iff. exists na. split; [done|by apply elem_of_list_In].
        * apply (K4 na); [by apply elem_of_list_further|done].
  Qed.
  Lemma report_by_silent G : report_by key G = [] <-> no_duplicates_by key G.
  Proof using.
    unfold report_by, no_duplicates_by. assert (forall {X Y} (f : X -> Y) (a : list X) b, map f a ++ b = [] <-> a = [] /\ b = []) as Hm.
    { intros X Y f a b. destruct a; cbn; naive_solver. }
    rewrite Hm, repeats_nil, alternatives_report_nil. rewrite !NoDup_cons.
    assert (lit "_START" ∉ [lit "_STOP"]) as Hss by (by intros ?%elem_of_list_singleton).
    split.
    - intros [[H1 H2] (H3 & H4 & _)]. split; [split_and!; [ | |done]|split; [done|]].
      + rewrite elem_of_cons. intros [E|E]; [done|]. apply (H2 _ E), elem_of_list_here.
      + intros E. apply (H2 _ E). apply elem_of_list_further, elem_of_list_here.
      + intros alts s (name & alts' & alt & HG & Ha & Hw).
        apply (H3 (name, alt)); [apply in_rule_alternatives; eauto| |by intros ?%elem_of_nil]. by eapply within_groups.
    - intros [(H1 & H2 & H3) (H4 & H5)]. rewrite elem_of_cons in H1. split; [split; [done|]|split_and!; [|done|by intros ? _ ?%elem_of_nil]].
      + intros x Hx [->|[->|?%elem_of_nil]%elem_of_cons]%elem_of_cons; naive_solver.
      + intros [n a] (alts' & HG & Ha)%in_rule_alternatives alts Hg _. apply groups_within_alternative in Hg as [s Hs]. apply (H5 alts s). by exists n, alts', a.
  Qed.
End lists.

Section pass.
  Context (v0 : vocabulary) (R : nat) (G : list rule).
  Context (HR : forall i, i ∈ nonterminals v0 -> i < R) (Hv0 : vinv v0).
  Context (Hlit : forall l s, occurs (Element (StringLiteral l) s) G -> t_name_to_id v0 !! l = None).
  Notation inv := (prod_inv R v0).
  Notation wf := (EbnfLookup.wf v0 R G).
  Context (sF : production_state) (key : alternative -> list item).
  Context (HK : forall alt r, lk_alt v0 sF alt r -> key alt = r).
  Notation groups_report := (groups_report key).
  (** The lists of right-hand sides of the groups seen are those in the cache. *)
  Definition blocks_seen (seen : list (list (list item))) (s : production_state) : Prop :=
    forall rs, is_Some (cached s (KBlock rs)) <-> rs ∈ seen.
  Definition elem_rep (fuel : nat) (e : element) (c : rule_ctx) : Prop :=
    forall s o it s' o' seen, inv s -> wf s -> blocks_seen seen s -> out_visit_element fuel c (s, o) = Ret (it, (s', o')) -> keeps s' sF ->
      o' = o ++ groups_report seen (groups_element e) /\ blocks_seen (key_groups key (groups_element e) ++ seen) s'.

  Lemma HKs alts : forall rs, lk_alts v0 sF alts rs -> map key alts = rs.
  Proof using HK. induction 1 as [|a r alts rs Ha _ IH]; [done|]. cbn [map]. by rewrite IH, (HK _ _ Ha). Qed.
  Lemma blocks_ext seen seen' s : (forall x, x ∈ seen <-> x ∈ seen') -> blocks_seen seen s -> blocks_seen seen' s.
  Proof using. intros E H rs. by rewrite (H rs). Qed.

  Lemma block_rep s o alts sx rs id s' o' seen : inv s -> wf s -> blocks_seen seen s -> occurs (Element (Group alts) sx) G -> lk_alts v0 s alts rs ->
    out_make_block rs (s, o) = (id, (s', o')) -> keeps s' sF ->
    o' = o ++ groups_report seen [alts] /\ blocks_seen (map key alts :: seen) s'.
  Proof using HR HK.
    intros Hi Hw Hs Hocc Ha H HF.
    pose proof (erase_block rs s o) as Em. rewrite H in Em. cbn [fst snd] in Em. symmetry in Em.
    destruct (block_lk v0 R G s alts sx rs id s' Hi Hw Hocc Ha Em) as (Hw' & Hk & Hat).
    pose proof (lk_mono v0 s sF (keeps_trans _ _ _ Hk HF)) as (_ & _ & MF & _).
    assert (map key alts = rs) as -> by (by apply HKs, MF).
    unfold out_make_block in H. cbn [SpecReport.groups_report]. assert (map key alts = rs) as -> by (by apply HKs, MF).
    destruct (block_cache s !! rs) as [n|] eqn:E.
    - injection H as <- <- <-. assert (rs ∈ seen) as Hin by (apply Hs; eauto).
      rewrite bool_decide_eq_true_2 by done. split; [by rewrite app_nil_r|]. revert Hs. apply blocks_ext. intros x. rewrite elem_of_cons. naive_solver.
    - assert (rs ∉ seen) as Hn by (intros Hin%Hs; cbn in Hin; rewrite E in Hin; by destruct Hin).
      rewrite bool_decide_eq_false_2 by done. rewrite app_nil_r.
      destruct (out_insert (ps_next_rule_id s) rs (ps_productions s)) as [P1 o1] eqn:Eo. injection H as <- <- <-. split.
      + f_equal. change o1 with (snd (P1, o1)). rewrite <- Eo. apply out_insert_lines. intros r. split; [|by intros ?%elem_of_nil].
        intros Hp. apply (pi_prods _ _ _ Hi) in Hp as [Hp _]. cbn in Hp. apply (pi_n3 _ _ _ Hi) in Hp as [Hp|Hp]; [apply HR in Hp|lia].
        pose proof (pi_next _ _ _ Hi). lia.
      + intros rs'. cbn [cached block_cache]. rewrite elem_of_cons, <- (Hs rs'). cbn [cached]. destruct (decide (rs' = rs)) as [->|Hne].
        * rewrite lookup_insert. split; [by left|by eauto].
        * rewrite lookup_insert_ne by congruence. naive_solver.
  Qed.
  Lemma elements_rep fuel es cs : Forall2 (fun e c => element_tree e c /\ elem_lk v0 R G (visit_element fuel) e c /\ elem_rep fuel e c) es cs ->
    forall s o its s' o' seen, inv s -> wf s -> blocks_seen seen s -> out_visit_elements (out_visit_element fuel) cs (s, o) = Ret (its, (s', o')) -> keeps s' sF ->
    o' = o ++ groups_report seen (concat (map groups_element es)) /\ blocks_seen (key_groups key (concat (map groups_element es)) ++ seen) s'.
  Proof using HR Hv0.
    induction 1 as [|e c es cs (He & Hl & Ho) HF IH]; intros s o its s' o' seen Hi Hw Hs H HkF; cbn [out_visit_elements] in H.
    - injection H as <- <- <-. cbn. by rewrite app_nil_r.
    - destruct (out_visit_element fuel c (s, o)) as [[it [s1 o1]]| |] eqn:E1; cbn [rbind] in H; [|done|done].
      destruct (out_visit_elements _ cs (s1, o1)) as [[its' [s2 o2]]| |] eqn:E2; cbn [rbind] in H; [|done|done]. injection H as <- <- <-.
      pose proof (erase_ret _ _ _ _ _ (erase_element fuel c s o) E1) as V1.
      pose proof (erase_ret _ _ _ _ _ (erase_elements _ _ (erase_element fuel) cs s1 o1) E2) as V2.
      destruct (Hl s it s1 Hi Hw V1) as (Hw1 & K1 & _).
      destruct (next_mono v0 R HR Hv0 _ _ _ _ _ Hi V1) as [Hi1 _].
      assert (Forall2 (elem_lk v0 R G (visit_element fuel)) es cs) as HF' by (eapply Forall2_impl; [exact HF|naive_solver]).
      destruct (elements_lk v0 R G HR Hv0 fuel es cs s1 its' s2 HF' Hi1 Hw1 V2) as (_ & K2 & _).
      destruct (Ho s o it s1 o1 seen Hi Hw Hs E1) as [-> Hs1]; [by eapply keeps_trans|].
      destruct (IH s1 _ its' s2 o2 _ Hi1 Hw1 Hs1 E2 HkF) as [-> Hs2]. cbn [map concat]. split.
      + by rewrite groups_report_app, app_assoc.
      + revert Hs2. apply blocks_ext. intros x. rewrite key_groups_app, !elem_of_app. naive_solver.
  Qed.
  Lemma alternative_rep fuel a c s o its s' o' seen : alternative_tree a c ->
    (forall es e c', a = Sequence es -> e ∈ es -> element_tree e c' -> elem_lk v0 R G (visit_element fuel) e c' /\ elem_rep fuel e c') ->
    inv s -> wf s -> blocks_seen seen s -> out_visit_alternative (out_visit_element fuel) c (s, o) = Ret (its, (s', o')) -> keeps s' sF ->
    o' = o ++ groups_report seen (groups_alternative a) /\ blocks_seen (key_groups key (groups_alternative a) ++ seen) s'.
  Proof using HR Hv0.
    intros Ht HF Hi Hw Hs H HkF. apply alternative_view in Ht. unfold out_visit_alternative in H. destruct a as [|es].
    - destruct Ht as [x Ex]. rewrite Ex in H. injection H as <- <- <-. cbn. by rewrite app_nil_r.
    - destruct Ht as [Ex Ht]. rewrite Ex in H. cbn [groups_alternative]. eapply elements_rep; eauto.
      assert (forall e c', e ∈ es -> element_tree e c' -> elem_lk v0 R G (visit_element fuel) e c' /\ elem_rep fuel e c') as HF1 by (intros e c'; by apply HF).
      clear -Ht HF1. induction Ht as [|e c' es cs' He _ IH]; constructor.
      + split; [done|]. apply HF1; [apply elem_of_list_here|done].
      + apply IH. intros e' c0 He'. apply HF1. by apply elem_of_list_further.
  Qed.
  Lemma alternatives_rep fuel alts cs : Forall2 alternative_tree alts cs ->
    (forall a es e c', a ∈ alts -> a = Sequence es -> e ∈ es -> element_tree e c' -> elem_lk v0 R G (visit_element fuel) e c' /\ elem_rep fuel e c') ->
    forall s o rs s' o' seen, inv s -> wf s -> blocks_seen seen s -> out_visit_alternatives (out_visit_element fuel) cs (s, o) = Ret (rs, (s', o')) -> keeps s' sF ->
    o' = o ++ groups_report seen (concat (map groups_alternative alts)) /\ blocks_seen (key_groups key (concat (map groups_alternative alts)) ++ seen) s'.
  Proof using HR Hv0.
    induction 1 as [|a c alts cs Ha HFt IH]; intros HF s o rs s' o' seen Hi Hw Hs H HkF; cbn [out_visit_alternatives] in H.
    - injection H as <- <- <-. cbn. by rewrite app_nil_r.
    - destruct (out_visit_alternative _ c (s, o)) as [[r [s1 o1]]| |] eqn:E1; cbn [rbind] in H; [|done|done].
      destruct (out_visit_alternatives _ cs (s1, o1)) as [[rs' [s2 o2]]| |] eqn:E2; cbn [rbind] in H; [|done|done]. injection H as <- <- <-.
      pose proof (erase_ret _ _ _ _ _ (erase_alternative _ _ (erase_element fuel) c s o) E1) as V1.
      pose proof (erase_ret _ _ _ _ _ (erase_alternatives _ _ (erase_element fuel) cs s1 o1) E2) as V2.
      destruct (alternative_lk v0 R G HR Hv0 fuel a c s r s1 Ha) as (Hw1 & K1 & _); [|done|done|done|].
      { intros es e c' -> He Hc'. eapply HF; [apply elem_of_list_here|done|done|done]. }
      destruct (alternative_mono v0 R HR Hv0 _ _ _ _ _ Hi V1) as [Hi1 _].
      destruct (alternatives_lk v0 R G HR Hv0 fuel alts cs s1 rs' s2 HFt) as (_ & K2 & _); [|done|done|done|].
      { intros a' es e c' Ha' Hes He Hc'. eapply HF; [by apply elem_of_list_further|done|done|done]. }
      destruct (alternative_rep fuel a c s o r s1 o1 seen Ha) as [-> Hs1]; [|done|done|done|done|by eapply keeps_trans|].
      { intros es e c' -> He. eapply HF; [apply elem_of_list_here|done|done]. }
      destruct (IH) with (s := s1) (o := o ++ groups_report seen (groups_alternative a)) (rs := rs') (s' := s2) (o' := o2) (seen := key_groups key (groups_alternative a) ++ seen) as [-> Hs2]; try done.
      { intros a' es e c' Ha'. apply HF. by apply elem_of_list_further. }
      cbn [map concat]. split.
      + by rewrite groups_report_app, app_assoc.
      + revert Hs2. apply blocks_ext. intros x. rewrite key_groups_app, !elem_of_app. naive_solver.
  Qed.
  Lemma apply_suffix_rep c id it s o it' s' o' seen : blocks_seen seen s -> out_apply_suffix c id it (s, o) = (it', (s', o')) -> o' = o /\ blocks_seen seen s'.
  Proof using.
    intros Hs H. apply out_suffix_ret in H as [H ->]. split; [done|]. intros rs. by rewrite (suffix_block _ _ _ _ _ _ H rs).
  Qed.
  Lemma element_rep fuel : forall e c, element_tree e c -> (forall x, within_element x e -> occurs x G) -> elem_rep fuel e c.
  Proof using HR Hv0 Hlit HK.
    induction fuel as [|fuel IH]; intros e c Ht Hocc s o it s' o' seen Hi Hw Hs H HkF; [done|]. cbn [out_visit_element fst] in H.
    pose proof (element_tree_view _ _ Ht) as Hview. destruct e as [a sx].
    assert (Hocc' : forall k b, sx = Some (k, b) -> occurs (Element a (Some (k, b))) G).
    { intros k b ->. apply Hocc. constructor. }
    pose proof Hview as [Hv _]. destruct a as [name|l|name|alts].
    - destruct Hv as (_ & t & Et & <-). rewrite Et in H. unfold get_terminal_id_by_name in H. rewrite (pi_t1 _ _ _ Hi) in H.
      destruct (t_name_to_id v0 !! text t) as [id|] eqn:E; cbn [unwrap rbind] in H; [|done]. apply out_ret in H. cbn.
      rewrite app_nil_r. by eapply apply_suffix_rep.
    - exfalso. destruct Hv as (E1 & t & Et & <-). rewrite E1, Et in H. unfold get_terminal_id_by_name in H. rewrite (pi_t1 _ _ _ Hi) in H.
      rewrite (Hlit (text t) sx) in H by (apply Hocc; constructor). done.
    - destruct Hv as (E1 & E2 & t & Et & <-). rewrite E1, E2, Et in H. unfold get_nonterminal_id_by_name in H. rewrite (pi_n1 _ _ _ Hi) in H.
      destruct (nt_name_to_id v0 !! text t) as [id|] eqn:E; cbn [unwrap rbind] in H; [|done]. apply out_ret in H. cbn.
      rewrite app_nil_r. by eapply apply_suffix_rep.
    - destruct Hv as (E1 & E2 & E3 & b & Eb & Hb). rewrite E1, E2, E3, Eb in H. unfold out_visit_block in H.
      destruct (out_visit_alternatives (out_visit_element fuel) (alternative_list b) (s, o)) as [[rs [s1 o1]]| |] eqn:Ea; cbn [rbind] in H; [|done|done].
      destruct (out_make_block rs (s1, o1)) as [id [s2 o2]] eqn:Em. cbn [rbind] in H. apply out_ret in H.
      pose proof (erase_ret _ _ _ _ _ (erase_alternatives _ _ (erase_element fuel) (alternative_list b) s o) Ea) as V1.
      pose proof (erase_block rs s1 o1) as V2. rewrite Em in V2. cbn [fst snd] in V2. symmetry in V2.
      assert (HF : forall a es e c', a ∈ alts -> a = Sequence es -> e ∈ es -> element_tree e c' -> elem_lk v0 R G (visit_element fuel) e c' /\ elem_rep fuel e c').
      { intros a es e c' Ha Hes He Hc'. assert (forall x, within_element x e -> occurs x G) as Hx by (intros x Hx; apply Hocc; by eapply within_group_elem).
        split; [by apply element_lk|by apply IH]. }
      destruct (alternatives_mono v0 R HR Hv0 _ _ _ _ _ Hi V1) as [Hi1 _].
      destruct (alternatives_lk v0 R G HR Hv0 fuel alts (alternative_list b) s rs s1) as (Hw1 & X1 & T1); [by apply block_alternatives| |done|done|done|].
      { intros a es e c' Ha Hes He Hc'. by eapply HF. }
      destruct (block_lk v0 R G s1 alts sx rs id s2 Hi1 Hw1) as (Hw2 & X2 & T2); [apply Hocc; constructor|done|done|].
      pose proof H as [Hsx _]%out_suffix_ret.
      assert (keeps s2 s') as X3 by (by eapply suffix_keeps).
      assert (keeps s2 sF) as KF2 by (by eapply keeps_trans).
      destruct (alternatives_rep fuel alts (alternative_list b)) with (s := s) (o := o) (rs := rs) (s' := s1) (o' := o1) (seen := seen) as [-> Hs1];
        [by apply block_alternatives|exact HF|done|done|done|done|by eapply keeps_trans|].
      assert (occurs (Element (Group alts) sx) G) as Hoc by (apply Hocc; constructor).
      destruct (block_rep s1 _ alts sx rs id s2 o2 _ Hi1 Hw1 Hs1 Hoc T1 Em KF2) as [-> Hs2].
      destruct (apply_suffix_rep c id (NT id) s2 _ it s' o' _ Hs2 H) as [-> Hs3].
      cbn [groups_element groups_atom]. split.
      + by rewrite groups_report_app, app_assoc.
      + revert Hs3. apply blocks_ext. intros x. rewrite key_groups_app. cbn [key_groups map]. rewrite elem_of_cons, !elem_of_app, elem_of_list_singleton. naive_solver.
  Qed.

  (** *** Rules *)
  Notation alternatives_report := (alternatives_report key).
  Notation done_rules := (done_rules v0 R G).
  Lemma rule_alternative_rep fuel L name id alt c s o s' o' sg : done_rules L s -> blocks_seen sg s ->
    nt_name_to_id v0 !! name = Some id -> alternative_tree alt c -> (forall x, within_alternative x alt -> occurs x G) ->
    out_rule_alternative fuel id (s, o) c = Ret (s', o') -> keeps s' sF ->
    o' = o ++ alternatives_report sg (key_pairs key L) [(name, alt)] /\ blocks_seen (key_groups key (groups_alternative alt) ++ sg) s'.
  Proof using HR Hv0 Hlit HK.
    intros (Hi & Hw & Hm & Hsound & Hcomp) Hs Hname Ht Hocc H HkF.
    destruct (named_below v0 R HR Hv0 _ _ Hname) as [Hid HidR].
    unfold out_rule_alternative in H.
    destruct (out_visit_alternative (out_visit_element fuel) c (s, o)) as [[r [s1 o1]]| |] eqn:E; cbn [rbind] in H; [|done|done].
    apply out_ret in H. injection H as <- <-.
    pose proof (erase_ret _ _ _ _ _ (erase_alternative _ _ (erase_element fuel) c s o) E) as V.
    assert (forall es e c', alt = Sequence es -> e ∈ es -> element_tree e c' -> forall x, within_element x e -> occurs x G) as Ho.
    { intros es e c' -> He _ x Hx. apply Hocc. by econstructor. }
    destruct (alternative_lk v0 R G HR Hv0 fuel alt c s r s1 Ht) as (Hw1 & K1 & T1); [|done|done|done|].
    { intros es e c' Ea He Hc'. apply element_lk; try done. by eapply Ho. }
    match type of Hm with met _ ?L _ => destruct (alternative_met v0 R G HR Hv0 fuel alt c L s r s1 Ht) as (M1 & [X1 X1']) end; [|done|done|exact Hm|done|].
    { intros es e c' Ea He Hc'. apply element_met; try done. by eapply Ho. }
    assert (keeps s1 sF) as K1F by (intros [[]|] n Hn; by apply HkF).
    destruct (alternative_rep fuel alt c s o r s1 o1 sg Ht) as [-> Hseen]; [|done|done|done|done|done|].
    { intros es e c' Ea He Hc'. split; [apply element_lk; try done; by eapply Ho|apply element_rep; [done|by eapply Ho]]. }
    pose proof (lk_mono v0 s1 sF K1F) as (_ & _ & _ & MF & _). pose proof (lk_mono v0 s s1 K1) as (_ & _ & _ & N1 & _).
    split; [|intros rs; exact (Hseen rs)].
    cbn [SpecReport.alternatives_report]. rewrite app_nil_r, <- app_assoc. f_equal. f_equal. rewrite (HK alt r) by by apply MF.
    rewrite (bool_decide_ext (Production id r ∈ ps_productions s1) ((name, r) ∈ key_pairs key L)); [done|].
    unfold key_pairs. rewrite elem_of_list_fmap. split.
    - intros Hp. apply X1' in Hp; [|pose proof (pi_next _ _ _ Hi); lia]. destruct (Hsound id r HidR Hp) as (n' & a' & HLin & Hn' & La').
      assert (n' = name) as ->.
      { destruct (vi_n _ Hv0 n' id) as [A _]. destruct (vi_n _ Hv0 name id) as [B _]. specialize (A Hn'). specialize (B Hname). congruence. }
      exists (name, a'). split; [|done]. cbn [fst snd]. f_equal. symmetry. by apply HK, MF, N1.
    - intros ([n' a'] & [= -> ->] & HLin). cbn [fst snd] in *. destruct (Hcomp n' a' HLin) as (id' & r' & Hn' & Hp & La').
      assert (id' = id) as -> by congruence. rewrite (HK a' r') by by apply MF, N1. apply X1'; [|done]. by apply (met_left _ _ _ Hm _ Hp).
  Qed.
  Lemma rule_alternatives_rep fuel name id alts cs : Forall2 alternative_tree alts cs -> forall L s o s' o' sg,
    done_rules L s -> blocks_seen sg s -> nt_name_to_id v0 !! name = Some id -> (forall alt x, alt ∈ alts -> within_alternative x alt -> occurs x G) ->
    rfold (out_rule_alternative fuel id) cs (s, o) = Ret (s', o') -> keeps s' sF ->
    o' = o ++ alternatives_report sg (key_pairs key L) (map (pair name) alts) /\ blocks_seen (key_groups key (groups_of (map (pair name) alts)) ++ sg) s'.
  Proof using HR Hv0 Hlit HK.
    induction 1 as [|a c alts cs Ha HF IH]; intros L s o s' o' sg HP Hs Hname Hkn H HkF; cbn [rfold] in H.
    - apply out_ret in H. injection H as <- <-. cbn. by rewrite app_nil_r.
    - destruct (out_rule_alternative fuel id (s, o) c) as [[s1 o1]| |] eqn:E; cbn [rbind] in H; [|done|done].
      pose proof (drop_ret _ _ _ _ (erase_rule_alternative fuel id s o c) E) as V1.
      pose proof (drop_ret _ _ _ _ (erase_fold _ _ (erase_rule_alternative fuel id) cs s1 o1) H) as V2.
      assert (Kna : forall x, within_alternative x a -> occurs x G) by (intros x; apply Hkn, elem_of_list_here).
      assert (Kn : forall alt x, alt ∈ alts -> within_alternative x alt -> occurs x G) by (intros alt x Hal; apply Hkn; by apply elem_of_list_further).
      assert (HP1 : done_rules (L ++ [(name, a)]) s1) by (by eapply rule_alternative_met).
      assert (keeps s1 s') as K12 by (eapply fold_keeps; [|exact V2]; intros; by eapply rule_alternative_keeps).
      destruct (rule_alternative_rep fuel L name id a c s o s1 o1 sg HP Hs Hname Ha Kna E) as [-> Hs1]; [by eapply keeps_trans|].
      destruct (IH _ s1 _ s' o' _ HP1 Hs1 Hname Kn H HkF) as [-> Hs2].
      change (map (pair name) (a :: alts)) with ([(name, a)] ++ map (pair name) alts). split.
      + rewrite alternatives_report_app, app_assoc. f_equal. apply alternatives_report_ext; intros x.
        * change (groups_of [(name, a)]) with (groups_alternative a ++ []). by rewrite app_nil_r.
        * unfold key_pairs. rewrite map_app. fold (key_pairs key L). cbn [map fst snd app]. rewrite elem_of_app, !elem_of_cons, elem_of_nil. naive_solver.
      + revert Hs2. apply blocks_ext. intros x. rewrite groups_of_app, key_groups_app.
        change (groups_of [(name, a)]) with (groups_alternative a ++ []). rewrite app_nil_r, !elem_of_app. naive_solver.
  Qed.
  Lemma rules_rep fuel rules cs : Forall2 (fun na c => rule_tree (ParserRule na.1 na.2) c) rules cs -> forall L s o s' o' sg,
    done_rules L s -> blocks_seen sg s -> (forall name alts alt x, (name, alts) ∈ rules -> alt ∈ alts -> within_alternative x alt -> occurs x G) ->
    rfold (out_parser_rule fuel) cs (s, o) = Ret (s', o') -> keeps s' sF ->
    o' = o ++ alternatives_report sg (key_pairs key L) (concat (map (fun na => map (pair na.1) na.2) rules)).
  Proof using HR Hv0 Hlit HK.
    induction 1 as [|[name alts] c rules cs Ht HF IH]; intros L s o s' o' sg HP Hs Hkn H HkF; cbn [rfold] in H.
    - apply out_ret in H. injection H as <- <-. cbn. by rewrite app_nil_r.
    - destruct (out_parser_rule fuel (s, o) c) as [[s1 o1]| |] eqn:E; cbn [rbind] in H; [|done|done].
      pose proof (drop_ret _ _ _ _ (erase_parser_rule fuel s o c) E) as V1.
      pose proof (drop_ret _ _ _ _ (erase_fold _ _ (erase_parser_rule fuel) cs s1 o1) H) as V2.
      assert (keeps s1 s') as K12 by (eapply fold_keeps; [|exact V2]; intros; by eapply rule_keeps).
      cbn [map concat fst snd].
      apply rule_view in Ht as (_ & (t & Et & Hn) & b & Eb & Hb). unfold out_parser_rule in E. unfold production_visit_parser_rule in V1. cbn [fst snd] in *.
      rewrite Et, Eb in E, V1. cbn [unwrap rbind] in E, V1. unfold get_nonterminal_id_by_name in E, V1. rewrite (pi_n1 _ _ _ (proj1 HP)), Hn in E, V1.
      destruct (nt_name_to_id v0 !! name) as [id|] eqn:En; cbn [unwrap rbind] in E, V1; [|done].
      assert (Ka : forall alt x, alt ∈ alts -> within_alternative x alt -> occurs x G) by (intros alt x; apply (Hkn name), elem_of_list_here).
      assert (HP1 : done_rules (L ++ map (pair name) alts) s1).
      { eapply rule_alternatives_met; [exact HR|exact Hv0|exact Hlit|by apply block_alternatives|exact HP|exact En|exact Ka|exact V1]. }
      destruct (rule_alternatives_rep fuel name id alts (alternative_list b) (block_alternatives _ _ Hb) L s o s1 o1 sg HP Hs En Ka E) as [-> Hs1]; [by eapply keeps_trans|].
      rewrite (IH _ s1 _ s' o' _ HP1 Hs1) by (try done; intros n' a' alt' x' Hn'; apply (Hkn n'); by apply elem_of_list_further).
      rewrite alternatives_report_app, app_assoc. f_equal. apply alternatives_report_ext; intros x; [done|].
      unfold key_pairs. rewrite map_app, !elem_of_app. naive_solver.
  Qed.
End pass.

Lemma c81_report_all G r g data lines : grammar_tree G r -> proper G -> out_load_tree r = Ret (g, data, lines) ->
  exists f, stands_for G (g_vocabulary g) f /\ one_each_number G f /\
    (forall p, p ∈ productions g <-> rewritten G (g_vocabulary g) f (first_operand (number f) G) p) /\
    lines = report_by (items f) G.
Proof.
  intros Ht Hp Hout.
  destruct (out_symbol_pass G r Ht Hp) as (s2 & Eo). pose proof (erase_ret _ _ _ _ _ (erase_symbols r _ []) Eo) as Ev.
  destruct (symbol_pass_tree G r Ht Hp) as (s2' & E2 & Hsym & HRn).
  assert (s2' = s2) as -> by congruence. clear E2.
  unfold out_load_tree in Hout. destruct (visit_children literal_visitor r _) as [[x s1]| |] eqn:E1; cbn [rbind] in Hout; [|done|done].
  apply literal_pass in E1. subst s1. cbn [lt_vocabulary lt_data lt_next_token_id] in Hout.
  change (g_vocabulary (grammar_new [25105; 30340; 25991; 27861]%N)) with vocabulary_new in Hout. rewrite Eo in Hout. cbn [rbind] in Hout.
  change (productions (grammar_new [25105; 30340; 25991; 27861]%N)) with (∅ : gset production) in Hout.
  destruct (out_rule_list (height r) r _) as [[s3 o3]| |] eqn:E3o; cbn [rbind] in Hout; [|done|done]. apply out_ret in Hout. injection Hout as <- <- <-.
  pose proof (drop_ret _ _ _ _ (erase_rule_list (height r) r _ _) E3o) as E3. clear Eo Ev.
  destruct (c83_state _ _ _ _ (met_state G r s2 s3 Ht Hp Hsym E3)) as (F1 & F2 & F3). cbn [g_vocabulary productions].
  eexists. split; [exact F1|]. split; [exact F2|]. split; [exact F3|].
  destruct Hsym as (Hs & HT & HNT & Hz).
  pose proof (production_start s2 Hs) as Hi0.
  assert (Hv0 : vinv (sy_vocabulary s2)) by (destruct (si_ops _ Hs) as [ops ->]; apply vinv_reach).
  assert (HRlt : forall i, i ∈ nonterminals (sy_vocabulary s2) -> i < sy_next_rule_id s2) by (intros i Hi; by apply (si_nts _ Hs) in Hi as [? _]).
  set (v0 := sy_vocabulary s2) in *. set (R := sy_next_rule_id s2) in *.
  assert (Hlit : forall l s, occurs (Element (StringLiteral l) s) G -> t_name_to_id v0 !! l = None).
  { intros l s Ho. apply eq_None_not_Some. rewrite HT. destruct Hp as (_ & Hp & _). by apply (Hp l s). }
  pose proof Ht as (m & cs & Er & HF). unfold out_rule_list in E3o.
  pose proof (grammar_parser_rules G m cs HF) as HF'. rewrite <- Er in HF'.
  unfold report_by. rewrite rule_alternatives_parser.
  refine (rules_rep v0 R G HRlt Hv0 Hlit s3 (items (st_elem v0 s3)) _ (height r) _ _ HF' [] _ _ _ _ [] _ _ _ E3o _).
  - intros alt r0 Hl. rewrite items_st. by apply st_lk.
  - split; [exact Hi0|]. split; [|split; [|split]].
    + split.
      * intros [[]|] n; cbn; by rewrite lookup_empty.
      * intros [[]|] k' n; cbn; by rewrite lookup_empty.
      * intros n Hn. simpl in Hn. lia.
      * intros [] i n; cbn; by rewrite lookup_empty.
      * intros rs n; cbn; by rewrite lookup_empty.
    + split.
      * intros p Hpr. simpl in Hpr. by apply elem_of_empty in Hpr.
      * intros rs n; cbn; by rewrite lookup_empty.
      * intros [] i n; cbn; by rewrite lookup_empty.
      * intros k a Hka. simpl in Hka. by apply elem_of_nil in Hka.
    + intros i r' _ Hr'. simpl in Hr'. by apply elem_of_empty in Hr'.
    + intros n a Hn. by apply elem_of_nil in Hn.
  - intros rs. cbn. rewrite lookup_empty. split; [by intros [? ?]|by intros ?%elem_of_nil].
  - intros n alts alt y Hn Ha Hx. exists n, alts, alt. split; [by apply elem_of_parser_rules|done].
  - apply keeps_refl.
Qed.
Lemma c81_silent_all G r g data lines : grammar_tree G r -> proper G -> out_load_tree r = Ret (g, data, lines) ->
  exists f, stands_for G (g_vocabulary g) f /\ one_each_number G f /\
    (forall p, p ∈ productions g <-> rewritten G (g_vocabulary g) f (first_operand (number f) G) p) /\
    (lines = [] <-> no_duplicates_by (items f) G).
Proof.
  intros Ht Hp H. destruct (c81_report_all G r g data lines Ht Hp H) as (f & H1 & H2 & H3 & ->). exists f.
  split; [exact H1|]. split; [exact H2|]. split; [exact H3|]. apply report_by_silent.
Qed.
Lemma c81_report_plain G : report_by plain_alternative G = report G.
Proof. reflexivity. Qed.

(** a: X* | c*; ...: the two alternatives are the same symbol. *)
Lemma ex_spurious_meets : grammar_tree ex_spurious (build_grammar ex_spurious) /\ proper ex_spurious /\
  exists g data, out_load_tree (build_grammar ex_spurious) = Ret (g, data, [says_alternative]).
Proof.
  split; [by apply build_grammar_tree|]. split; [apply proper_computed; by vm_compute|].
  exists (grammar_of (build_grammar ex_spurious)), (rules_of (build_grammar ex_spurious)).
  assert (lines_of (build_grammar ex_spurious) = [says_alternative]) as <- by (by vm_compute). by apply lines_ret; vm_compute.
Qed.
