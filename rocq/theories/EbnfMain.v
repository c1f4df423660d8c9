(** EbnfMain.v -- C40, C42. *)
From Verif Require Export EbnfProofs.

Scheme within_element_mut := Minimality for within_element Sort Prop
with within_alternative_mut := Minimality for within_alternative Sort Prop.
Combined Scheme within_mut from within_element_mut, within_alternative_mut.

Lemma load_tree_grammar G r : grammar_tree G r -> proper G ->
  (exists s2, sym_names (terminal_names G) (parser_rule_names G) s2 /\ sy_next_rule_id s2 = length (parser_rule_names G) /\
     forall g data, load_tree r = Ret (g, data) -> exists s3,
       production_visit_rule_list (height r) r (production_visitor_new (sy_vocabulary s2) ∅ (sy_next_rule_id s2)) = Ret s3 /\
       g = Grammar [25105; 30340; 25991; 27861]%N (ps_vocabulary s3) (ps_productions s3)) /\
  ((forall l s, ~ occurs (Element (StringLiteral l) s) G) ->
   exists s2, sym_names (terminal_names G) (parser_rule_names G) s2 /\ sy_next_rule_id s2 = length (parser_rule_names G) /\
     (forall s3, production_visit_rule_list (height r) r (production_visitor_new (sy_vocabulary s2) ∅ (sy_next_rule_id s2)) = Ret s3 ->
        exists out, load_tree r = Ret out) /\
     (production_visit_rule_list (height r) r (production_visitor_new (sy_vocabulary s2) ∅ (sy_next_rule_id s2)) = OutOfFuel -> load_tree r = OutOfFuel)).
Proof.
  intros Ht Hp. destruct (symbol_pass_tree G r Ht Hp) as (s2 & E & Hs & Hn). split.
  - exists s2. split; [done|]. split; [done|]. intros g data H. unfold load_tree in H.
    destruct (visit_children literal_visitor r _) as [[x s1]| |] eqn:E1; cbn [rbind] in H; [|done|done].
    apply literal_pass in E1. subst s1. cbn [lt_vocabulary lt_data lt_next_token_id] in H.
    change (g_vocabulary (grammar_new [25105; 30340; 25991; 27861]%N)) with vocabulary_new in H. rewrite E in H. cbn [rbind] in H.
    change (productions (grammar_new [25105; 30340; 25991; 27861]%N)) with (∅ : gset production) in H.
    destruct (production_visit_rule_list _ _ _) as [s3| |]; cbn [rbind] in H; [|done|done]. injection H as <- <-. exists s3. done.
  - intros Hno. exists s2. split; [done|]. split; [done|].
    assert (load_tree r = let! s3 := production_visit_rule_list (height r) r (production_visitor_new (sy_vocabulary s2) ∅ (sy_next_rule_id s2)) in
      Ret (Grammar [25105; 30340; 25991; 27861]%N (ps_vocabulary s3) (ps_productions s3), sy_data s2)) as ->.
    { unfold load_tree. rewrite (literal_pass_returns G r _ Ht Hno). cbn [rbind lt_vocabulary lt_data lt_next_token_id].
      change (g_vocabulary (grammar_new [25105; 30340; 25991; 27861]%N)) with vocabulary_new. rewrite E. done. }
    split.
    + intros s3 ->. cbn [rbind]. eauto.
    + by intros ->.
Qed.

Lemma production_start s2 : sym_inv s2 -> prod_inv (sy_next_rule_id s2) (sy_vocabulary s2) (production_visitor_new (sy_vocabulary s2) ∅ (sy_next_rule_id s2)).
Proof.
  intros Hs. destruct (si_ops _ Hs) as [ops Ho]. split; simpl; eauto.
  - intros i. split; [auto|]. intros [?|?]; [done|lia].
  - intros p Hp. by apply elem_of_empty in Hp.
  - intros k i. by rewrite lookup_empty.
  - intros k i. by rewrite lookup_empty.
  - intros k i. by rewrite lookup_empty.
  - intros k i. by rewrite lookup_empty.
Qed.
Lemma production_start_sem v R G N P s : ps_productions s = ∅ -> star_cache s = ∅ -> plus_cache s = ∅ -> question_cache s = ∅ -> block_cache s = ∅ ->
  P = ps_productions s -> sem v R G N s.
Proof.
  intros E1 E2 E3 E4 E5 _. split.
  - intros p. rewrite E1. by intros ?%elem_of_empty.
  - intros i n. rewrite E2. by rewrite lookup_empty.
  - intros i n. rewrite E3. by rewrite lookup_empty.
  - intros i n. rewrite E4. by rewrite lookup_empty.
  - intros i n. rewrite E5. by rewrite lookup_empty.
Qed.

Definition parser_rules (G : list rule) : list (str * list alternative) :=
  omap (fun r => match r with ParserRule n a => Some (n, a) | _ => None end) G.
Lemma elem_of_parser_rules G n a : (n, a) ∈ parser_rules G <-> ParserRule n a ∈ G.
Proof.
  unfold parser_rules. rewrite elem_of_list_omap. split.
  - intros ([n' a'|] & Hx & E); [|done]. by injection E as <- <-.
  - intros H. by exists (ParserRule n a).
Qed.
Lemma elem_of_flat G name alt : (name, alt) ∈ concat (map (fun na => map (pair na.1) na.2) (parser_rules G)) <->
  exists alts, ParserRule name alts ∈ G /\ alt ∈ alts.
Proof.
  rewrite elem_of_list_In, in_concat. split.
  - intros (l & Hl & Hx). apply in_map_iff in Hl as ([n alts] & <- & Hin). cbn [fst snd] in Hx.
    apply in_map_iff in Hx as (a & [= <- <-] & Ha). exists alts. split.
    + apply elem_of_parser_rules. by apply elem_of_list_In.
    + by apply elem_of_list_In.
  - intros (alts & HG & Ha). exists (map (pair name) alts). split.
    + apply in_map_iff. exists (name, alts). split; [done|]. apply elem_of_list_In. by apply elem_of_parser_rules.
    + apply in_map_iff. exists alt. split; [done|]. by apply elem_of_list_In.
Qed.

(** What load_ast makes of a grammar without collisions. *)
Lemma translation G r g data :
  grammar_tree G r -> proper G -> load_tree r = Ret (g, data) -> no_collision (g_vocabulary g) G ->
  exists v0 R N, vinv v0 /\
    t_name_to_id (g_vocabulary g) = t_name_to_id v0 /\ nt_name_to_id (g_vocabulary g) = nt_name_to_id v0 /\
    nt_id_to_name (g_vocabulary g) = nt_id_to_name v0 /\
    (forall name id, nt_name_to_id v0 !! name = Some id -> id < R) /\
    (forall id r, id < R -> Production id r ∈ productions g -> exists name alts alt, ParserRule name alts ∈ G /\ alt ∈ alts /\
       nt_name_to_id v0 !! name = Some id /\ tr_alt v0 R (productions g) N alt r) /\
    (forall name alts alt, ParserRule name alts ∈ G -> alt ∈ alts -> exists id r, nt_name_to_id v0 !! name = Some id /\
       Production id r ∈ productions g /\ tr_alt v0 R (productions g) N alt r).
Proof.
  intros Ht Hp Hload Hnc. destruct (load_tree_grammar G r Ht Hp) as [(s2 & (Hs & HT & HNT & _) & HR & Hrun) _].
  destruct (Hrun g data Hload) as (s3 & E3 & ->). cbn [g_vocabulary productions] in *.
  pose proof (production_start s2 Hs) as Hi0.
  assert (Hv0 : vinv (sy_vocabulary s2)) by (destruct (si_ops _ Hs) as [ops ->]; apply vinv_reach).
  assert (HRlt : forall i, i ∈ nonterminals (sy_vocabulary s2) -> i < sy_next_rule_id s2) by (intros i Hi; by apply (si_nts _ Hs) in Hi as [? _]).
  pose proof (rule_list_inv _ _ HRlt Hv0 _ _ _ _ Hi0 E3) as Hi3.
  set (v0 := sy_vocabulary s2) in *. set (R := sy_next_rule_id s2) in *.
  assert (Hlit : forall l s, occurs (Element (StringLiteral l) s) G -> t_name_to_id v0 !! l = None).
  { intros l s Ho. apply eq_None_not_Some. rewrite HT. destruct Hp as (_ & Hp & _). by apply (Hp l s). }
  assert (Hinj : forall k it it', allowed v0 R G (ps_next_rule_id s3) k it -> allowed v0 R G (ps_next_rule_id s3) k it' -> item_id it = item_id it' -> it = it').
  { assert (Hx : forall k t n, allowed v0 R G (ps_next_rule_id s3) k (T t) -> allowed v0 R G (ps_next_rule_id s3) k (NT n) -> t <> n).
    { intros k t n (a & b & P & M & Ho & HM & Ha) (a' & b' & P' & M' & Ho' & HM' & Ha') <-.
      inversion Ha as [nm ? Hl| |]; subst. destruct (Hnc k b nm t Ho) as [H1 H2].
      { unfold get_terminal_id_by_name. by rewrite (pi_t1 _ _ _ Hi3). }
      inversion Ha' as [|m ? Hm|alts ? rs Hal Hn Hr]; subst.
      - apply (H1 m b' Ho'). unfold get_nonterminal_id_by_name. by rewrite (pi_n1 _ _ _ Hi3).
      - destruct (H2 alts b' Ho') as [nm' Hnm'].
        + unfold is_nonterminal_id. apply bool_decide_eq_true. apply (pi_n3 _ _ _ Hi3). right. lia.
        + unfold get_nonterminal_name_by_id in Hnm'. rewrite (pi_n2 _ _ _ Hi3) in Hnm'.
          assert (t ∈ nonterminals v0) as K by (apply (vi_nd _ Hv0); eauto). apply HRlt in K. lia. }
    intros k [n|t] [n'|t'] H1 H2 E; simpl in E; subst; try done.
    - exfalso. by apply (Hx k t' t').
    - exfalso. by apply (Hx k n' n'). }
  pose proof Ht as (m & cs & Er & HF). unfold production_visit_rule_list in E3.
  pose proof (grammar_parser_rules G m cs HF) as HF'. rewrite <- Er in HF'.
  edestruct (rules_sim v0 R G (ps_next_rule_id s3) HRlt Hv0 Hlit Hinj (height r) _ _ HF' []) as (_ & _ & Hsound & Hcomp); [|  |exact E3|done|].
  { split; [exact Hi0|]. split; [by eapply production_start_sem|]. split.
    - intros i r' _ Hr'. simpl in Hr'. by apply elem_of_empty in Hr'.
    - intros n a Hn. by apply elem_of_nil in Hn. }
  { intros n alts alt x Hn Ha Hx. exists n, alts, alt. split; [by apply elem_of_parser_rules|done]. }
  exists v0, R, (ps_next_rule_id s3). split_and!; [done|apply Hi3|apply Hi3|apply Hi3|..].
  - intros n i Hn. by apply (named_below v0 R HRlt Hv0 n).
  - intros i r' Hir Hr'. destruct (Hsound i r' Hir Hr') as (n & a & HL & Hn & Ha). apply elem_of_flat in HL as (alts & HG & Hal). eauto 10.
  - intros n alts a HG Hal. apply Hcomp, elem_of_flat. eauto.
Qed.

Lemma c40 G r g data name id w :
  grammar_tree G r -> proper G -> load_tree r = Ret (g, data) -> no_collision (g_vocabulary g) G ->
  get_nonterminal_id_by_name (g_vocabulary g) name = Some id ->
  derives (productions g) [NT id] (map T w) <->
  exists names, Forall2 (fun n i => get_terminal_id_by_name (g_vocabulary g) n = Some i) names w /\
    matches_atom G (RuleRef name) names.
Proof.
  intros Ht Hp Hload Hnc Hname. destruct (translation G r g data Ht Hp Hload Hnc) as (v0 & R & N & Hv0 & Et & En & Ei & HR & Hsound & Hcomp).
  unfold get_nonterminal_id_by_name, get_terminal_id_by_name in *. rewrite Et. rewrite En in Hname.
  by apply (language v0 R G (productions g) N).
Qed.

(** ** C31 *)
Lemma tr_within_element v0 R P N x :
  (forall e, within_element x e -> forall it, tr_elem v0 R P N e it -> exists it', tr_elem v0 R P N x it') /\
  (forall a, within_alternative x a -> forall its, tr_alt v0 R P N a its -> exists it', tr_elem v0 R P N x it').
Proof.
  apply within_mut.
  - eauto.
  - intros alts alt e s Halt _ IH -> it Ht.
    assert (exists it0, tr_atom v0 R P N (Group alts) it0) as [it0 Ha] by (inversion Ht; subst; eauto).
    inversion Ha as [| |? n rs Has Hn Hr]; subst. destruct (tr_alts_alt _ _ _ _ _ _ _ Has Halt) as (r & _ & Hr'). by eapply IH.
  - intros es e He _ IH its Ht. inversion Ht as [|? its0 Hes]; subst. clear Ht. induction Hes as [|e' it' es its Hit Hes IH'].
    + by apply elem_of_nil in He.
    + apply elem_of_cons in He as [->|He]; [by eapply IH|by apply IH'].
Qed.
Lemma c31_conflict G r g data a b n w :
  grammar_tree G r -> proper G -> load_tree r = Ret (g, data) -> no_collision (g_vocabulary g) G ->
  occurs (Element a (Some (Plus, b))) G -> matches_atom G a (n :: w) -> ~ ll1 (productions g).
Proof.
  intros Ht Hp Hload Hnc Hocc Hm Hll. destruct (translation G r g data Ht Hp Hload Hnc) as (v0 & R & N & Hv0 & Et & En & Ei & HR & Hsound & Hcomp).
  destruct Hocc as (name & alts & alt & HG & Halt & Hw). destruct (Hcomp _ _ _ HG Halt) as (id & r' & _ & _ & Hr').
  destruct (proj2 (tr_within_element v0 R (productions g) N _) _ Hw _ Hr') as [it Hit].
  inversion Hit as [|? it0 ? ? k Ha Hk Hr]; subst.
  destruct (proj1 (proj2 (matches_derives v0 R G (productions g) N HR Hv0 Hsound Hcomp)) _ _ Hm _ Ha) as (ids & Hids & Hd).
  inversion Hids as [|? t ? ids' _ _]; subst.
  assert (Production k [it0; NT k] = Production k [it0]) as E; [|by injection E].
  apply (Hll _ _ t); [apply Hr; set_solver|apply Hr; set_solver|done|left..].
  - exists (map T ids' ++ [NT k]). simpl. apply (derives_app _ [it0] (map T (t :: ids')) [NT k] [NT k]); [done|apply derives_refl].
  - exists (map T ids'). done.
Qed.

(** ** C42 *)
Definition ok_leaf (v0 : vocabulary) (x : element) : Prop :=
  match x with
  | Element (TokenRef n) _ => is_Some (t_name_to_id v0 !! n)
  | Element (StringLiteral l) _ => is_Some (t_name_to_id v0 !! l)
  | Element (RuleRef n) _ => is_Some (nt_name_to_id v0 !! n)
  | Element (Group _) _ => True
  end.
Section panics.
  Context (v0 : vocabulary) (R : nat).
  Context (HR : forall i, i ∈ nonterminals v0 -> i < R) (Hv0 : vinv v0).
  Notation inv := (prod_inv R v0).
  Definition ok_element (e : element) : Prop := forall x, within_element x e -> ok_leaf v0 x.
  Definition ok_alternative (a : alternative) : Prop := forall x, within_alternative x a -> ok_leaf v0 x.

  Definition faithful (f : rule_ctx -> production_state -> res (item * production_state)) (e : element) (c : rule_ctx) : Prop :=
    forall s, inv s -> (ok_element e -> f c s <> Panic) /\ (forall out, f c s = Ret out -> ok_element e).
  Lemma ok_sequence es : ok_alternative (Sequence es) <-> Forall ok_element es.
  Proof using.
    rewrite Forall_forall. split.
    - intros H e He x Hx. apply H. by econstructor.
    - intros H x Hx. inversion Hx as [? e He Hx']; subst. by apply (H e).
  Qed.
  Lemma elements_faithful fuel es cs : Forall2 (faithful (visit_element fuel)) es cs -> forall s, inv s ->
    (Forall ok_element es -> visit_elements (visit_element fuel) cs s <> Panic) /\
    (forall out, visit_elements (visit_element fuel) cs s = Ret out -> Forall ok_element es).
  Proof using HR Hv0.
    induction 1 as [|e c es cs He _ IH]; intros s Hi; simpl; [split; [done|constructor]|].
    destruct (He s Hi) as [H1 H2]. destruct (visit_element fuel c s) as [[it s1]| |] eqn:E; cbn [rbind].
    - destruct (next_mono v0 R HR Hv0 _ _ _ _ _ Hi E) as [Hi1 _]. destruct (IH s1 Hi1) as [K1 K2].
      destruct (visit_elements (visit_element fuel) cs s1) as [[its s2]| |]; cbn [rbind].
      + split; [done|]. intros _ _. constructor; [by eapply H2|by eapply K2].
      + split; [|done]. intros Hf. apply Forall_cons in Hf as [_ Hf]. exfalso. by apply K1.
      + done.
    - split; [|done]. intros Hf. apply Forall_cons in Hf as [Hf _]. exfalso. by apply H1.
    - done.
  Qed.
  Lemma alternative_faithful fuel a c s : alternative_tree a c ->
    (forall es e c', a = Sequence es -> e ∈ es -> element_tree e c' -> faithful (visit_element fuel) e c') -> inv s ->
    (ok_alternative a -> visit_alternative (visit_element fuel) c s <> Panic) /\
    (forall out, visit_alternative (visit_element fuel) c s = Ret out -> ok_alternative a).
  Proof using HR Hv0.
    intros Ht HF Hi. apply alternative_view in Ht. unfold visit_alternative. destruct a as [|es].
    - destruct Ht as [x ->]. split; [done|]. intros _ _ x' Hx'. inversion Hx'.
    - destruct Ht as [-> Ht]. setoid_rewrite ok_sequence. apply elements_faithful; [|done].
      assert (forall e c', e ∈ es -> element_tree e c' -> faithful (visit_element fuel) e c') as HF1 by (intros e c'; by apply HF).
      clear -Ht HF1. induction Ht as [|e c' es cs' He _ IH]; constructor.
      + apply HF1; [apply elem_of_list_here|done].
      + apply IH. intros e' c0 He'. apply HF1. by apply elem_of_list_further.
  Qed.
  Lemma alternatives_faithful fuel alts cs : Forall2 alternative_tree alts cs ->
    (forall a es e c', a ∈ alts -> a = Sequence es -> e ∈ es -> element_tree e c' -> faithful (visit_element fuel) e c') -> forall s, inv s ->
    (Forall ok_alternative alts -> visit_alternatives (visit_element fuel) cs s <> Panic) /\
    (forall out, visit_alternatives (visit_element fuel) cs s = Ret out -> Forall ok_alternative alts).
  Proof using HR Hv0.
    induction 1 as [|a c alts cs Ha _ IH]; intros HF s Hi; simpl; [split; [done|constructor]|].
    destruct (alternative_faithful fuel a c s Ha) as [H1 H2]; [|done|].
    { intros es e c' -> He. eapply HF; [apply elem_of_list_here|done|done]. }
    assert (HF' : forall a es e c', a ∈ alts -> a = Sequence es -> e ∈ es -> element_tree e c' -> faithful (visit_element fuel) e c').
    { intros a' es e c' Ha'. apply HF. by apply elem_of_list_further. }
    destruct (visit_alternative (visit_element fuel) c s) as [[it s1]| |] eqn:E; cbn [rbind].
    - destruct (alternative_mono v0 R HR Hv0 _ _ _ _ _ Hi E) as [Hi1 _]. destruct (IH HF' s1 Hi1) as [K1 K2].
      destruct (visit_alternatives (visit_element fuel) cs s1) as [[its s2]| |]; cbn [rbind].
      + split; [done|]. intros _ _. constructor; [by eapply H2|by eapply K2].
      + split; [|done]. intros Hf. apply Forall_cons in Hf as [_ Hf]. exfalso. by apply K1.
      + done.
    - split; [|done]. intros Hf. apply Forall_cons in Hf as [Hf _]. exfalso. by apply H1.
    - done.
  Qed.
  Lemma ok_group alts sx : ok_element (Element (Group alts) sx) <-> Forall ok_alternative alts.
  Proof using.
    rewrite Forall_forall. split.
    - intros H a Ha x Hx. apply H. by econstructor.
    - intros H x Hx. inversion Hx as [E|alts' alt e s' Ha Hx' E1]; subst; [done|]. injection E1 as <- <-. by apply (H alt).
  Qed.
  Lemma ok_self e : (forall alts s, e <> Element (Group alts) s) -> ok_element e <-> ok_leaf v0 e.
  Proof using.
    intros Hne. split; [intros H; apply H; constructor|]. intros H x Hx.
    inversion Hx as [E|alts alt e' s Ha Hx' E]; subst; [done|]. by destruct (Hne alts s).
  Qed.
  Lemma element_faithful fuel : forall e c, element_tree e c -> faithful (visit_element fuel) e c.
  Proof using HR Hv0.
    induction fuel as [|fuel IH]; intros e c Ht s Hi; [done|]. cbn [visit_element].
    pose proof (element_tree_view _ _ Ht) as Hview. destruct e as [a sx]. pose proof Hview as [Hv _]. destruct a as [name|l|name|alts].
    - destruct Hv as (_ & t & Et & <-). match goal with |- (ok_element ?e -> _) /\ _ => assert (ok_element e <-> ok_leaf v0 e) as Hok by (by apply ok_self); setoid_rewrite Hok; clear Hok end. rewrite Et. unfold get_terminal_id_by_name. rewrite (pi_t1 _ _ _ Hi). simpl.
      destruct (t_name_to_id v0 !! text t); cbn; [split; [done|eauto]|]. split; [by intros []|done].
    - destruct Hv as (E1 & t & Et & <-). match goal with |- (ok_element ?e -> _) /\ _ => assert (ok_element e <-> ok_leaf v0 e) as Hok by (by apply ok_self); setoid_rewrite Hok; clear Hok end. rewrite E1, Et. unfold get_terminal_id_by_name. rewrite (pi_t1 _ _ _ Hi). simpl.
      destruct (t_name_to_id v0 !! text t); cbn; [split; [done|eauto]|]. split; [by intros []|done].
    - destruct Hv as (E1 & E2 & t & Et & <-). match goal with |- (ok_element ?e -> _) /\ _ => assert (ok_element e <-> ok_leaf v0 e) as Hok by (by apply ok_self); setoid_rewrite Hok; clear Hok end. rewrite E1, E2, Et. unfold get_nonterminal_id_by_name. rewrite (pi_n1 _ _ _ Hi). simpl.
      destruct (nt_name_to_id v0 !! text t); cbn; [split; [done|eauto]|]. split; [by intros []|done].
    - destruct Hv as (E1 & E2 & E3 & b & Eb & Hb). setoid_rewrite ok_group. rewrite E1, E2, E3, Eb. unfold visit_block.
      destruct (alternatives_faithful fuel alts (alternative_list b)) with (s := s) as [K1 K2]; [by apply block_alternatives| |done|].
      { intros a es e c' _ _ _ Hc'. by apply IH. }
      destruct (visit_alternatives (visit_element fuel) (alternative_list b) s) as [[rs s1]| |] eqn:Ea; cbn [rbind].
      + destruct (make_block rs s1). split; [done|]. intros _ _. by eapply K2.
      + split; [|done]. intros H. exfalso. by apply K1.
      + done.
  Qed.

  Lemma rule_alternatives_faithful fuel id alts cs : Forall2 alternative_tree alts cs -> forall s, inv s -> id ∈ nonterminals v0 ->
    (Forall ok_alternative alts -> rfold (visit_rule_alternative fuel id) cs s <> Panic) /\
    (forall s', rfold (visit_rule_alternative fuel id) cs s = Ret s' -> Forall ok_alternative alts).
  Proof using HR Hv0.
    induction 1 as [|a c alts cs Ha _ IH]; intros s Hi Hid; cbn [rfold]; [split; [done|constructor]|].
    destruct (alternative_faithful fuel a c s Ha) as [H1 H2]; [|done|].
    { intros es e c' _ _ Hc'. by apply element_faithful. }
    destruct (visit_rule_alternative fuel id s c) as [s1| |] eqn:E; cbn [rbind].
    - destruct (rule_alternative_inv v0 R HR Hv0 _ _ _ _ _ Hi Hid E) as [Hi1 _]. destruct (IH s1 Hi1 Hid) as [K1 K2]. split.
      + intros Hf. apply Forall_cons in Hf as [_ Hf]. by apply K1.
      + intros s' Hs'. constructor; [|by eapply K2]. unfold visit_rule_alternative in E.
        destruct (visit_alternative (visit_element fuel) c s) as [[r s2]| |]; simpl in E; [|done|done]. by eapply H2.
    - split; [|done]. intros Hf. apply Forall_cons in Hf as [Hf _]. exfalso. unfold visit_rule_alternative in E.
      destruct (visit_alternative (visit_element fuel) c s) as [[r s2]| |]; simpl in E; [done| |done]. by apply H1.
    - done.
  Qed.
  Lemma rules_faithful fuel rules cs : Forall2 (fun na c => rule_tree (ParserRule na.1 na.2) c) rules cs -> forall s, inv s ->
    (forall name alts, (name, alts) ∈ rules -> is_Some (nt_name_to_id v0 !! name)) ->
    ((forall name alts, (name, alts) ∈ rules -> Forall ok_alternative alts) -> rfold (production_visit_parser_rule fuel) cs s <> Panic) /\
    (forall s', rfold (production_visit_parser_rule fuel) cs s = Ret s' -> forall name alts, (name, alts) ∈ rules -> Forall ok_alternative alts).
  Proof using HR Hv0.
    induction 1 as [|[name alts] c rules cs Ht _ IH]; intros s Hi Hn; cbn [rfold].
    - split; [done|]. intros s' _ n a Ha. by apply elem_of_nil in Ha.
    - pose proof (rule_view _ _ Ht) as (_ & (t & Et & Htn) & b & Eb & Hb). cbn [fst snd] in *.
      destruct (Hn name alts) as [id Hid]; [apply elem_of_list_here|].
      assert (Heq : production_visit_parser_rule fuel s c = rfold (visit_rule_alternative fuel id) (alternative_list b) s).
      { unfold production_visit_parser_rule. rewrite Et, Eb. cbn [unwrap rbind]. unfold get_nonterminal_id_by_name.
        rewrite (pi_n1 _ _ _ Hi), Htn, Hid. done. }
      destruct (named_below v0 R HR Hv0 _ _ Hid) as [Hidn _].
      destruct (rule_alternatives_faithful fuel id alts (alternative_list b) (block_alternatives _ _ Hb) s Hi Hidn) as [H1 H2].
      rewrite <- Heq in H1, H2.
      assert (Hn' : forall name alts, (name, alts) ∈ rules -> is_Some (nt_name_to_id v0 !! name)).
      { intros n' a' Ha'. apply (Hn n' a'). by apply elem_of_list_further. }
      destruct (production_visit_parser_rule fuel s c) as [s1| |] eqn:E; cbn [rbind].
      + destruct (rule_inv v0 R HR Hv0 _ _ _ _ Hi E) as [Hi1 _]. destruct (IH s1 Hi1 Hn') as [K1 K2]. split.
        * intros Hok. apply K1. intros n' a' Ha'. apply (Hok n'). by apply elem_of_list_further.
        * intros s' Hs' n' a' Ha'. apply elem_of_cons in Ha' as [[= -> ->]|Ha']; [by eapply H2|by eapply K2].
      + split; [|done]. intros Hok. exfalso. apply H1; [|done]. apply (Hok name), elem_of_list_here.
      + done.
  Qed.
End panics.

Lemma c42 G r : grammar_tree G r -> proper G -> (exists out, load_tree r = Ret out) <-> references_defined G.
Proof.
  intros Ht Hp. destruct (load_tree_grammar G r Ht Hp) as [H1 H2].
  assert (Key : forall s2, sym_names (terminal_names G) (parser_rule_names G) s2 ->
    let run := production_visit_rule_list (height r) r (production_visitor_new (sy_vocabulary s2) ∅ (sy_next_rule_id s2)) in
    (references_defined G -> run <> Panic) /\ (forall s3, run = Ret s3 -> references_defined G)).
  { intros s2 (Hs & HT & HNT & _) run. pose proof (production_start s2 Hs) as Hi0.
    assert (Hv0 : vinv (sy_vocabulary s2)) by (destruct (si_ops _ Hs) as [ops ->]; apply vinv_reach).
    assert (HRlt : forall i, i ∈ nonterminals (sy_vocabulary s2) -> i < sy_next_rule_id s2) by (intros i Hi; by apply (si_nts _ Hs) in Hi as [? _]).
    pose proof Ht as (m & cs & Er & HF). pose proof (grammar_parser_rules G m cs HF) as HF'. rewrite <- Er in HF'.
    destruct (rules_faithful (sy_vocabulary s2) (sy_next_rule_id s2) HRlt Hv0 (height r) _ _ HF' _ Hi0) as [K1 K2].
    { intros name alts Hn. apply HNT. apply (elem_of_parser_rules G) in Hn. unfold parser_rule_names.
      apply elem_of_list_omap. by exists (ParserRule name alts). }
    assert (Heq : references_defined G <-> forall name alts, (name, alts) ∈ parser_rules G -> Forall (ok_alternative (sy_vocabulary s2)) alts).
    { split.
      - intros (D1 & D2 & D3) name alts Hn. apply elem_of_parser_rules in Hn. apply Forall_forall. intros a Ha x Hx.
        assert (occurs x G) as Ho by (exists name, alts, a; done). destruct x as [[n|l|n|g] sx]; simpl.
        + apply HT. by eapply D1.
        + by destruct (D3 l sx).
        + apply HNT. by eapply D2.
        + done.
      - intros H. assert (Hx : forall x, occurs x G -> ok_leaf (sy_vocabulary s2) x).
        { intros x (name & alts & a & HG & Ha & Hx). apply elem_of_parser_rules in HG. specialize (H _ _ HG). rewrite Forall_forall in H.
          by apply (H a Ha). }
        split_and!.
        + intros n s Ho. apply HT. exact (Hx _ Ho).
        + intros n s Ho. apply HNT. exact (Hx _ Ho).
        + intros l s Ho. destruct Hp as (_ & Hp & _). apply (Hp l s Ho). apply HT. exact (Hx _ Ho). }
    split; [intros Hd; apply K1; by apply Heq|]. intros s3 E3. apply Heq. by apply (K2 s3). }
  split.
  - intros [[g data] Hl]. destruct H1 as (s2 & Hs2 & _ & Hrun). destruct (Hrun g data Hl) as (s3 & E3 & _).
    exact (proj2 (Key s2 Hs2) s3 E3).
  - intros Hd. destruct (H2 (proj2 (proj2 Hd))) as (s2 & Hs2 & _ & Hret & Hfuel).
    pose proof (proj1 (Key s2 Hs2) Hd) as Hnp. cbv zeta in Hnp.
    destruct (production_visit_rule_list _ _ _) as [s3| |].
    + by eapply Hret.
    + done.
    + exfalso. by apply (load_tree_total r), Hfuel.
Qed.
Lemma c42_panics G r : grammar_tree G r -> proper G -> load_tree r = Panic <-> ~ references_defined G.
Proof.
  intros Ht Hp. pose proof (c42 G r Ht Hp) as H. pose proof (load_tree_total r). destruct (load_tree r) as [out| |].
  - split; [done|]. intros Hn. destruct Hn. apply H. eauto.
  - split; [|done]. intros _ Hd. apply H in Hd as [? ?]. done.
  - done.
Qed.
