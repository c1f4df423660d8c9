(** SourceProofs.v -- the grammar as written is LL(1) exactly when its table has no conflict (C70). *)
From Verif Require Export EbnfLookup.

(** What load_ast makes of a grammar without collisions: [translation] with the caches. *)
Lemma looked_up_all G r g data :
  grammar_tree G r -> proper G -> load_tree r = Ret (g, data) -> no_collision (g_vocabulary g) G ->
  exists v0 R s, (nt_id_to_name (g_vocabulary g) = nt_id_to_name v0 /\
    (forall i, i ∈ nonterminals (g_vocabulary g) <-> i ∈ nonterminals v0 \/ R <= i < ps_next_rule_id s) /\
    (forall i, i ∈ nonterminals v0 -> i < R /\ is_Some (nt_id_to_name v0 !! i)) /\
    (forall n, R <= n < ps_next_rule_id s ->
       (exists a k b, occurs (Element a (Some (k, b))) G /\ mk_elem v0 R s (productions g) (Element a (Some (k, b))) (NT n)) \/
       (exists alts sx, occurs (Element (Group alts) sx) G /\ mk_atom v0 R s (productions g) (Group alts) (NT n)))) /\
    vinv v0 /\
    t_name_to_id (g_vocabulary g) = t_name_to_id v0 /\ nt_name_to_id (g_vocabulary g) = nt_name_to_id v0 /\
    t_name_to_id v0 !! lit "_STOP" = Some 1 /\
    (forall name, is_Some (nt_name_to_id v0 !! name) <-> name ∈ parser_rule_names G) /\
    (forall name, head (parser_rule_names G) = Some name -> nt_name_to_id v0 !! name = Some 0) /\
    (forall name id, nt_name_to_id v0 !! name = Some id -> id < R) /\
    (forall k n, cached s k = Some n -> R <= n < ps_next_rule_id s) /\
    (forall k k' n, cached s k = Some n -> cached s k' = Some n -> k = k') /\
    (forall id r, id < R -> Production id r ∈ productions g -> exists name alts alt, ParserRule name alts ∈ G /\ alt ∈ alts /\
       nt_name_to_id v0 !! name = Some id /\ mk_alt v0 R s (productions g) alt r) /\
    (forall name alts alt, ParserRule name alts ∈ G -> alt ∈ alts -> exists id r, nt_name_to_id v0 !! name = Some id /\
       Production id r ∈ productions g /\ mk_alt v0 R s (productions g) alt r) /\
    (forall p, p ∈ productions g -> R <= left p ->
       (exists a k b, occurs (Element a (Some (k, b))) G /\ mk_elem v0 R s (productions g) (Element a (Some (k, b))) (NT (left p))) \/
       (exists alts sx, occurs (Element (Group alts) sx) G /\ mk_atom v0 R s (productions g) (Group alts) (NT (left p)))).
Proof.
  intros Ht Hp Hload Hnc. destruct (load_tree_grammar G r Ht Hp) as [(s2 & (Hs & HT & HNT & Hz) & HR & Hrun) _].
  destruct (Hrun g data Hload) as (s3 & E3 & ->). cbn [g_vocabulary productions] in *.
  pose proof (production_start s2 Hs) as Hi0.
  assert (Hv0 : vinv (sy_vocabulary s2)) by (destruct (si_ops _ Hs) as [ops ->]; apply vinv_reach).
  assert (Hstop : t_name_to_id (sy_vocabulary s2) !! lit "_STOP" = Some 1) by (destruct (si_ops _ Hs) as [ops ->]; apply (c03 ops)).
  assert (HRlt : forall i, i ∈ nonterminals (sy_vocabulary s2) -> i < sy_next_rule_id s2) by (intros i Hi; by apply (si_nts _ Hs) in Hi as [? _]).
  pose proof (rule_list_inv _ _ HRlt Hv0 _ _ _ _ Hi0 E3) as Hi3.
  set (v0 := sy_vocabulary s2) in *. set (R := sy_next_rule_id s2) in *.
  assert (Hlit : forall l s, occurs (Element (StringLiteral l) s) G -> t_name_to_id v0 !! l = None).
  { intros l s Ho. apply eq_None_not_Some. rewrite HT. destruct Hp as (_ & Hp & _). by apply (Hp l s). }
  assert (Hinj : forall k it it', allowed v0 R G (ps_next_rule_id s3) k it -> allowed v0 R G (ps_next_rule_id s3) k it' -> item_id it = item_id it' -> it = it').
  { assert (Hx : forall k t n, allowed v0 R G (ps_next_rule_id s3) k (T t) -> allowed v0 R G (ps_next_rule_id s3) k (NT n) -> t <> n).
    { intros k t n (a & b & P & M & Ho & HM & Ha) (a' & b' & P' & M' & Ho' & HM' & Ha') <-.
      inversion Ha as [nm ? Hl| |]; subst. destruct (Hnc k b nm t Ho) as [H1 H2].
      { unfold get_terminal_id_by_name. by rewrite (pi_t1 _ _ _ Hi3). }
      inversion Ha' as [|m ? Hm|alts ? rs Hal Hn Hr]; subst.
      - apply (H1 m b' Ho'). unfold get_nonterminal_id_by_name. by rewrite (pi_n1 _ _ _ Hi3).
      - destruct (H2 alts b' Ho') as [nm' Hnm'].
        + unfold is_nonterminal_id. apply bool_decide_eq_true. apply (pi_n3 _ _ _ Hi3). right. lia.
        + unfold get_nonterminal_name_by_id in Hnm'. rewrite (pi_n2 _ _ _ Hi3) in Hnm'.
          assert (t ∈ nonterminals v0) as K by (apply (vi_nd _ Hv0); eauto). apply HRlt in K. lia. }
    intros k [n|t] [n'|t'] H1 H2 E; simpl in E; subst; try done.
    - exfalso. by apply (Hx k t' t').
    - exfalso. by apply (Hx k n' n'). }
  pose proof Ht as (m & cs & Er & HF). unfold production_visit_rule_list in E3.
  pose proof (grammar_parser_rules G m cs HF) as HF'. rewrite <- Er in HF'.
  edestruct (rules_lk v0 R G (ps_next_rule_id s3) HRlt Hv0 Hlit Hinj (height r) _ _ HF' []) as ((_ & Hsem & _) & Hw & Hsound & Hcomp); [|  |exact E3|done|].
  { split; [|split; [|split]].
    - split; [exact Hi0|]. split; [by eapply production_start_sem|]. split.
      + intros i r' _ Hr'. simpl in Hr'. by apply elem_of_empty in Hr'.
      + intros n a Hn. by apply elem_of_nil in Hn.
    - split.
      + intros [[]|] n Hn; cbn in Hn; by rewrite lookup_empty in Hn.
      + intros [[]|] k' n Hn; cbn in Hn; by rewrite lookup_empty in Hn.
      + cbn. intros n Hn. lia.
      + intros [] id n Hn; cbn in Hn; by rewrite lookup_empty in Hn.
      + intros rs n Hn; cbn in Hn; by rewrite lookup_empty in Hn.
    - intros i r' _ Hr'. simpl in Hr'. by apply elem_of_empty in Hr'.
    - intros n a Hn. by apply elem_of_nil in Hn. }
  { intros n alts alt x Hn Ha Hx. exists n, alts, alt. split; [by apply elem_of_parser_rules|done]. }
  pose proof (wf_range _ _ _ _ Hw) as Hrange.
  destruct (lk_mk v0 R G s3 (ps_productions s3) Hrange eq_refl Hsem Hinj) as (M1 & M2 & M3 & M4 & _).
  assert (Hocc : forall name alts alt, ParserRule name alts ∈ G -> alt ∈ alts -> forall x, within_alternative x alt -> occurs x G).
  { intros name alts alt HG Ha x Hx. exists name, alts, alt. done. }
  assert (Hsub : forall x, occurs x G -> forall y, within_element y x -> occurs y G).
  { intros x (name & alts & alt & HG & Ha & Hx) y Hy. exists name, alts, alt. split_and!; [done|done|].
    revert y Hy. clear -Hx. pose proof (within_mut x (fun e => forall y, within_element y x -> within_element y e)
      (fun a => forall y, within_element y x -> within_alternative y a)) as K.
    apply K; clear K; [done| | |done].
    - intros alts0 alt0 e s0 Ha _ IH -> y Hy. eapply within_group; [done|by apply IH|done].
    - intros es e He _ IH y Hy. econstructor; [done|by apply IH]. }
  assert (Hnew : forall n, R <= n < ps_next_rule_id s3 ->
       (exists a k b, occurs (Element a (Some (k, b))) G /\ mk_elem v0 R s3 (ps_productions s3) (Element a (Some (k, b))) (NT n)) \/
       (exists alts sx, occurs (Element (Group alts) sx) G /\ mk_atom v0 R s3 (ps_productions s3) (Group alts) (NT n))).
  { intros n Hn. destruct (wf_cover _ _ _ _ Hw n Hn) as [[k id|rs] Hk].
    + left. destruct (wf_suffix _ _ _ _ Hw _ _ _ Hk) as (a & b & it & Ho & Ha & <-). exists a, k, b. split; [done|].
      apply M1; [by econstructor|]. by apply Hsub.
    + right. destruct (wf_block _ _ _ _ Hw _ _ Hk) as (alts & sx & Ho & Ha). exists alts, sx. split; [done|].
      apply M2; [by econstructor|]. intros alts' alt x [= <-] Halt Hx. eapply Hsub; [exact Ho|]. by eapply within_group. }
  exists v0, R, s3. split; [split_and!; [apply Hi3|apply Hi3|intros i Hi; by apply (si_nts _ Hs) in Hi|done]|].
  split_and!; [done|apply Hi3|apply Hi3|done|done| | |done|apply Hw|..].
  - intros name Hh. destruct (parser_rule_names G) as [|n0 ns]; [done|]. cbn in Hh. by injection Hh as ->.
  - intros n i Hn. by apply (named_below v0 R HRlt Hv0 n).
  - intros i r' Hir Hr'. destruct (Hsound i r' Hir Hr') as (n & a & HL & Hn & Ha). apply elem_of_flat in HL as (alts & HG & Hal).
    exists n, alts, a. split_and!; [done|done|done|]. apply M4; [done|]. by eapply Hocc.
  - intros n alts a HG Hal. destruct (Hcomp n a) as (id & r' & Hn & Hr' & Ha); [apply elem_of_flat; eauto|].
    exists id, r'. split_and!; [done|done|]. apply M4; [done|]. by eapply Hocc.
  - intros p Hin HRp. apply Hnew. split; [done|]. by apply (sem_left _ _ _ _ _ Hsem).
Qed.
Lemma looked_up G r g data :
  grammar_tree G r -> proper G -> load_tree r = Ret (g, data) -> no_collision (g_vocabulary g) G ->
  exists v0 R s, vinv v0 /\
    t_name_to_id (g_vocabulary g) = t_name_to_id v0 /\ nt_name_to_id (g_vocabulary g) = nt_name_to_id v0 /\
    t_name_to_id v0 !! lit "_STOP" = Some 1 /\
    (forall name, is_Some (nt_name_to_id v0 !! name) <-> name ∈ parser_rule_names G) /\
    (forall name, head (parser_rule_names G) = Some name -> nt_name_to_id v0 !! name = Some 0) /\
    (forall name id, nt_name_to_id v0 !! name = Some id -> id < R) /\
    (forall k n, cached s k = Some n -> R <= n < ps_next_rule_id s) /\
    (forall k k' n, cached s k = Some n -> cached s k' = Some n -> k = k') /\
    (forall id r, id < R -> Production id r ∈ productions g -> exists name alts alt, ParserRule name alts ∈ G /\ alt ∈ alts /\
       nt_name_to_id v0 !! name = Some id /\ mk_alt v0 R s (productions g) alt r) /\
    (forall name alts alt, ParserRule name alts ∈ G -> alt ∈ alts -> exists id r, nt_name_to_id v0 !! name = Some id /\
       Production id r ∈ productions g /\ mk_alt v0 R s (productions g) alt r) /\
    (forall p, p ∈ productions g -> R <= left p ->
       (exists a k b, occurs (Element a (Some (k, b))) G /\ mk_elem v0 R s (productions g) (Element a (Some (k, b))) (NT (left p))) \/
       (exists alts sx, occurs (Element (Group alts) sx) G /\ mk_atom v0 R s (productions g) (Group alts) (NT (left p)))).
Proof.
  intros Ht Hp Hload Hnc. destruct (looked_up_all G r g data Ht Hp Hload Hnc) as (v0 & R & s & _ & H). by exists v0, R, s.
Qed.

Scheme begins_element_mut := Minimality for begins_element Sort Prop
with begins_atom_mut := Minimality for begins_atom Sort Prop
with begins_alternative_mut := Minimality for begins_alternative Sort Prop
with begins_elements_mut := Minimality for begins_elements Sort Prop.
Combined Scheme begins_mut from begins_element_mut, begins_atom_mut, begins_alternative_mut, begins_elements_mut.
Scheme after_element_mut := Minimality for after_element Sort Prop
with after_alternative_mut := Minimality for after_alternative Sort Prop
with after_atom_mut := Minimality for after_atom Sort Prop.
Combined Scheme after_mut from after_element_mut, after_alternative_mut, after_atom_mut.

Section source.
  Context (v0 : vocabulary) (R : nat) (G : list rule) (s : production_state) (P : gset production).
  Context (Hv0 : vinv v0).
  Context (Hstop : t_name_to_id v0 !! lit "_STOP" = Some 1).
  Context (Hzero : forall name, head (parser_rule_names G) = Some name -> nt_name_to_id v0 !! name = Some 0).
  Context (HR : forall name id, nt_name_to_id v0 !! name = Some id -> id < R).
  Context (Hrange : forall k n, cached s k = Some n -> R <= n < ps_next_rule_id s).
  Context (Hkey : forall k k' n, cached s k = Some n -> cached s k' = Some n -> k = k').
  Notation mk_elem := (mk_elem v0 R s P).
  Notation mk_atom := (mk_atom v0 R s P).
  Notation mk_alts := (mk_alts v0 R s P).
  Notation mk_alt := (mk_alt v0 R s P).
  Notation mk_elems := (mk_elems v0 R s P).
  Context (Hsound : forall id r, id < R -> Production id r ∈ P -> exists name alts alt, ParserRule name alts ∈ G /\ alt ∈ alts /\
       nt_name_to_id v0 !! name = Some id /\ mk_alt alt r).
  Context (Hcomp : forall name alts alt, ParserRule name alts ∈ G -> alt ∈ alts -> exists id r, nt_name_to_id v0 !! name = Some id /\
       Production id r ∈ P /\ mk_alt alt r).
  Context (Hgen : forall p, p ∈ P -> R <= left p ->
       (exists a k b, occurs (Element a (Some (k, b))) G /\ mk_elem (Element a (Some (k, b))) (NT (left p))) \/
       (exists alts sx, occurs (Element (Group alts) sx) G /\ mk_atom (Group alts) (NT (left p)))).
  Notation tid n := (t_name_to_id v0 !! n).

  Lemma tid_inj n n' t : tid n = Some t -> tid n' = Some t -> n = n'.
  Proof using Hv0. intros H H'. apply (vi_t _ Hv0) in H, H'. congruence. Qed.
  Lemma nid_inj n n' t : nt_name_to_id v0 !! n = Some t -> nt_name_to_id v0 !! n' = Some t -> n = n'.
  Proof using Hv0. intros H H'. apply (vi_n _ Hv0) in H, H'. congruence. Qed.

  Lemma mk_elems_app es1 es2 its : mk_elems (es1 ++ es2) its -> exists its1 its2, its = its1 ++ its2 /\ mk_elems es1 its1 /\ mk_elems es2 its2.
  Proof using.
    revert its. induction es1 as [|e es1 IH]; intros its H.
    - exists [], its. split_and!; [done|constructor|done].
    - inversion H as [|? it ? its' He Hes]; subst. destruct (IH _ Hes) as (its1 & its2 & -> & ? & ?).
      exists (it :: its1), its2. split_and!; [done|by constructor|done].
  Qed.
  Lemma mk_elems_split es α x β : mk_elems es (α ++ x :: β) -> exists es1 e es2, es = es1 ++ e :: es2 /\ mk_elems es1 α /\ mk_elem e x /\ mk_elems es2 β.
  Proof using.
    revert es. induction α as [|y α IH]; intros es H; inversion H as [|e ? es' ? He Hes]; subst.
    - exists [], e, es'. split_and!; [done|constructor|done|done].
    - destruct (IH _ Hes) as (es1 & e1 & es2 & -> & ? & ? & ?). exists (e :: es1), e1, es2. split_and!; [done|by constructor|done|done].
  Qed.
  Lemma mk_alts_alt alts rs alt : mk_alts alts rs -> alt ∈ alts -> exists r, r ∈ rs /\ mk_alt alt r.
  Proof using.
    induction 1 as [|a r alts rs Ha _ IH]; [by intros ?%elem_of_nil|]. intros [->|H]%elem_of_cons.
    - exists r. split; [apply elem_of_list_here|done].
    - destruct (IH H) as (r' & ? & ?). exists r'. split; [by apply elem_of_list_further|done].
  Qed.
  Lemma mk_alts_right alts rs r : mk_alts alts rs -> r ∈ rs -> exists alt, alt ∈ alts /\ mk_alt alt r.
  Proof using.
    induction 1 as [|a r' alts rs Ha _ IH]; [by intros ?%elem_of_nil|]. intros [->|H]%elem_of_cons.
    - exists a. split; [apply elem_of_list_here|done].
    - destruct (IH H) as (a' & ? & ?). exists a'. split; [by apply elem_of_list_further|done].
  Qed.
  Lemma mk_alt_nonempty alt α x β : mk_alt alt (α ++ x :: β) -> exists es, alt = Sequence es /\ mk_elems es (α ++ x :: β).
  Proof using. intros H. inversion H as [E1 E2|es its Hes]; subst; [by destruct α|eauto]. Qed.

  (** *** Nullable *)
  Lemma nullable_elems es its : mk_elems es its -> nullable P its <-> matches_elements G es [].
  Proof using HR Hv0 Hsound Hcomp Hrange.
    intros H. pose proof (mk_tr v0 R s P Hrange) as (T1 & T2 & T3 & T4 & T5).
    assert (Hs' : forall id r, id < R -> Production id r ∈ P -> exists name alts alt, ParserRule name alts ∈ G /\ alt ∈ alts /\
       nt_name_to_id v0 !! name = Some id /\ tr_alt v0 R P (ps_next_rule_id s) alt r).
    { intros id r Hid Hp. destruct (Hsound id r Hid Hp) as (n & alts & alt & ? & ? & ? & ?). exists n, alts, alt. auto. }
    assert (Hc' : forall name alts alt, ParserRule name alts ∈ G -> alt ∈ alts -> exists id r, nt_name_to_id v0 !! name = Some id /\
       Production id r ∈ P /\ tr_alt v0 R P (ps_next_rule_id s) alt r).
    { intros n alts alt HG Ha. destruct (Hcomp n alts alt HG Ha) as (id & r & ? & ? & ?). exists id, r. auto. }
    split.
    - intros Hd. unfold nullable in Hd. change [] with (types []) in Hd. apply (derives_parses P v0) in Hd as [cs Hcs].
      destruct (parses_matches v0 R G P (ps_next_rule_id s) HR Hv0 Hs' v0 _ _ _ Hcs es (T5 _ _ H)) as (ws & Hws & Hm).
      by inversion Hws; subst.
    - intros Hm. destruct (matches_derives v0 R G P (ps_next_rule_id s) HR Hv0 Hs' Hc') as (_ & _ & _ & K).
      destruct (K _ _ Hm its (T5 _ _ H)) as (ids & Hids & Hd). inversion Hids; subst. exact Hd.
  Qed.
  Lemma nullable_atom a it : mk_atom a it -> nullable P [it] <-> matches_atom G a [].
  Proof using HR Hv0 Hsound Hcomp Hrange.
    intros H. rewrite (nullable_elems [Element a None] [it]) by (repeat constructor; done). split.
    - intros Hm. by apply matches_plain_inv, matches_one.
    - intros Hm. apply (matches_cons G _ _ [] []); [by constructor|constructor].
  Qed.
  Lemma nullable_elem e it : mk_elem e it -> nullable P [it] <-> matches_element G e [].
  Proof using HR Hv0 Hsound Hcomp Hrange.
    intros H. rewrite (nullable_elems [e] [it]) by (repeat constructor; done). split.
    - apply matches_one.
    - intros Hm. apply (matches_cons G _ _ [] []); [done|constructor].
  Qed.
  Lemma nullable_alt alt r : mk_alt alt r -> nullable P r <-> matches_alternative G alt [].
  Proof using HR Hv0 Hsound Hcomp Hrange.
    intros H. destruct H as [|es its H].
    - split; [constructor|]. intros _. apply nullable_nil.
    - rewrite (nullable_elems es its H). split; [by constructor|]. by inversion 1.
  Qed.

  (** *** First *)
  Lemma starts_by n r t : Production n r ∈ P -> starts P r t -> starts P [NT n] t.
  Proof using. intros Hp Hs. apply starts_NT. by exists (Production n r). Qed.
  Lemma begins_starts :
    (forall e n, begins_element G e n -> forall it, mk_elem e it -> exists t, tid n = Some t /\ starts P [it] t) /\
    (forall a n, begins_atom G a n -> forall it, mk_atom a it -> exists t, tid n = Some t /\ starts P [it] t) /\
    (forall a n, begins_alternative G a n -> forall its, mk_alt a its -> exists t, tid n = Some t /\ starts P its t) /\
    (forall es n, begins_elements G es n -> forall its, mk_elems es its -> exists t, tid n = Some t /\ starts P its t).
  Proof using HR Hv0 Hsound Hcomp Hrange.
    pose proof (begins_mut G
      (fun e n => forall it, mk_elem e it -> exists t, tid n = Some t /\ starts P [it] t)
      (fun e n => forall it, mk_atom e it -> exists t, tid n = Some t /\ starts P [it] t)
      (fun e n => forall it, mk_alt e it -> exists t, tid n = Some t /\ starts P it t)
      (fun e n => forall it, mk_elems e it -> exists t, tid n = Some t /\ starts P it t)) as K.
    apply K; clear K.
    - intros a sx n _ IH it H. inversion H as [|? it0 k b m Ha Hc Hm Hr]; subst; [by apply IH|].
      destruct (IH _ Ha) as (t & Ht & Hs). exists t. split; [done|].
      assert (exists r, Production m (it0 :: r) ∈ P) as [r Hp].
      { destruct k; [exists [NT m]|exists [NT m]|exists []]; apply Hr; apply elem_of_list_here. }
      eapply starts_by; [exact Hp|]. apply starts_cons. by left.
    - intros n it H. inversion H; subst. eexists. split; [done|]. by apply starts_T.
    - intros l it H. inversion H.
    - intros name alts alt n HG Ha _ IH it H. inversion H as [|? i Hi|]; subst. destruct (Hcomp _ _ _ HG Ha) as (id & r & Hid & Hp & Hm).
      rewrite Hi in Hid. injection Hid as <-. destruct (IH _ Hm) as (t & Ht & Hs). exists t. split; [done|]. by eapply starts_by.
    - intros alts alt n Ha _ IH it H. inversion H as [| |? m rs Has Hc Hm Hr]; subst. destruct (mk_alts_alt _ _ _ Has Ha) as (r & Hin & Hr').
      destruct (IH _ Hr') as (t & Ht & Hs). exists t. split; [done|]. eapply starts_by; [by apply Hr|done].
    - intros es n _ IH its H. inversion H; subst. by apply IH.
    - intros e es n _ IH its H. inversion H as [|? it ? its' He Hes]; subst. destruct (IH _ He) as (t & Ht & Hs). exists t. split; [done|].
      apply starts_cons. by left.
    - intros e es n Hn _ IH its H. inversion H as [|? it ? its' He Hes]; subst. destruct (IH _ Hes) as (t & Ht & Hs). exists t. split; [done|].
      apply starts_cons. right. split; [|done]. by apply (nullable_elem e).
  Qed.

  Lemma begins_two a b n : begins_elements G [Element a None; Element a b] n -> begins_atom G a n.
  Proof using. intros H. repeat match goal with H : begins_elements _ _ _ |- _ => inversion H; clear H; subst | H : begins_element _ _ _ |- _ => inversion H; clear H; subst end; done. Qed.
  Lemma begins_one a n : begins_elements G [Element a None] n -> begins_atom G a n.
  Proof using. intros H. repeat match goal with H : begins_elements _ _ _ |- _ => inversion H; clear H; subst | H : begins_element _ _ _ |- _ => inversion H; clear H; subst end; done. Qed.
  Lemma fst_begins h α t : fst_ P h α t -> forall es, mk_elems es α -> exists n, tid n = Some t /\ begins_elements G es n.
  Proof using HR Hv0 Hsound Hcomp Hrange.
    induction 1 as [h t β|h p β t Hp Hf IH|h A β t Hn Hf IH]; intros es H.
    - inversion H as [|e ? es' ? He Hes]; subst. inversion He as [a ? Ha|]; subst. inversion Ha as [n ? Hn| |]; subst.
      exists n. split; [done|]. apply begins_here. by repeat constructor.
    - inversion H as [|e ? es' ? He Hes]; subst. assert (Production (left p) (right p) ∈ P) as Hp' by (by destruct p).
      assert (Halt : forall alt, mk_alt alt (right p) -> exists n, tid n = Some t /\ begins_alternative G alt n).
      { intros alt Ha. inversion Ha as [E0 E|es0 its0 Hes0 E0 E]; subst alt.
        - rewrite <- E in Hf. inversion Hf.
        - subst its0. destruct (IH _ Hes0) as (n & ? & ?). exists n. split; [done|by constructor]. }
      assert (exists n, tid n = Some t /\ begins_element G e n) as (n & ? & ?); [|exists n; split; [done|by apply begins_here]].
      inversion He as [a ? Ha|a it k b m Ha Hc Hm Hr]; subst.
      + inversion Ha as [|name ? Hl|alts ? rs Has Hc Hm Hr]; subst.
        * destruct (Hsound (left p) (right p)) as (name' & alts & alt & HG & Hin & Hl' & Hta); [by eapply HR|done|].
          pose proof (nid_inj _ _ _ Hl Hl') as <-. destruct (Halt _ Hta) as (n & ? & ?). exists n. split; [done|]. constructor. by econstructor.
        * destruct (mk_alts_right _ _ (right p) Has) as (alt & Hin & Hta); [by apply Hr|].
          destruct (Halt _ Hta) as (n & ? & ?). exists n. split; [done|]. constructor. by econstructor.
      + apply Hr in Hp' as Hin.
        assert (right p = [it; NT (left p)] \/ right p = [it] \/ right p = []) as Hrp.
        { destruct k; simpl in Hin; rewrite !elem_of_cons in Hin; destruct Hin as [E|[E|?%elem_of_nil]]; auto; done. }
        destruct Hrp as [E|[E|E]].
        * destruct (IH [Element a None; Element a (Some (k, b))]) as (n & ? & Hb).
          { rewrite E. repeat constructor; [done|]. by econstructor. }
          exists n. split; [done|]. constructor. by apply begins_two in Hb.
        * destruct (IH [Element a None]) as (n & ? & Hb).
          { rewrite E. repeat constructor; done. }
          exists n. split; [done|]. constructor. by apply begins_one in Hb.
        * rewrite E in Hf. inversion Hf.
    - inversion H as [|e ? es' ? He Hes]; subst. destruct (IH _ Hes) as (n & ? & ?). exists n. split; [done|]. apply begins_later; [|done].
      by apply (nullable_elem e (NT A)).
  Qed.
  Lemma starts_elems es its t : mk_elems es its -> starts P its t -> exists n, tid n = Some t /\ begins_elements G es n.
  Proof using HR Hv0 Hsound Hcomp Hrange. intros H Hs. apply starts_iff in Hs as [h Hs]. by eapply fst_begins. Qed.
  Lemma starts_atom a it t : mk_atom a it -> starts P [it] t -> exists n, tid n = Some t /\ begins_atom G a n.
  Proof using HR Hv0 Hsound Hcomp Hrange.
    intros H Hs. destruct (starts_elems [Element a None] [it] t) as (n & ? & ?); [by repeat constructor|done|].
    exists n. split; [done|]. by apply begins_one.
  Qed.
  Lemma starts_alt alt r t : mk_alt alt r -> starts P r t -> exists n, tid n = Some t /\ begins_alternative G alt n.
  Proof using HR Hv0 Hsound Hcomp Hrange.
    intros H Hs. destruct H as [|es its H]; [by apply starts_nil in Hs|]. destruct (starts_elems es its t H Hs) as (n & ? & ?).
    exists n. split; [done|by constructor].
  Qed.

  (** *** Follow *)
  Lemma occurs_in_alt es1 e es2 : alternative_of G (Sequence (es1 ++ e :: es2)) -> occurs e G.
  Proof using.
    assert (He : within_alternative e (Sequence (es1 ++ e :: es2))).
    { econstructor; [|constructor]. apply elem_of_app. right. apply elem_of_list_here. }
    intros [(name & alts & HG & Ha)|(alts & sx & (name & alts' & alt & HG & Ha' & Hw) & Ha)].
    - eexists name, alts, _. done.
    - exists name, alts', alt. split_and!; [done|done|]. revert Hw.
      pose proof (within_mut (Element (Group alts) sx) (fun x => within_element e x) (fun x => within_alternative e x)) as K.
      apply K; clear K.
      + by eapply within_group.
      + intros alts0 alt0 e0 s0 Ha0 _ IH ->. by eapply within_group.
      + intros es e0 He0 _ IH. by econstructor.
  Qed.
  Lemma after_occurs :
    (forall e n, after_element G e n -> occurs e G) /\
    (forall a n, after_alternative G a n -> alternative_of G a) /\
    (forall a n, after_atom G a n -> (exists sx, occurs (Element a sx) G) \/ exists name, a = RuleRef name).
  Proof using.
    pose proof (after_mut G (fun e n => occurs e G) (fun a n => alternative_of G a)
      (fun a n => (exists sx, occurs (Element a sx) G) \/ exists name, a = RuleRef name)) as K.
    apply K; clear K.
    - intros es1 e es2 n Ha _. by eapply occurs_in_alt.
    - intros es1 e es2 n _ _ IH. by eapply occurs_in_alt.
    - intros name alts alt n HG Ha _ _. left. eauto.
    - intros alts alt n Ha _ [[sx Ho]|[name E]]; [|done]. right. eauto.
    - intros name _. right. eauto.
    - intros a sx n _ IH. left. eauto.
    - intros a k b n Ho _ _. left. eauto.
  Qed.

  (** Every occurring element has an item. *)
  Lemma mk_within x :
    (forall e, within_element x e -> forall it, mk_elem e it -> exists it', mk_elem x it') /\
    (forall a, within_alternative x a -> forall its, mk_alt a its -> exists it', mk_elem x it').
  Proof using.
    apply within_mut.
    - eauto.
    - intros alts alt e sx Halt _ IH -> it Ht.
      assert (exists it0, mk_atom (Group alts) it0) as [it0 Ha] by (inversion Ht; subst; eauto).
      inversion Ha as [| |? n rs Has Hn Hr]; subst. destruct (mk_alts_alt _ _ _ Has Halt) as (r & _ & Hr'). by eapply IH.
    - intros es e He _ IH its Ht. inversion Ht as [|? its0 Hes]; subst. clear Ht. induction Hes as [|e' it' es its Hit Hes IH'].
      + by apply elem_of_nil in He.
      + apply elem_of_cons in He as [->|He]; [by eapply IH|by apply IH'].
  Qed.
  Lemma occurs_mk x : occurs x G -> exists it, mk_elem x it.
  Proof using Hcomp.
    intros (name & alts & alt & HG & Ha & Hw). destruct (Hcomp _ _ _ HG Ha) as (id & r & _ & _ & Hr). by eapply (proj2 (mk_within x)).
  Qed.
  Lemma elem_atom a sx it : mk_elem (Element a sx) it -> exists it0, mk_atom a it0.
  Proof using. intros H. inversion H; subst; eauto. Qed.
  Lemma alternative_of_mk alt : alternative_of G alt -> exists A r, mk_alt alt r /\ Production A r ∈ P.
  Proof using Hcomp.
    intros [(name & alts & HG & Ha)|(alts & sx & Ho & Ha)].
    - destruct (Hcomp _ _ _ HG Ha) as (id & r & _ & ? & ?). eauto.
    - destruct (occurs_mk _ Ho) as [it Hit]. apply elem_atom in Hit as [it0 Hit]. inversion Hit as [| |? m rs Has Hc Hm Hr]; subst.
      destruct (mk_alts_alt _ _ _ Has Ha) as (r & Hin & Hr'). exists m, r. split; [done|]. by apply Hr.
  Qed.

  Lemma after_fol :
    (forall e n, after_element G e n -> exists t it, tid n = Some t /\ mk_elem e it /\ forall B, it = NT B -> fol P B t) /\
    (forall a n, after_alternative G a n -> exists t A r, tid n = Some t /\ mk_alt a r /\ Production A r ∈ P /\ fol P A t) /\
    (forall a n, after_atom G a n -> exists t it, tid n = Some t /\ mk_atom a it /\ forall B, it = NT B -> fol P B t).
  Proof using HR Hv0 Hstop Hzero Hsound Hcomp Hrange.
    pose proof (after_mut G
      (fun e n => exists t it, tid n = Some t /\ mk_elem e it /\ forall B, it = NT B -> fol P B t)
      (fun a n => exists t A r, tid n = Some t /\ mk_alt a r /\ Production A r ∈ P /\ fol P A t)
      (fun a n => exists t it, tid n = Some t /\ mk_atom a it /\ forall B, it = NT B -> fol P B t)) as K.
    destruct begins_starts as (B1 & B2 & B3 & B4).
    apply K; clear K.
    - intros es1 e es2 n Hof Hb. destruct (alternative_of_mk _ Hof) as (A & r & Hr & Hp).
      inversion Hr as [|? its Hes]; subst. apply mk_elems_app in Hes as (its1 & its2 & -> & H1 & H2).
      inversion H2 as [|? it ? its3 He Hes]; subst. destruct (B4 _ _ Hb _ Hes) as (t & Ht & Hs). exists t, it. split_and!; [done|done|].
      intros B ->. by eapply (fol_first P (Production A _)).
    - intros es1 e es2 n Hm _ (t & A & r & Ht & Hr & Hp & Hf).
      inversion Hr as [|? its Hes]; subst. apply mk_elems_app in Hes as (its1 & its2 & -> & H1 & H2).
      inversion H2 as [|? it ? its3 He Hes]; subst. exists t, it. split_and!; [done|done|].
      intros B ->. eapply (fol_follow P (Production A _)); [done|done| |done]. by apply (nullable_elems es2).
    - intros name alts alt n HG Ha _ (t & it & Ht & Hat & Hf). inversion Hat as [|? i Hi|]; subst.
      destruct (Hcomp _ _ _ HG Ha) as (id & r & Hid & Hp & Hr). rewrite Hi in Hid. injection Hid as <-. exists t, i, r. auto.
    - intros alts alt n Ha _ (t & it & Ht & Hat & Hf). inversion Hat as [| |? m rs Has Hc Hm Hr]; subst.
      destruct (mk_alts_alt _ _ _ Has Ha) as (r & Hin & Hr'). exists t, m, r. split_and!; [done|done|by apply Hr|by apply Hf].
    - intros name Hh. exists 1, (NT 0). split_and!; [done|by constructor; apply Hzero|]. intros B [= <-]. constructor.
    - intros a sx n _ (t & it & Ht & He & Hf). inversion He as [|? it0 k b m Ha Hc Hm Hr]; subst; [eauto|].
      exists t, it0. split_and!; [done|done|]. intros B ->. destruct k.
      + eapply (fol_follow P (Production m [NT B; NT m]) [] B [NT m]); [apply Hr; apply elem_of_list_here|done| |by apply Hf].
        apply nullable_NT. exists (Production m []). split_and!; [apply Hr; apply elem_of_list_further, elem_of_list_here|done|apply nullable_nil].
      + eapply (fol_follow P (Production m [NT B]) [] B []); [apply Hr; apply elem_of_list_further, elem_of_list_here|done|apply nullable_nil|by apply Hf].
      + eapply (fol_follow P (Production m [NT B]) [] B []); [apply Hr; apply elem_of_list_here|done|apply nullable_nil|by apply Hf].
    - intros a k b n Ho Hk Hb. destruct (occurs_mk _ Ho) as [it Hit]. inversion Hit as [|? it0 ? ? m Ha Hc Hm Hr]; subst.
      destruct (B2 _ _ Hb _ Ha) as (t & Ht & Hs). exists t, it0. split_and!; [done|done|]. intros B ->.
      assert (Production m [NT B; NT m] ∈ P) as Hp by (destruct Hk; subst k; apply Hr; apply elem_of_list_here).
      eapply (fol_first P (Production m [NT B; NT m]) [] B [NT m]); [done|done|]. eapply starts_by; [exact Hp|]. apply starts_cons. by left.
  Qed.

  (** The construct behind a nonterminal, and that token n comes after it. *)
  Definition foll (B : nat) (n : str) : Prop :=
    (exists a, mk_atom a (NT B) /\ after_atom G a n) \/
    (exists a k b, mk_elem (Element a (Some (k, b))) (NT B) /\ after_element G (Element a (Some (k, b))) n).
  Lemma foll_elem e B n : mk_elem e (NT B) -> after_element G e n -> foll B n.
  Proof using.
    intros He Ha. destruct e as [a [[k b]|]].
    - right. eauto.
    - left. exists a. inversion He; subst. split; [done|]. by eapply after_operand.
  Qed.
  Lemma in_suffix_rights k m it α B β : α ++ NT B :: β ∈ suffix_rights k m it ->
    (α = [it] /\ B = m /\ β = [] /\ k <> Question) \/ (α = [] /\ it = NT B /\ β = [NT m] /\ k <> Question) \/ (α = [] /\ it = NT B /\ β = []).
  Proof using.
    assert (H2 : α ++ NT B :: β = [it; NT m] -> (α = [it] /\ B = m /\ β = []) \/ (α = [] /\ it = NT B /\ β = [NT m])).
    { intros E. destruct α as [|x [|y [|]]]; simplify_eq/=; auto. }
    assert (H1 : α ++ NT B :: β = [it] -> α = [] /\ it = NT B /\ β = []).
    { intros E. destruct α as [|x [|y [|]]]; simplify_eq/=; auto. }
    assert (H0 : α ++ NT B :: β <> []) by (by destruct α).
    intros H. destruct k; simpl in H; rewrite !elem_of_cons in H; destruct H as [E|[E|?%elem_of_nil]]; try done.
    - apply H2 in E as [(-> & -> & ->)|(-> & -> & ->)]; [left|right; left]; done.
    - apply H2 in E as [(-> & -> & ->)|(-> & -> & ->)]; [left|right; left]; done.
    - apply H1 in E as (-> & -> & ->). right; right. done.
    - apply H1 in E as (-> & -> & ->). right; right. done.
  Qed.
  Lemma fol_foll B t : parser_rule_names G <> [] -> fol P B t -> exists n, tid n = Some t /\ foll B n.
  Proof using HR Hv0 Hstop Hzero Hsound Hcomp Hrange Hgen.
    intros Hne. induction 1 as [|p α B β t Hp Hr Hs|p α B β t Hp Hr Hn _ IH].
    - destruct (parser_rule_names G) as [|name ns] eqn:E; [done|]. exists (lit "_STOP"). split; [done|]. left.
      exists (RuleRef name). split; [by constructor; apply Hzero|]. constructor. by rewrite E.
    - assert (Production (left p) (α ++ NT B :: β) ∈ P) as Hp' by (rewrite <- Hr; by destruct p).
      assert (Halt : forall alt, alternative_of G alt -> mk_alt alt (right p) -> exists n, tid n = Some t /\ foll B n).
      { intros alt Hof Ha. rewrite Hr in Ha. apply mk_alt_nonempty in Ha as (es & -> & Hes).
        apply mk_elems_split in Hes as (es1 & e & es2 & -> & H1 & He & H2). destruct (starts_elems _ _ _ H2 Hs) as (n & Ht & Hb).
        exists n. split; [done|]. eapply foll_elem; [done|]. by eapply after_next. }
      destruct (decide (left p < R)) as [Hlt|Hge].
      + destruct (Hsound (left p) (right p)) as (name & alts & alt & HG & Ha & _ & Hm); [done|by destruct p|].
        apply (Halt alt); [left; eauto|done].
      + destruct (Hgen p Hp) as [(a & k & b & Ho & He)|(alts & sx & Ho & Ha)]; [lia| |].
        * inversion He as [|? it ? ? m Ha Hc Hm Hri]; subst. apply Hri in Hp'. apply in_suffix_rights in Hp' as [(-> & _ & -> & _)|[(-> & -> & -> & Hk)|(-> & _ & ->)]].
          -- by apply starts_nil in Hs.
          -- destruct (starts_elems [Element a (Some (k, b))] [NT (left p)] t) as (n & Ht & Hb); [by repeat constructor|done|].
             exists n. split; [done|]. left. exists a. split; [done|].
             eapply after_repeat; [done|destruct k; auto; done|]. inversion Hb as [? ? ? H1|? ? ? _ H1]; subst; [by inversion H1|inversion H1].
          -- by apply starts_nil in Hs.
        * inversion Ha as [| |? m rs Has Hc Hm Hri]; subst.
          destruct (mk_alts_right _ _ (right p) Has) as (alt & Hin & Hta); [apply Hri; by destruct p|].
          apply (Halt alt); [right; eauto|done].
    - destruct IH as (n & Ht & IH). exists n. split; [done|].
      assert (Production (left p) (α ++ NT B :: β) ∈ P) as Hp' by (rewrite <- Hr; by destruct p).
      assert (Halt : forall alt, after_alternative G alt n -> mk_alt alt (right p) -> foll B n).
      { intros alt Hof Ha. rewrite Hr in Ha. apply mk_alt_nonempty in Ha as (es & -> & Hes).
        apply mk_elems_split in Hes as (es1 & e & es2 & -> & H1 & He & H2).
        eapply foll_elem; [done|]. eapply after_last; [|exact Hof]. by apply (nullable_elems es2 β). }
      destruct IH as [(a & Ha & Haf)|(a & k & b & He & Haf)].
      + inversion Ha as [|name i Hi|alts m rs Has Hc Hm Hri]; subst.
        * destruct (Hsound (left p) (right p)) as (name' & alts & alt & HG & Hal & Hi' & Hm); [by eapply HR|by destruct p|].
          pose proof (nid_inj _ _ _ Hi Hi') as <-. apply (Halt alt); [by eapply after_rule|done].
        * destruct (mk_alts_right _ _ (right p) Has) as (alt & Hin & Hta); [apply Hri; by destruct p|].
          apply (Halt alt); [by eapply after_group|done].
      + inversion He as [|? it ? ? m Ha Hc Hm Hri]; subst. apply Hri in Hp'. apply in_suffix_rights in Hp' as [(-> & -> & -> & _)|[(-> & -> & -> & Hk)|(-> & -> & ->)]].
        * right. exists a, k, b. done.
        * left. exists a. split; [done|]. by eapply after_operand.
        * left. exists a. split; [done|]. by eapply after_operand.
  Qed.

  (** *** LL(1) *)
  Lemma chooses_predicts a A alt r n : mk_atom a (NT A) -> mk_alt alt r -> chooses G a alt n ->
    exists t, tid n = Some t /\ predicts P (Production A r) t.
  Proof using HR Hv0 Hstop Hzero Hsound Hcomp Hrange.
    intros Ha Hr [Hb|[Hm Haf]].
    - destruct begins_starts as (_ & _ & B3 & _). destruct (B3 _ _ Hb _ Hr) as (t & Ht & Hs). exists t. split; [done|by left].
    - destruct after_fol as (_ & _ & A3). destruct (A3 _ _ Haf) as (t & it & Ht & Hit & Hf).
      pose proof (mk_atom_functional v0 R s P a _ _ Ha Hit) as <-. exists t. split; [done|]. right. split; [by apply (nullable_alt alt)|].
      apply follows_iff. by apply Hf.
  Qed.
  Lemma suffix_starts a k b m it rest t : mk_elem (Element a (Some (k, b))) (NT m) -> mk_atom a it -> rest = [NT m] \/ rest = [] ->
    starts P (it :: rest) t -> exists n, tid n = Some t /\ begins_atom G a n.
  Proof using HR Hv0 Hsound Hcomp Hrange.
    intros He Ha [->| ->] Hs.
    - destruct (starts_elems [Element a None; Element a (Some (k, b))] [it; NT m] t) as (n & Ht & Hb); [by repeat constructor|done|].
      exists n. split; [done|]. by apply begins_two in Hb.
    - by apply (starts_atom a it).
  Qed.

  Lemma ll1_source : ll1 P -> source_ll1 G /\ plus_void G.
  Proof using HR Hv0 Hstop Hzero Hsound Hcomp Hrange Hkey.
    intros Hll. destruct begins_starts as (B1 & B2 & B3 & B4). destruct after_fol as (A1 & A2 & A3).
    pose proof (mk_injective v0 R s P HR Hv0 Hkey) as (_ & _ & _ & Hinj & _).
    assert (Hsame : forall a A alt1 alt2 r1 r2 n, mk_atom a (NT A) -> mk_alt alt1 r1 -> mk_alt alt2 r2 ->
      Production A r1 ∈ P -> Production A r2 ∈ P -> chooses G a alt1 n -> chooses G a alt2 n -> plain_alternative alt1 = plain_alternative alt2).
    { intros a A alt1 alt2 r1 r2 n Ha H1 H2 P1 P2 C1 C2.
      destruct (chooses_predicts a A alt1 r1 n Ha H1 C1) as (t & Ht & D1). destruct (chooses_predicts a A alt2 r2 n Ha H2 C2) as (t' & Ht' & D2).
      rewrite Ht in Ht'. injection Ht' as <-. pose proof (Hll _ _ t P1 P2 eq_refl D1 D2) as E. injection E as <-. by apply (Hinj _ r1). }
    split; [split|].
    - intros name alts1 alts2 alt1 alt2 n G1 I1 G2 I2. destruct (Hcomp _ _ _ G1 I1) as (id & r1 & Hid & P1 & M1).
      destruct (Hcomp _ _ _ G2 I2) as (id' & r2 & Hid' & P2 & M2). rewrite Hid in Hid'. injection Hid' as <-.
      apply (Hsame (RuleRef name) id _ _ r1 r2); try done. by constructor.
    - intros alts sx alt1 alt2 n Ho I1 I2. destruct (occurs_mk _ Ho) as [it Hit]. apply elem_atom in Hit as [it0 Hit].
      inversion Hit as [| |? m rs Has Hc Hm Hr]; subst. destruct (mk_alts_alt _ _ _ Has I1) as (r1 & R1 & M1).
      destruct (mk_alts_alt _ _ _ Has I2) as (r2 & R2 & M2). apply (Hsame (Group alts) m _ _ r1 r2); try done; by apply Hr.
    - intros a k b n Ho Hk Haf. destruct (A1 _ _ Haf) as (t & it & Ht & Hit & Hf). inversion Hit as [|? it0 ? ? m Ha Hc Hm Hr]; subst.
      specialize (Hf m eq_refl). apply follows_iff in Hf.
      assert (exists rest, Production m (it0 :: rest) ∈ P /\ Production m [] ∈ P /\ nullable P rest) as (rest & P1 & P2 & Hnull).
      { assert (Production m [] ∈ P) as P2 by (destruct Hk; subst k; apply Hr; apply elem_of_list_further, elem_of_list_here).
        destruct Hk; subst k; [exists [NT m]|exists []]; (split_and!; [apply Hr; apply elem_of_list_here|done|]); [|apply nullable_nil].
        apply nullable_NT. exists (Production m []). split_and!; [done|done|apply nullable_nil]. }
      assert (predicts P (Production m []) t) as D2 by (right; split; [apply nullable_nil|done]). split.
      + intros Hb. destruct (B2 _ _ Hb _ Ha) as (t' & Ht' & Hs). rewrite Ht in Ht'. injection Ht' as <-.
        assert (predicts P (Production m (it0 :: rest)) t) as D1 by (left; cbn [right]; apply starts_cons; by left).
        pose proof (Hll _ _ t P1 P2 eq_refl D1 D2) as E. discriminate E.
      + intros Hma. apply (nullable_atom a it0 Ha) in Hma.
        assert (predicts P (Production m (it0 :: rest)) t) as D1.
        { right. cbn [right left]. split; [|done]. apply nullable_cons. done. }
        pose proof (Hll _ _ t P1 P2 eq_refl D1 D2) as E. discriminate E.
    - intros a b n Ho. destruct (occurs_mk _ Ho) as [it Hit]. inversion Hit as [|? it0 ? ? m Ha Hc Hm Hr]; subst.
      assert (Production m [it0; NT m] ∈ P) as P1 by (apply Hr; apply elem_of_list_here).
      assert (Production m [it0] ∈ P) as P2 by (apply Hr; apply elem_of_list_further, elem_of_list_here). split.
      + intros Hb. destruct (B2 _ _ Hb _ Ha) as (t & Ht & Hs).
        assert (predicts P (Production m [it0; NT m]) t) as D1 by (left; cbn [right]; apply starts_cons; by left).
        assert (predicts P (Production m [it0]) t) as D2 by (left; done).
        pose proof (Hll _ _ t P1 P2 eq_refl D1 D2) as E. discriminate E.
      + intros Hma Haf. apply (nullable_atom a it0 Ha) in Hma. destruct (A1 _ _ Haf) as (t & it & Ht & Hit' & Hf).
        pose proof (mk_elem_functional v0 R s P _ _ _ Hit Hit') as <-. specialize (Hf m eq_refl). apply follows_iff in Hf.
        assert (nullable P [NT m]) as Hnm by (apply nullable_NT; by exists (Production m [it0])).
        assert (predicts P (Production m [it0; NT m]) t) as D1 by (right; cbn [right left]; split; [|done]; apply nullable_cons; done).
        assert (predicts P (Production m [it0]) t) as D2 by (right; done).
        pose proof (Hll _ _ t P1 P2 eq_refl D1 D2) as E. discriminate E.
  Qed.

  Lemma source_ll1_ll1 : parser_rule_names G <> [] -> source_ll1 G -> plus_void G -> ll1 P.
  Proof using HR Hv0 Hstop Hzero Hsound Hcomp Hrange Hgen.
    intros Hne HS HP [A r1] [A' r2] t P1 P2 E D1 D2. cbn [left] in E. subst A'. f_equal.
    assert (Hpred : forall r, predicts P (Production A r) t -> (starts P r t) \/ (nullable P r /\ exists n, tid n = Some t /\ foll A n)).
    { intros r [Hs|[Hn Hf]]; [by left|right]. split; [done|]. apply fol_foll; [done|]. by apply follows_iff. }
    assert (Hchoose : forall a n alt r, tid n = Some t -> after_atom G a n -> mk_alt alt r -> predicts P (Production A r) t -> chooses G a alt n).
    { intros a n alt r Ht Haf Hr [Hs|[Hn _]].
      - left. destruct (starts_alt alt r t Hr Hs) as (n' & Ht' & Hb). by rewrite (tid_inj n n' t).
      - right. split; [|done]. by apply (nullable_alt alt r). }
    destruct (decide (A < R)) as [Hlt|Hge].
    - destruct (Hsound _ _ Hlt P1) as (name & alts1 & alt1 & G1 & I1 & Hid & M1).
      destruct (Hsound _ _ Hlt P2) as (name' & alts2 & alt2 & G2 & I2 & Hid' & M2). pose proof (nid_inj _ _ _ Hid Hid') as <-.
      assert (Hc : forall alt r, mk_alt alt r -> predicts P (Production A r) t -> exists n, tid n = Some t /\ chooses G (RuleRef name) alt n).
      { intros alt r Hr D. pose proof D as D'. apply Hpred in D' as [Hs|(_ & n & Ht & Hf)].
        - destruct (starts_alt alt r t Hr Hs) as (n & ? & ?). exists n. split; [done|by left].
        - exists n. split; [done|]. destruct Hf as [(a & Ha & Haf)|(a & k & b & He & _)].
          + inversion Ha as [|name1 ? Hid1|alts m rs _ _ Hm _]; subst; [|lia]. pose proof (nid_inj _ _ _ Hid Hid1) as <-. by eapply Hchoose.
          + inversion He; subst. lia. }
      destruct (Hc _ _ M1 D1) as (n & Ht & C1). destruct (Hc _ _ M2 D2) as (n' & Ht' & C2). pose proof (tid_inj _ _ _ Ht Ht') as <-.
      apply (mk_alt_functional v0 R s P alt1 alt2); [|done|done]. exact (sl_rule _ HS name alts1 alts2 alt1 alt2 n G1 I1 G2 I2 C1 C2).
    - assert (Hgroup : forall alts sx, occurs (Element (Group alts) sx) G -> mk_atom (Group alts) (NT A) ->
        (forall alt r, mk_alt alt r -> r = r1 \/ r = r2 -> exists n, tid n = Some t /\ chooses G (Group alts) alt n) -> r1 = r2).
      { intros alts sx Ho Ha Hc. inversion Ha as [| |? m rs Has _ _ Hr]; subst.
        destruct (mk_alts_right _ _ r1 Has) as (alt1 & I1 & M1); [by apply Hr|]. destruct (mk_alts_right _ _ r2 Has) as (alt2 & I2 & M2); [by apply Hr|].
        destruct (Hc _ _ M1) as (n & Ht & C1); [by left|]. destruct (Hc _ _ M2) as (n' & Ht' & C2); [by right|]. pose proof (tid_inj _ _ _ Ht Ht') as <-.
        apply (mk_alt_functional v0 R s P alt1 alt2); [|done|done]. exact (sl_group _ HS alts sx alt1 alt2 n Ho I1 I2 C1 C2). }
      assert (Hsuffix : forall a k b, occurs (Element a (Some (k, b))) G -> mk_elem (Element a (Some (k, b))) (NT A) ->
        (forall n, tid n = Some t -> ~ begins_atom G a n) \/ (k <> Plus /\ starts P r1 t /\ starts P r2 t) ->
        (starts P r1 t /\ starts P r2 t) \/ ~ matches_atom G a [] -> r1 = r2).
      { intros a k b Ho He Hb Hm. pose proof He as He'. inversion He' as [|? it ? ? m Ha _ _ Hr]; subst.
        assert (Hcase : forall r, Production A r ∈ P -> predicts P (Production A r) t -> (starts P r t \/ ~ matches_atom G a []) ->
          (exists rest, r = it :: rest /\ (rest = [NT A] \/ rest = []) /\ starts P r t) \/ (r = [] /\ k <> Plus)).
        { intros r Hp D Hor. apply Hr in Hp.
          assert ((exists rest, r = it :: rest /\ (rest = [NT A] \/ rest = [])) \/ (r = [] /\ k <> Plus)) as [(rest & -> & Hrest)|?]; [| |by right].
          { destruct k; simpl in Hp; rewrite !elem_of_cons in Hp; destruct Hp as [->|[->|?%elem_of_nil]]; eauto; done. }
          left. exists rest. split_and!; [done|done|]. destruct D as [D|[D _]]; [done|]. destruct Hor as [?|Hor]; [done|]. destruct Hor.
          cbn [right] in D. apply nullable_cons in D as [D _]. by apply (nullable_atom a it). }
        assert (Hst : forall rest, (rest = [NT A] \/ rest = []) -> starts P (it :: rest) t -> exists n, tid n = Some t /\ begins_atom G a n).
        { intros rest Hrest Hs. by eapply suffix_starts. }
        destruct (Hcase r1 P1 D1) as [(rest1 & E1 & R1 & S1)|[E1 K1]]; [naive_solver| |].
        - destruct Hb as [Hb|(Hk & S1' & S2)].
          { rewrite E1 in S1. destruct (Hst _ R1 S1) as (n & ? & ?). by destruct (Hb n). }
          destruct (Hcase r2 P2 D2) as [(rest2 & E2 & R2 & _)|[E2 K2]]; [naive_solver| |].
          + subst r1 r2. apply Hr in P1, P2. destruct k; simpl in P1, P2; rewrite !elem_of_cons, elem_of_nil in P1, P2; [|done|];
              destruct P1 as [P1|[P1|[]]], P2 as [P2|[P2|[]]]; congruence.
          + subst r2. by apply starts_nil in S2.
        - destruct (Hcase r2 P2 D2) as [(rest2 & E2 & R2 & S2)|[E2 K2]]; [naive_solver| |by subst].
          destruct Hb as [Hb|(Hk & S1 & _)].
          + rewrite E2 in S2. destruct (Hst _ R2 S2) as (n & ? & ?). by destruct (Hb n).
          + subst r1. by apply starts_nil in S1. }
      assert (Hfoll : forall n, tid n = Some t -> foll A n -> r1 = r2).
      { intros n Ht [(a & Ha & Haf)|(a & k & b & He & Haf)].
        - pose proof (proj2 (proj2 after_occurs) _ _ Haf) as Ho. inversion Ha as [|name ? Hid|alts m rs Has _ _ Hr]; subst.
          + apply HR in Hid. lia.
          + destruct Ho as [[sx Ho]|[name ?]]; [|done]. apply (Hgroup alts sx Ho Ha). intros alt r Hr' D. exists n. split; [done|]. destruct D; subst r; by eapply Hchoose.
        - pose proof (proj1 after_occurs _ _ Haf) as Ho. apply (Hsuffix a k b Ho He).
          + left. intros n' Ht'. pose proof (tid_inj _ _ _ Ht Ht') as <-. destruct k.
            * apply (sl_optional _ HS a Star b n Ho); auto.
            * apply (HP a b n Ho).
            * apply (sl_optional _ HS a Question b n Ho); auto.
          + right. destruct k.
            * apply (sl_optional _ HS a Star b n Ho); auto.
            * intros Hm. by apply (proj2 (HP a b n Ho) Hm).
            * apply (sl_optional _ HS a Question b n Ho); auto. }
      pose proof D1 as D1'. apply Hpred in D1' as [S1|(_ & n & Ht & Hf)]; [|by eapply Hfoll].
      pose proof D2 as D2'. apply Hpred in D2' as [S2|(_ & n & Ht & Hf)]; [|by eapply Hfoll].
      destruct (Hgen _ P1) as [(a & k & b & Ho & He)|(alts & sx & Ho & Ha)]; [cbn [left]; lia| |].
      + apply (Hsuffix a k b Ho He); [|by left]. assert (k = Plus \/ k <> Plus) as [->|] by (destruct k; [by right|by left|by right]); [left|by right].
        intros n _. apply (HP a b n Ho).
      + apply (Hgroup alts sx Ho Ha). intros alt r Hr D. assert (starts P r t) as Hs by (by destruct D; subst r).
        destruct (starts_alt alt r t Hr Hs) as (n & ? & ?). exists n. split; [done|by left].
  Qed.
End source.

Lemma c70 G r g data :
  grammar_tree G r -> proper G -> load_tree r = Ret (g, data) -> no_collision (g_vocabulary g) G ->
  ll1 (productions g) <-> source_ll1 G /\ plus_void G.
Proof.
  intros Ht Hp Hload Hnc.
  destruct (looked_up G r g data Ht Hp Hload Hnc) as (v0 & R & s & Hv0 & Et & En & Hstop & Hnames & Hzero & HR & Hrange & Hkey & Hsound & Hcomp & Hgen).
  split.
  - exact (ll1_source v0 R G s (productions g) Hv0 Hstop Hzero HR Hrange Hkey Hsound Hcomp).
  - intros [HS HP]. destruct (decide (parser_rule_names G = [])) as [E|E].
    + assert (Hno : forall name alts, ParserRule name alts ∉ G).
      { intros name alts HG. assert (name ∈ parser_rule_names G) as K; [|rewrite E in K; by apply elem_of_nil in K].
        unfold parser_rule_names. apply elem_of_list_omap. by exists (ParserRule name alts). }
      intros p q t Hin _ _ _ _. exfalso. destruct (decide (left p < R)) as [Hlt|Hge].
      * destruct (Hsound (left p) (right p)) as (n & alts & alt & HG & _); [done|by destruct p|]. by apply (Hno n alts).
      * destruct (Hgen p Hin) as [(a & k & b & (n & alts & alt & HG & _) & _)|(alts0 & sx & (n & alts & alt & HG & _) & _)]; [lia| |]; by apply (Hno n alts).
    + exact (source_ll1_ll1 v0 R G s (productions g) Hv0 Hstop Hzero HR Hrange Hsound Hcomp Hgen E HS HP).
Qed.
