(** RewriteProofs.v -- the productions made from a grammar are those of the announced rewriting (C83). *)
From Verif Require Export SourceProofs EbnfClashMain SpecRewrite.

Section standing.
  Context (v0 : vocabulary) (R : nat) (s : production_state) (P : gset production).
  Notation mk_elem := (mk_elem v0 R s P).
  Notation mk_atom := (mk_atom v0 R s P).
  Notation mk_alts := (mk_alts v0 R s P).
  Notation mk_alt := (mk_alt v0 R s P).
  Notation mk_elems := (mk_elems v0 R s P).

  (** The symbol of a construct, from the caches. *)
  Fixpoint st_elem (e : element) : item :=
    match e with
    | Element a None => st_atom a
    | Element a (Some (k, _)) => NT (default 0 (cached s (KSuffix k (item_id (st_atom a)))))
    end
  with st_atom (a : atom) : item :=
    match a with
    | TokenRef n => T (default 0 (t_name_to_id v0 !! n))
    | RuleRef n => NT (default 0 (nt_name_to_id v0 !! n))
    | StringLiteral _ => T 0
    | Group alts => NT (default 0 (cached s (KBlock (map st_alt alts))))
    end
  with st_alt (a : alternative) : list item :=
    match a with Epsilon => [] | Sequence es => map st_elem es end.

  Lemma st_mk :
    (forall e it, mk_elem e it -> st_elem e = it) /\
    (forall a it, mk_atom a it -> st_atom a = it) /\
    (forall a rs, mk_alts a rs -> map st_alt a = rs) /\
    (forall a r, mk_alt a r -> st_alt a = r) /\
    (forall es its, mk_elems es its -> map st_elem es = its).
  Proof using.
    pose proof (mk_mut v0 R s P (fun e it => st_elem e = it) (fun a it => st_atom a = it) (fun a rs => map st_alt a = rs)
      (fun a r => st_alt a = r) (fun es its => map st_elem es = its)) as K.
    apply K; clear K.
    - intros a it _ IH. exact IH.
    - intros a it k b n _ IH Hc _ _. cbn [st_elem]. by rewrite IH, Hc.
    - intros n t Hn. cbn [st_atom]. by rewrite Hn.
    - intros n i Hn. cbn [st_atom]. by rewrite Hn.
    - intros alts n rs _ IH Hc _ _. cbn [st_atom]. by rewrite IH, Hc.
    - done.
    - intros a r alts rs _ IH1 _ IH2. cbn [map]. by rewrite IH1, IH2.
    - done.
    - intros es its _ IH. exact IH.
    - done.
    - intros e it es its _ IH1 _ IH2. cbn [map]. by rewrite IH1, IH2.
  Qed.
  Lemma items_st alt : items st_elem alt = st_alt alt.
  Proof using. by destruct alt. Qed.

  Lemma st_lk :
    (forall e it, lk_elem v0 s e it -> st_elem e = it) /\
    (forall a it, lk_atom v0 s a it -> st_atom a = it) /\
    (forall a rs, lk_alts v0 s a rs -> map st_alt a = rs) /\
    (forall a r, lk_alt v0 s a r -> st_alt a = r) /\
    (forall es its, lk_elems v0 s es its -> map st_elem es = its).
  Proof using.
    pose proof (lk_mut v0 s (fun e it => st_elem e = it) (fun a it => st_atom a = it) (fun a rs => map st_alt a = rs)
      (fun a r => st_alt a = r) (fun es its => map st_elem es = its)) as K.
    apply K; clear K.
    - intros a it _ IH. exact IH.
    - intros a it k b n _ IH Hc. cbn [st_elem]. by rewrite IH, Hc.
    - intros n t Hn. cbn [st_atom]. by rewrite Hn.
    - intros n i Hn. cbn [st_atom]. by rewrite Hn.
    - intros alts n rs _ IH Hc. cbn [st_atom]. by rewrite IH, Hc.
    - done.
    - intros a r alts rs _ IH1 _ IH2. cbn [map]. by rewrite IH1, IH2.
    - done.
    - intros es its _ IH. exact IH.
    - done.
    - intros e it es its _ IH1 _ IH2. cbn [map]. by rewrite IH1, IH2.
  Qed.
End standing.

Lemma c83_state G v0 R s : met_facts G v0 R s ->
  stands_for G (ps_vocabulary s) (st_elem v0 s) /\ one_each_number G (st_elem v0 s) /\
    forall p, p ∈ ps_productions s <-> rewritten G (ps_vocabulary s) (st_elem v0 s) (first_operand (number (st_elem v0 s)) G) p.
Proof.
  intros (Hi & Hv0 & Hnt0 & Hnames & Hw & Hm & Hsound & Hcomp).
  destruct (st_lk v0 s) as (S1 & S2 & S3 & S4 & S5).
  assert (HR : forall name id, nt_name_to_id v0 !! name = Some id -> id < R).
  { intros name id H. apply (vi_n _ Hv0) in H. apply Hnt0, (vi_nd _ Hv0). eauto. }
  pose proof (wf_range _ _ _ _ Hw) as Hrange. pose proof (wf_inj _ _ _ _ Hw) as Hkey.
  assert (Hat : forall a sx, occurs (Element a sx) G -> exists it, lk_atom v0 s a it).
  { intros a sx Ho. by apply (lk_occurs v0 G s Hcomp a sx). }
  assert (Hel : forall e, occurs e G -> exists it, lk_elem v0 s e it).
  { intros e (name & alts & alt & HG & Ha & Hin). destruct (Hcomp _ _ _ HG Ha) as (id & rr & _ & _ & Hr).
    exact (proj2 (lk_within v0 s e) alt Hin rr Hr). }
  assert (Hsx : forall a k b, occurs (Element a (Some (k, b))) G -> exists it n, lk_atom v0 s a it /\ cached s (KSuffix k (item_id it)) = Some n /\
    lk_elem v0 s (Element a (Some (k, b))) (NT n)).
  { intros a k b Ho. destruct (Hel _ Ho) as [it Hit]. inversion Hit as [|? it0 ? ? n Ha Hc]; subst. exists it0, n. done. }
  assert (Hgr : forall alts sx, occurs (Element (Group alts) sx) G -> exists rs n, lk_alts v0 s alts rs /\ cached s (KBlock rs) = Some n /\
    lk_elem v0 s (Element (Group alts) None) (NT n)).
  { intros alts sx Ho. destruct (Hat _ _ Ho) as [it Hit]. inversion Hit as [| |? n rs Has Hc]; subst. exists rs, n. split_and!; [done|done|by constructor]. }
  assert (HG : forall e, generated G e -> exists n, lk_elem v0 s e (NT n) /\ R <= n < ps_next_rule_id s).
  { intros e [(a & k & b & -> & Ho)|(alts & sx & -> & Ho)].
    - destruct (Hsx _ _ _ Ho) as (it & n & _ & Hc & He). eauto.
    - destruct (Hgr _ _ Ho) as (rs & n & _ & Hc & He). eauto. }
  assert (Hnew : forall n, R <= n < ps_next_rule_id s ->
    (exists a k b it, occurs (Element a (Some (k, b))) G /\ lk_atom v0 s a it /\ cached s (KSuffix k (item_id it)) = Some n /\ lk_elem v0 s (Element a (Some (k, b))) (NT n)) \/
    (exists alts sx rs, occurs (Element (Group alts) sx) G /\ lk_alts v0 s alts rs /\ cached s (KBlock rs) = Some n /\ lk_elem v0 s (Element (Group alts) None) (NT n))).
  { intros n Hn. destruct (wf_cover _ _ _ _ Hw n Hn) as [[k id|rs] Hk].
    - left. destruct (wf_suffix _ _ _ _ Hw _ _ _ Hk) as (a & b & it & Ho & Ha & <-). exists a, k, b, it. split_and!; [done|done|done|by econstructor].
    - right. destruct (wf_block _ _ _ _ Hw _ _ Hk) as (alts & sx & Ho & Ha). exists alts, sx, rs. split_and!; [done|done|done|]. constructor. by econstructor. }
  assert (Hnum : forall a it, lk_atom v0 s a it -> number (st_elem v0 s) a = item_id it).
  { intros a it Ha. unfold number. by rewrite (S1 _ it) by by constructor. }
  assert (Hread : forall a it k n, lk_atom v0 s a it -> cached s (KSuffix k (item_id it)) = Some n ->
    rights (ps_productions s) n (suffix_rights k n (st_elem v0 s (Element (first_operand (number (st_elem v0 s)) G k a) None)))).
  { intros a it k n Ha Hc. destruct (met_first _ _ _ Hm k _ n Hc) as (L1 & a0 & it0 & L2 & EL & Ha0 & E & Hr & Hb).
    assert (first_operand (number (st_elem v0 s)) G k a = a0) as ->; [|by rewrite (S1 _ it0) by by constructor].
    unfold first_operand. rewrite EL, (find_first _ L1 (k, a0) L2); [done| |].
    - cbn [fst snd]. rewrite (Hnum _ _ Ha), (Hnum _ _ Ha0), E, Nat.eqb_refl. by destruct k.
    - intros [k' a'] Hin. cbn [fst snd]. destruct (same_suffix k k') eqn:Ek; [|done]. apply same_suffix_eq in Ek as <-.
      destruct (Hb a' Hin) as (it' & Ha' & Hne). rewrite (Hnum _ _ Ha), (Hnum _ _ Ha'). simpl. by apply Nat.eqb_neq. }
  split; [split|split; [split_and!|]].
  - intros n sx Ho. destruct (Hat _ _ Ho) as [it Hit]. inversion Hit as [? t Hn| |]; subst. exists t.
    split; [unfold get_terminal_id_by_name; by rewrite (pi_t1 _ _ _ Hi)|]. by rewrite (S1 _ (T t)) by by constructor.
  - intros n sx Ho. destruct (Hat _ _ Ho) as [it Hit]. inversion Hit as [|? i Hn|]; subst. exists i.
    split; [unfold get_nonterminal_id_by_name; by rewrite (pi_n1 _ _ _ Hi)|]. by rewrite (S1 _ (NT i)) by by constructor.
  - intros e He. destruct (HG e He) as (n & Hl & Hn). exists n. split_and!.
    + by apply S1.
    + unfold is_nonterminal_id. apply bool_decide_eq_true, (pi_n3 _ _ _ Hi). by right.
    + unfold get_nonterminal_name_by_id. rewrite (pi_n2 _ _ _ Hi). destruct (nt_id_to_name v0 !! n) as [name|] eqn:E; [|done].
      apply (vi_n _ Hv0) in E. apply HR in E. lia.
  - intros n Hn. unfold is_nonterminal_id in Hn. apply bool_decide_eq_true, (pi_n3 _ _ _ Hi) in Hn as [Hn|Hn].
    + left. destruct (Hnt0 _ Hn) as (_ & name & E). apply (vi_n _ Hv0) in E. exists name. split; [apply Hnames; eauto|].
      unfold get_nonterminal_id_by_name. by rewrite (pi_n1 _ _ _ Hi).
    + right. destruct (Hnew n Hn) as [(a & k & b & it & Ho & _ & _ & Hl)|(alts & sx & rs & Ho & _ & _ & Hl)].
      * exists (Element a (Some (k, b))). split; [left; eauto 6|]. by apply S1.
      * exists (Element (Group alts) None). split; [right; eauto|]. by apply S1.
  - intros a k b a' k' b' Ho Ho'. destruct (Hsx _ _ _ Ho) as (it & n & Ha & Hc & He). destruct (Hsx _ _ _ Ho') as (it' & n' & Ha' & Hc' & He').
    rewrite (S1 _ _ He), (S1 _ _ He'), (Hnum _ _ Ha), (Hnum _ _ Ha'). split.
    + intros [= <-]. pose proof (Hkey _ _ _ Hc Hc') as E. by injection E.
    + intros [<- E]. congruence.
  - intros alts sx alts' sx' Ho Ho'. destruct (Hgr _ _ Ho) as (rs & n & Ha & Hc & He). destruct (Hgr _ _ Ho') as (rs' & n' & Ha' & Hc' & He').
    rewrite (S1 _ _ He), (S1 _ _ He'). rewrite !(map_ext _ _ (items_st v0 s)), (S3 _ _ Ha), (S3 _ _ Ha'). split.
    + intros [= <-]. pose proof (Hkey _ _ _ Hc Hc') as E. by injection E.
    + intros E. congruence.
  - intros a k b alts sx Ho Ho'. destruct (Hsx _ _ _ Ho) as (it & n & Ha & Hc & He). destruct (Hgr _ _ Ho') as (rs' & n' & Ha' & Hc' & He').
    rewrite (S1 _ _ He), (S1 _ _ He'). intros [= <-]. pose proof (Hkey _ _ _ Hc Hc') as E. done.
  - intros p. split.
    + intros Hin. destruct p as [n rr]. destruct (decide (n < R)) as [Hlt|Hge].
      * destruct (Hsound n rr Hlt Hin) as (name & alts & alt & HGr & Ha & Hn & Hl). rewrite <- (S4 _ _ Hl), <- items_st.
        eapply rewritten_rule; [done|done|]. unfold get_nonterminal_id_by_name. by rewrite (pi_n1 _ _ _ Hi).
      * destruct (Hnew n) as [(a & k & b & it & Ho & Ha & Hc & Hl)|(alts & sx & rs & Ho & Has & Hc & Hl)].
        { split; [lia|]. by apply (met_left _ _ _ Hm) in Hin. }
        -- pose proof (S1 _ _ Hl) as Ef. apply (Hread _ _ _ _ Ha Hc) in Hin.
           destruct k; cbn [suffix_rights] in Hin; [eapply rewritten_star|eapply rewritten_plus|eapply rewritten_question]; eauto.
        -- pose proof (S1 _ _ Hl) as Ef. apply (met_block _ _ _ Hm _ _ Hc) in Hin.
           destruct (lk_alts_right v0 s _ _ _ Has Hin) as (alt & Ha & Hal).
           rewrite <- (S4 _ _ Hal), <- items_st. by eapply rewritten_group.
    + assert (Hsuf : forall a k b n rr, occurs (Element a (Some (k, b))) G -> st_elem v0 s (Element a (Some (k, b))) = NT n ->
        rr ∈ suffix_rights k n (st_elem v0 s (Element (first_operand (number (st_elem v0 s)) G k a) None)) -> Production n rr ∈ ps_productions s).
      { intros a k b n rr Ho Ef Hin. destruct (Hsx _ _ _ Ho) as (it & n' & Ha & Hc & He). rewrite (S1 _ _ He) in Ef. injection Ef as ->.
        by apply (Hread _ _ _ _ Ha Hc). }
      intros [name alts alt n HGr Ha Hn|alts sx alt n Ho Ha Ef|a b n rr Ho Ef Hin|a b n rr Ho Ef Hin|a b n rr Ho Ef Hin];
        [| |by eapply Hsuf..].
      * destruct (Hcomp _ _ _ HGr Ha) as (id & rr & Hid & Hin & Hl). unfold get_nonterminal_id_by_name in Hn. rewrite (pi_n1 _ _ _ Hi), Hid in Hn.
        injection Hn as <-. by rewrite items_st, (S4 _ _ Hl).
      * destruct (Hgr _ _ Ho) as (rs & n' & Has & Hc & He). rewrite (S1 _ _ He) in Ef. injection Ef as ->.
        destruct (lk_alts_alt v0 s _ _ _ Has Ha) as (rr & Hin & Hl). rewrite items_st, (S4 _ _ Hl). by apply (met_block _ _ _ Hm _ _ Hc).
Qed.

Lemma c83_all G r g data : grammar_tree G r -> proper G -> load_tree r = Ret (g, data) ->
  exists f, stands_for G (g_vocabulary g) f /\ one_each_number G f /\
    forall p, p ∈ productions g <-> rewritten G (g_vocabulary g) f (first_operand (number f) G) p.
Proof.
  intros Ht Hp Hload. destruct (met_all G r g data Ht Hp Hload) as (v0 & R & s & -> & -> & H). eexists. exact (c83_state G v0 R s H).
Qed.

Lemma c83 G r g data :
  grammar_tree G r -> proper G -> load_tree r = Ret (g, data) -> no_collision (g_vocabulary g) G ->
  exists f, stands_for G (g_vocabulary g) f /\ one_each G f /\ forall p, p ∈ productions g <-> rewritten G (g_vocabulary g) f (fun _ a => a) p.
Proof.
  intros Ht Hp Hload Hnc.
  destruct (looked_up_all G r g data Ht Hp Hload Hnc) as (v0 & R & s & (Ei & Hnts & Hnt0 & Hnew) & Hv0 & Et & En & Hstop & Hnames & Hzero & HR & Hrange & Hkey & Hsound & Hcomp & Hgen).
  set (P := productions g) in *. set (v := g_vocabulary g) in *.
  destruct (st_mk v0 R s P) as (S1 & S2 & S3 & S4 & S5).
  destruct (mk_injective v0 R s P HR Hv0 Hkey) as (J1 & _).
  assert (Hocc : forall e, occurs e G -> exists it, mk_elem v0 R s P e it).
  { intros e. by apply (occurs_mk v0 R G s P Hcomp). }
  assert (Hat : forall a sx, occurs (Element a sx) G -> exists it, mk_atom v0 R s P a it).
  { intros a sx Ho. destruct (Hocc _ Ho) as [it Hit]. by eapply elem_atom. }
  assert (HG : forall e, generated G e -> exists n, mk_elem v0 R s P e (NT n) /\ R <= n < ps_next_rule_id s).
  { intros e [(a & k & b & -> & Ho)|(alts & sx & -> & Ho)].
    - destruct (Hocc _ Ho) as [it Hit]. inversion Hit as [|? it0 ? ? n Ha Hc Hn Hr]; subst. exists n. split; [done|]. by eapply Hrange.
    - destruct (Hat _ _ Ho) as [it Hit]. inversion Hit as [| |? n rs Has Hc Hn Hr]; subst. exists n. split; [by constructor|]. by eapply Hrange. }
  exists (st_elem v0 s). split; [split|split].
  - intros n sx Ho. destruct (Hat _ _ Ho) as [it Hit]. inversion Hit as [? t Hn| |]; subst. exists t.
    split; [unfold get_terminal_id_by_name; by rewrite Et|]. by rewrite (S1 _ (T t)) by by constructor.
  - intros n sx Ho. destruct (Hat _ _ Ho) as [it Hit]. inversion Hit as [|? i Hn|]; subst. exists i.
    split; [unfold get_nonterminal_id_by_name; by rewrite En|]. by rewrite (S1 _ (NT i)) by by constructor.
  - intros e He. destruct (HG e He) as (n & Hm & Hn). exists n. split_and!.
    + by apply S1.
    + unfold is_nonterminal_id. apply bool_decide_eq_true, Hnts. by right.
    + unfold get_nonterminal_name_by_id. rewrite Ei. destruct (nt_id_to_name v0 !! n) as [name|] eqn:E; [|done].
      apply (vi_n _ Hv0) in E. apply HR in E. lia.
  - intros n Hn. unfold is_nonterminal_id in Hn. apply bool_decide_eq_true, Hnts in Hn as [Hn|Hn].
    + left. destruct (Hnt0 _ Hn) as (_ & name & E). apply (vi_n _ Hv0) in E. exists name. split; [apply Hnames; eauto|].
      unfold get_nonterminal_id_by_name. by rewrite En.
    + right. destruct (Hnew n Hn) as [(a & k & b & Ho & Hm)|(alts & sx & Ho & Hm)].
      * exists (Element a (Some (k, b))). split; [left; eauto 6|]. by apply S1.
      * exists (Element (Group alts) None). split; [right; eauto|]. apply S1. by constructor.
  - intros e e' He He'. destruct (HG e He) as (n & Hm & _). destruct (HG e' He') as (n' & Hm' & _).
    rewrite (S1 _ _ Hm), (S1 _ _ Hm'). split.
    + intros E. rewrite <- E in Hm'. by apply (J1 _ _ Hm).
    + intros E. destruct (mk_lk v0 R s P) as (K & _). exact (proj1 (lk_functional v0 s) e _ (K _ _ Hm) e' _ E (K _ _ Hm')).
  - intros p. split.
    + intros Hin. destruct p as [n rr]. destruct (decide (n < R)) as [Hlt|Hge].
      * destruct (Hsound n rr Hlt Hin) as (name & alts & alt & HGr & Ha & Hn & Hm). rewrite <- (S4 _ _ Hm), <- items_st.
        eapply rewritten_rule; [done|done|]. unfold get_nonterminal_id_by_name. by rewrite En.
      * destruct (Hgen _ Hin ltac:(simpl; lia)) as [(a & k & b & Ho & Hm)|(alts & sx & Ho & Hm)]; cbn [left] in Hm.
        -- pose proof (S1 _ _ Hm) as Ef. inversion Hm as [|? it0 ? ? n' Ha Hc Hn Hr]; subst. apply Hr in Hin.
           assert (st_elem v0 s (Element a None) = it0) as Ea by (apply S1; by constructor).
           destruct k; cbn [suffix_rights] in Hin; [eapply rewritten_star|eapply rewritten_plus|eapply rewritten_question]; rewrite ?Ea; eauto.
        -- pose proof (S1 (Element (Group alts) None) _ ltac:(by constructor)) as Ef. inversion Hm as [| |? n' rs Has Hc Hn Hr]; subst.
           apply Hr in Hin. assert (exists alt, alt ∈ alts /\ mk_alt v0 R s P alt rr) as (alt & Ha & Hal).
           { clear -Has Hin. induction Has as [|a0 r0 alts rs Ha _ IH]; [by apply elem_of_nil in Hin|].
             apply elem_of_cons in Hin as [->|Hin]; [exists a0; split; [apply elem_of_list_here|done]|].
             destruct (IH Hin) as (alt & ? & ?). exists alt. split; [by apply elem_of_list_further|done]. }
           rewrite <- (S4 _ _ Hal), <- items_st. by eapply rewritten_group.
    + assert (Hsuf : forall a k b n rr, occurs (Element a (Some (k, b))) G -> st_elem v0 s (Element a (Some (k, b))) = NT n ->
        rr ∈ suffix_rights k n (st_elem v0 s (Element a None)) -> Production n rr ∈ P).
      { intros a k b n rr Ho Ef Hin. destruct (Hocc _ Ho) as [it Hit]. pose proof (S1 _ _ Hit) as E. rewrite Ef in E. subst it.
        inversion Hit as [|? it0 ? ? n' Ha Hc Hn Hr]; subst. apply Hr.
        by rewrite (S1 (Element a None) it0) in Hin by by constructor. }
      intros [name alts alt n HGr Ha Hn|alts sx alt n Ho Ha Ef|a b n rr Ho Ef Hin|a b n rr Ho Ef Hin|a b n rr Ho Ef Hin];
        [| |by eapply Hsuf..].
      * destruct (Hcomp _ _ _ HGr Ha) as (id & rr & Hid & Hin & Hm). unfold get_nonterminal_id_by_name in Hn. rewrite En, Hid in Hn.
        injection Hn as <-. by rewrite items_st, (S4 _ _ Hm).
      * destruct (Hat _ _ Ho) as [it Hit]. pose proof (S1 (Element (Group alts) None) _ ltac:(by constructor)) as E. rewrite Ef in E. subst it.
        inversion Hit as [| |? n' rs Has Hc Hn Hr]; subst. destruct (mk_alts_alt v0 R s P _ _ _ Has Ha) as (rr & Hin & Hm).
        rewrite items_st, (S4 _ _ Hm). by apply Hr.
Qed.

(** With g41 (a: X* c*; b: X; c: Y;) only one nonterminal is made for X* and c*. *)
Lemma c83_refuted : exists G r g data, grammar_tree G r /\ proper G /\ references_defined G /\ load_tree r = Ret (g, data) /\
  ~ exists f, stands_for G (g_vocabulary g) f /\ one_each G f.
Proof.
  exists g41, (build_grammar g41), (grammar_of (build_grammar g41)), (rules_of (build_grammar g41)).
  assert (load_tree (build_grammar g41) = Ret (grammar_of (build_grammar g41), rules_of (build_grammar g41))) as L by (apply loaded_ret; by vm_compute).
  assert (grammar_tree g41 (build_grammar g41)) as Ht by (by apply build_grammar_tree).
  assert (proper g41) as Hp by (apply proper_computed; by vm_compute).
  split; [exact Ht|]. split; [exact Hp|]. split; [exact (proj1 (c42 _ _ Ht Hp) (ex_intro _ _ L))|]. split; [exact L|]. clear L Ht Hp. intros (f & Hf & Ho).
  assert (Hone : forall n, is_nonterminal_id (g_vocabulary (grammar_of (build_grammar g41))) n = true ->
    get_nonterminal_name_by_id (g_vocabulary (grammar_of (build_grammar g41))) n = None -> n = 3).
  { intros n H1 H2. unfold is_nonterminal_id in H1. apply bool_decide_eq_true in H1.
    assert (nonterminals (g_vocabulary (grammar_of (build_grammar g41))) = {[0; 1; 2; 3]}) as E by (apply (bool_decide_unpack _); by vm_compute).
    rewrite E, !elem_of_union, !elem_of_singleton in H1. clear E Hf.
    destruct H1 as [[[->| ->]| ->]| ->]; [| | |done]; exfalso; revert H2; vm_compute; discriminate. }
  assert (occurs (Element (TokenRef (lit "X")) (Some (Star, false))) g41) as O1.
  { eexists _, _, _. split; [apply elem_of_list_here|]. split; [apply elem_of_list_here|]. econstructor; [apply elem_of_list_here|constructor]. }
  assert (occurs (Element (RuleRef (lit "c")) (Some (Star, false))) g41) as O2.
  { eexists _, _, _. split; [apply elem_of_list_here|]. split; [apply elem_of_list_here|]. econstructor; [apply elem_of_list_further, elem_of_list_here|constructor]. }
  assert (generated g41 (Element (TokenRef (lit "X")) (Some (Star, false)))) as G1 by (left; eauto 6).
  assert (generated g41 (Element (RuleRef (lit "c")) (Some (Star, false)))) as G2 by (left; eauto 6).
  destruct (sf_new _ _ _ Hf _ G1) as (n1 & E1 & H1 & N1), (sf_new _ _ _ Hf _ G2) as (n2 & E2 & H2 & N2).
  pose proof (Hone _ H1 N1) as ->. pose proof (Hone _ H2 N2) as ->. assert (Element (TokenRef (lit "X")) (Some (Star, false)) = Element (RuleRef (lit "c")) (Some (Star, false))) as Hbad.
  { apply (Ho _ _ G1 G2). by rewrite E1, E2. }
  discriminate Hbad.
Qed.
