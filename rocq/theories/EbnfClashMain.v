(** EbnfClashMain.v -- C41: the language of a loaded grammar, with or without clashes. *)
From Verif Require Export EbnfClash EbnfRefuted.

Scheme reads_element_mut := Minimality for reads_element Sort Prop
with reads_atom_mut := Minimality for reads_atom Sort Prop
with reads_alternative_mut := Minimality for reads_alternative Sort Prop
with reads_elements_mut := Minimality for reads_elements Sort Prop.
Combined Scheme reads_mut from reads_element_mut, reads_atom_mut, reads_alternative_mut, reads_elements_mut.

(** The item of a construct, computed from the caches. *)
Section number.
  Context (v0 : vocabulary) (s : production_state).
  Fixpoint elem_item (e : element) : option item :=
    match e with
    | Element a None => atom_item a
    | Element a (Some (k, _)) =>
        match atom_item a with
        | Some it => match cached s (KSuffix k (item_id it)) with Some n => Some (NT n) | None => None end
        | None => None
        end
    end
  with atom_item (a : atom) : option item :=
    match a with
    | TokenRef n => match t_name_to_id v0 !! n with Some t => Some (T t) | None => None end
    | StringLiteral _ => None
    | RuleRef n => match nt_name_to_id v0 !! n with Some i => Some (NT i) | None => None end
    | Group alts =>
        match mapM alt_item alts with
        | Some rs => match cached s (KBlock rs) with Some n => Some (NT n) | None => None end
        | None => None
        end
    end
  with alt_item (a : alternative) : option (list item) :=
    match a with Epsilon => Some [] | Sequence es => mapM elem_item es end.
  Definition number_of (a : atom) : nat := match atom_item a with Some it => item_id it | None => 0 end.

  Lemma lk_item :
    (forall e it, lk_elem v0 s e it -> elem_item e = Some it) /\
    (forall a it, lk_atom v0 s a it -> atom_item a = Some it) /\
    (forall a it, lk_alts v0 s a it -> mapM alt_item a = Some it) /\
    (forall a it, lk_alt v0 s a it -> alt_item a = Some it) /\
    (forall e it, lk_elems v0 s e it -> mapM elem_item e = Some it).
  Proof using.
    pose proof (lk_mut v0 s (fun e it => elem_item e = Some it) (fun a it => atom_item a = Some it) (fun a it => mapM alt_item a = Some it)
      (fun a it => alt_item a = Some it) (fun e it => mapM elem_item e = Some it)) as K.
    apply K; clear K.
    - intros a it _ IH. exact IH.
    - intros a it k b n _ IH Hc. cbn [elem_item]. by rewrite IH, Hc.
    - intros n t H. cbn [atom_item]. by rewrite H.
    - intros n t H. cbn [atom_item]. by rewrite H.
    - intros alts n rs _ IH Hc. cbn [atom_item]. by rewrite IH, Hc.
    - done.
    - intros a r alts rs _ IH1 _ IH2. cbn [mapM]. rewrite IH1. cbn. rewrite IH2. done.
    - done.
    - intros es its _ IH. exact IH.
    - done.
    - intros e it es its _ IH1 _ IH2. cbn [mapM]. rewrite IH1. cbn. rewrite IH2. done.
  Qed.
  Lemma number_lk a it : lk_atom v0 s a it -> number_of a = item_id it.
  Proof using. intros H. unfold number_of. by rewrite (proj1 (proj2 lk_item) _ _ H). Qed.
End number.

Lemma find_first {A} (f : A -> bool) l1 x l2 : f x = true -> (forall y, y ∈ l1 -> f y = false) -> List.find f (l1 ++ x :: l2) = Some x.
Proof.
  intros Hx. induction l1 as [|y l1 IH]; intros Hl; simpl; [by rewrite Hx|].
  rewrite (Hl y) by apply elem_of_list_here. apply IH. intros z Hz. apply Hl. by apply elem_of_list_further.
Qed.
Lemma same_suffix_eq k k' : same_suffix k k' = true <-> k = k'.
Proof. by destruct k, k'. Qed.

Section language.
  Context (v0 : vocabulary) (R : nat) (G : list rule) (s : production_state).
  Context (HR : forall name id, nt_name_to_id v0 !! name = Some id -> id < R) (Hv0 : vinv v0).
  Context (Hw : EbnfLookup.wf v0 R G s) (Hm : met v0 (operands G) s).
  Notation P := (ps_productions s).
  Notation number := (number_of v0 s).
  Notation as_read := (first_operand (number_of v0 s) G).
  Notation lk_elem := (lk_elem v0 s).
  Notation lk_atom := (lk_atom v0 s).
  Notation lk_alts := (lk_alts v0 s).
  Notation lk_alt := (lk_alt v0 s).
  Notation lk_elems := (lk_elems v0 s).
  Context (Hsound : forall id r, id < R -> Production id r ∈ P -> exists name alts alt, ParserRule name alts ∈ G /\ alt ∈ alts /\
       nt_name_to_id v0 !! name = Some id /\ lk_alt alt r).
  Context (Hcomp : forall name alts alt, ParserRule name alts ∈ G -> alt ∈ alts -> exists id r, nt_name_to_id v0 !! name = Some id /\
       Production id r ∈ P /\ lk_alt alt r).

  Lemma suffix_read a it k n : lk_atom a it -> cached s (KSuffix k (item_id it)) = Some n ->
    R <= n /\ exists it0, lk_atom (as_read k a) it0 /\ rights P n (suffix_rights k n it0).
  Proof using Hw Hm.
    intros Ha Hc. split; [by apply (wf_range _ _ _ _ Hw _ _ Hc)|].
    destruct (met_first _ _ _ Hm k _ n Hc) as (L1 & a0 & it0 & L2 & EL & Ha0 & E & Hr & Hb).
    assert (as_read k a = a0) as ->; [|eauto].
    unfold first_operand. rewrite EL, (find_first _ L1 (k, a0) L2); [done| |].
    - cbn [fst snd]. rewrite (number_lk v0 s _ _ Ha), (number_lk v0 s _ _ Ha0), E, Nat.eqb_refl. by destruct k.
    - intros [k' a'] Hin. cbn [fst snd]. destruct (same_suffix k k') eqn:Ek; [|done]. apply same_suffix_eq in Ek as <-.
      destruct (Hb a' Hin) as (it' & Ha' & Hne). rewrite (number_lk v0 s _ _ Ha), (number_lk v0 s _ _ Ha'). simpl. by apply Nat.eqb_neq.
  Qed.

  Lemma lk_alts_alt alts rs alt : lk_alts alts rs -> alt ∈ alts -> exists r, r ∈ rs /\ lk_alt alt r.
  Proof using.
    induction 1 as [|a r alts rs Ha _ IH]; [by intros ?%elem_of_nil|]. intros [->|H]%elem_of_cons.
    - exists r. split; [apply elem_of_list_here|done].
    - destruct (IH H) as (r' & ? & ?). exists r'. split; [by apply elem_of_list_further|done].
  Qed.
  Lemma lk_alts_right alts rs r : lk_alts alts rs -> r ∈ rs -> exists alt, alt ∈ alts /\ lk_alt alt r.
  Proof using.
    induction 1 as [|a r' alts rs Ha _ IH]; [by intros ?%elem_of_nil|]. intros [->|H]%elem_of_cons.
    - exists a. split; [apply elem_of_list_here|done].
    - destruct (IH H) as (a' & ? & ?). exists a'. split; [by apply elem_of_list_further|done].
  Qed.

  Notation named := (named_as v0).
  Notation by_prod := (derives_by P).
  Lemma reads_derives :
    (forall e w, reads_element G as_read e w -> forall it, lk_elem e it -> exists ids, named w ids /\ derives P [it] (map T ids)) /\
    (forall a w, reads_atom G as_read a w -> forall it, lk_atom a it -> exists ids, named w ids /\ derives P [it] (map T ids)) /\
    (forall a w, reads_alternative G as_read a w -> forall its, lk_alt a its -> exists ids, named w ids /\ derives P its (map T ids)) /\
    (forall es w, reads_elements G as_read es w -> forall its, lk_elems es its -> exists ids, named w ids /\ derives P its (map T ids)).
  Proof using HR Hv0 Hsound Hcomp Hw Hm.
    pose proof (reads_mut G as_read
      (fun e w => forall it, lk_elem e it -> exists ids, named w ids /\ derives P [it] (map T ids))
      (fun a w => forall it, lk_atom a it -> exists ids, named w ids /\ derives P [it] (map T ids))
      (fun a w => forall its, lk_alt a its -> exists ids, named w ids /\ derives P its (map T ids))
      (fun es w => forall its, lk_elems es its -> exists ids, named w ids /\ derives P its (map T ids))) as K.
    apply K; clear K.
    - intros a w _ IH it Ht. inversion Ht; subst. by apply IH.
    - intros a b it Ht. inversion Ht as [|? it0 ? ? n Ha Hc]; subst. destruct (suffix_read a it0 Star n Ha Hc) as (Hn & it1 & Ha1 & Hr).
      exists []. split; [constructor|]. apply (by_prod n []); [apply Hr; set_solver|apply derives_refl].
    - intros a b w1 w2 _ IH1 _ IH2 it Ht. inversion Ht as [|? it0 ? ? n Ha Hc]; subst. destruct (suffix_read a it0 Star n Ha Hc) as (Hn & it1 & Ha1 & Hr).
      destruct (IH1 _ Ha1) as (ids1 & ? & ?). destruct (IH2 _ Ht) as (ids2 & ? & ?). exists (ids1 ++ ids2). split; [by apply Forall2_app|].
      apply (by_prod n [it1; NT n]); [apply Hr; set_solver|]. rewrite map_app. by apply (derives_app P [it1] _ [NT n]).
    - intros a b w _ IH it Ht. inversion Ht as [|? it0 ? ? n Ha Hc]; subst. destruct (suffix_read a it0 Plus n Ha Hc) as (Hn & it1 & Ha1 & Hr).
      destruct (IH _ Ha1) as (ids & ? & ?). exists ids. split; [done|]. apply (by_prod n [it1]); [apply Hr; set_solver|done].
    - intros a b w1 w2 _ IH1 _ IH2 it Ht. inversion Ht as [|? it0 ? ? n Ha Hc]; subst. destruct (suffix_read a it0 Plus n Ha Hc) as (Hn & it1 & Ha1 & Hr).
      destruct (IH1 _ Ha1) as (ids1 & ? & ?). destruct (IH2 _ Ht) as (ids2 & ? & ?). exists (ids1 ++ ids2). split; [by apply Forall2_app|].
      apply (by_prod n [it1; NT n]); [apply Hr; set_solver|]. rewrite map_app. by apply (derives_app P [it1] _ [NT n]).
    - intros a b it Ht. inversion Ht as [|? it0 ? ? n Ha Hc]; subst. destruct (suffix_read a it0 Question n Ha Hc) as (Hn & it1 & Ha1 & Hr).
      exists []. split; [constructor|]. apply (by_prod n []); [apply Hr; set_solver|apply derives_refl].
    - intros a b w _ IH it Ht. inversion Ht as [|? it0 ? ? n Ha Hc]; subst. destruct (suffix_read a it0 Question n Ha Hc) as (Hn & it1 & Ha1 & Hr).
      destruct (IH _ Ha1) as (ids & ? & ?). exists ids. split; [done|]. apply (by_prod n [it1]); [apply Hr; set_solver|done].
    - intros name it Ht. inversion Ht as [? t Hl| |]; subst. exists [t]. split; [by repeat constructor|apply derives_refl].
    - intros l it Ht. inversion Ht.
    - intros name alts alt w HG Halt _ IH it Ht. inversion Ht as [|? i Hl|]; subst.
      destruct (Hcomp _ _ _ HG Halt) as (id & r & Hid & Hp & Hr). rewrite Hl in Hid. injection Hid as <-.
      destruct (IH _ Hr) as (ids & ? & ?). exists ids. split; [done|]. by apply (by_prod i r).
    - intros alts alt w Halt _ IH it Ht. inversion Ht as [| |? n rs Ha Hc]; subst.
      destruct (lk_alts_alt _ _ _ Ha Halt) as (r & Hin & Hr'). destruct (IH _ Hr') as (ids & ? & ?). exists ids. split; [done|].
      apply (by_prod n r); [by apply (met_block _ _ _ Hm rs n Hc)|done].
    - intros its Ht. inversion Ht; subst. exists []. split; [constructor|apply derives_refl].
    - intros es w _ IH its Ht. inversion Ht; subst. by apply IH.
    - intros its Ht. inversion Ht; subst. exists []. split; [constructor|apply derives_refl].
    - intros e es w1 w2 _ IH1 _ IH2 its Ht. inversion Ht as [|? it ? its' H1 H2]; subst.
      destruct (IH1 _ H1) as (ids1 & ? & ?). destruct (IH2 _ H2) as (ids2 & ? & ?). exists (ids1 ++ ids2). split; [by apply Forall2_app|].
      rewrite map_app. by apply (derives_app P [it] _ its').
  Qed.

  Lemma reads_two e1 e2 ws : reads_elements G as_read [e1; e2] ws -> exists w1 w2, ws = w1 ++ w2 /\ reads_element G as_read e1 w1 /\ reads_element G as_read e2 w2.
  Proof using.
    intros H. inversion H as [|? ? w1 w' H1 H2]; subst. inversion H2 as [|? ? w2 w3 H3 H4]; subst. inversion H4; subst.
    rewrite app_nil_r. eauto.
  Qed.
  Lemma reads_one e ws : reads_elements G as_read [e] ws -> reads_element G as_read e ws.
  Proof using. intros H. inversion H as [|? ? w1 w' H1 H2]; subst. inversion H2; subst. by rewrite app_nil_r. Qed.
  Lemma reads_plain_inv a w : reads_element G as_read (Element a None) w -> reads_atom G as_read a w.
  Proof using. by inversion 1. Qed.

  Lemma parses_reads v α toks cs : parses P v α toks cs -> forall es, lk_elems es α ->
    exists ws, named ws (map token_type toks) /\ reads_elements G as_read es ws.
  Proof using HR Hv0 Hsound Hw Hm.
    induction 1 as [|t β tok w cs Hty Hp IH|p β w1 w2 cs1 cs2 Hp H1 IH1 H2 IH2]; intros es Ht.
    - inversion Ht; subst. exists []. split; constructor.
    - inversion Ht as [|e ? es' ? He Hes]; subst. destruct (IH _ Hes) as (ws & Hws & Hrd).
      inversion He as [a ? Ha|]; subst. inversion Ha as [name ? Hl| |]; subst.
      exists (name :: ws). split; [by constructor|]. apply (reads_cons G _ _ _ [name] ws); [by repeat constructor|done].
    - inversion Ht as [|e ? es' ? He Hes]; subst. destruct (IH2 _ Hes) as (ws2 & Hws2 & Hm2).
      assert (Halt : forall alt, lk_alt alt (right p) -> exists ws, named ws (map token_type w1) /\ reads_alternative G as_read alt ws).
      { intros alt Ha. inversion Ha as [E0 E|es0 its0 Hes0 E0 E]; subst alt.
        - destruct (IH1 []) as (ws & Hws & Hrd); [rewrite <- E; constructor|]. exists ws. split; [done|]. inversion Hrd; subst. constructor.
        - subst its0. destruct (IH1 es0 Hes0) as (ws & Hws & Hrd). exists ws. split; [done|by constructor]. }
      assert (exists ws1, named ws1 (map token_type w1) /\ reads_element G as_read e ws1) as (ws1 & Hws1 & Hm1).
      { inversion He as [a ? Ha|a it k b n Ha Hc]; subst.
        - inversion Ha as [|name ? Hl|alts ? rs Has Hc]; subst.
          + destruct (Hsound (left p) (right p)) as (name' & alts & alt & HG & Hin & Hl' & Hta); [by eapply HR|by destruct p|].
            assert (name' = name) as ->.
            { apply (vi_n _ Hv0) in Hl, Hl'. congruence. }
            destruct (Halt alt Hta) as (ws & Hws & Hrd). exists ws. split; [done|]. constructor. by econstructor.
          + destruct (lk_alts_right _ _ (right p) Has) as (alt & Hin & Hta); [apply (met_block _ _ _ Hm rs (left p) Hc); by destruct p|].
            destruct (Halt alt Hta) as (ws & Hws & Hrd). exists ws. split; [done|]. constructor. by econstructor.
        - destruct (suffix_read a it k (left p) Ha Hc) as (Hn & it1 & Ha1 & Hr).
          assert (right p ∈ suffix_rights k (left p) it1) as Hin by (apply Hr; by destruct p).
          assert (Hrec : right p = [it1; NT (left p)] -> exists wsa wsb, named (wsa ++ wsb) (map token_type w1) /\
            reads_atom G as_read (as_read k a) wsa /\ reads_element G as_read (Element a (Some (k, b))) wsb).
          { intros E. destruct (IH1 [Element (as_read k a) None; Element a (Some (k, b))]) as (ws & Hws & Hrd).
            - rewrite E. constructor; [by constructor|]. constructor; [done|constructor].
            - apply reads_two in Hrd as (wsa & wsb & -> & Ha' & Hb'). exists wsa, wsb. split_and!; [done|by apply reads_plain_inv|done]. }
          assert (Hone : right p = [it1] -> exists ws, named ws (map token_type w1) /\ reads_atom G as_read (as_read k a) ws).
          { intros E. destruct (IH1 [Element (as_read k a) None]) as (ws & Hws & Hrd).
            - rewrite E. constructor; [by constructor|constructor].
            - exists ws. split; [done|]. by apply reads_plain_inv, reads_one. }
          assert (Hnil : right p = [] -> named [] (map token_type w1)).
          { intros E. destruct (IH1 []) as (ws & Hws & Hrd); [rewrite E; constructor|]. by inversion Hrd; subst. }
          destruct k; simpl in Hin; rewrite !elem_of_cons in Hin; destruct Hin as [E|[E|?%elem_of_nil]]; try done.
          + destruct (Hrec E) as (wsa & wsb & ? & ? & ?). exists (wsa ++ wsb). split; [done|]. by apply reads_star_cons.
          + exists []. split; [by apply Hnil|constructor].
          + destruct (Hrec E) as (wsa & wsb & ? & ? & ?). exists (wsa ++ wsb). split; [done|]. by apply reads_plus_more.
          + destruct (Hone E) as (ws & ? & ?). exists ws. split; [done|by apply reads_plus_one].
          + destruct (Hone E) as (ws & ? & ?). exists ws. split; [done|by apply reads_question_yes].
          + exists []. split; [by apply Hnil|constructor]. }
      exists (ws1 ++ ws2). split; [rewrite map_app; by apply Forall2_app|by constructor].
  Qed.

  Lemma language_read a it w : lk_atom a it -> derives P [it] (map T w) <-> exists names, named names w /\ reads_atom G as_read a names.
  Proof using HR Hv0 Hsound Hcomp Hw Hm.
    intros Hlk. split.
    - intros Hd. assert (map T w = types (map (fun i => token_new i [] []) w)) as E.
      { unfold types. rewrite map_map. done. }
      rewrite E in Hd. apply (derives_parses P v0) in Hd as [cs Hcs].
      destruct (parses_reads v0 _ _ _ Hcs [Element a None]) as (ws & Hws & Hrd); [constructor; [by constructor|constructor]|].
      exists ws. split; [|by apply reads_plain_inv, reads_one]. rewrite map_map in Hws. simpl in Hws. by rewrite map_id in Hws.
    - intros (names & Hn & Hrd). destruct (proj1 (proj2 reads_derives) _ _ Hrd it Hlk) as (ids & Hids & Hd).
      assert (ids = w) as <-; [|done]. clear Hd Hrd. revert ids Hids. induction Hn as [|n i names w Hi _ IH]; intros ids Hids.
      + by inversion Hids.
      + inversion Hids as [|? i' ? ids' Hi' Hids']; subst. rewrite Hi in Hi'. injection Hi' as <-. f_equal. by apply IH.
  Qed.

  Lemma lk_within x :
    (forall e, within_element x e -> forall it, lk_elem e it -> exists it', lk_elem x it') /\
    (forall a, within_alternative x a -> forall its, lk_alt a its -> exists it', lk_elem x it').
  Proof using.
    apply within_mut.
    - eauto.
    - intros alts alt e sx Halt _ IH -> it Ht.
      assert (exists it0, lk_atom (Group alts) it0) as [it0 Ha] by (inversion Ht; subst; eauto).
      inversion Ha as [| |? n rs Has Hc]; subst. destruct (lk_alts_alt _ _ _ Has Halt) as (r & _ & Hr'). by eapply IH.
    - intros es e He _ IH its Ht. inversion Ht as [|? its0 Hes]; subst. clear Ht. induction Hes as [|e' it' es its Hit Hes IH'].
      + by apply elem_of_nil in He.
      + apply elem_of_cons in He as [->|He]; [by eapply IH|by apply IH'].
  Qed.
  Lemma lk_occurs a sx : occurs (Element a sx) G -> exists it, lk_atom a it.
  Proof using Hcomp.
    intros (name & alts & alt & HG & Ha & Hin). destruct (Hcomp _ _ _ HG Ha) as (id & r & _ & _ & Hr).
    destruct (proj2 (lk_within _) _ Hin _ Hr) as [it Hit]. inversion Hit; subst; eauto.
  Qed.
End language.

Lemma operands_flat G : concat (map (fun na : str * alternative => alternative_operands na.2) (concat (map (fun na => map (pair na.1) na.2) (parser_rules G)))) = operands G.
Proof.
  unfold operands, parser_rules. induction G as [|[n alts|n r] G IH]; [done| |exact IH].
  cbn [omap list_omap map concat fst snd]. rewrite map_app, concat_app, map_map. cbn [snd]. f_equal. exact IH.
Qed.

(** What load_ast makes of any grammar. *)
Definition met_facts (G : list rule) (v0 : vocabulary) (R : nat) (s : production_state) : Prop :=
    prod_inv R v0 s /\ vinv v0 /\
    (forall i, i ∈ nonterminals v0 -> i < R /\ is_Some (nt_id_to_name v0 !! i)) /\
    (forall name, is_Some (nt_name_to_id v0 !! name) <-> name ∈ parser_rule_names G) /\
    EbnfLookup.wf v0 R G s /\ met v0 (operands G) s /\
    (forall id r, id < R -> Production id r ∈ ps_productions s -> exists name alts alt, ParserRule name alts ∈ G /\ alt ∈ alts /\
       nt_name_to_id v0 !! name = Some id /\ lk_alt v0 s alt r) /\
    (forall name alts alt, ParserRule name alts ∈ G -> alt ∈ alts -> exists id r, nt_name_to_id v0 !! name = Some id /\
       Production id r ∈ ps_productions s /\ lk_alt v0 s alt r).
Lemma met_state G r s2 s3 : grammar_tree G r -> proper G -> sym_names (terminal_names G) (parser_rule_names G) s2 ->
  production_visit_rule_list (height r) r (production_visitor_new (sy_vocabulary s2) ∅ (sy_next_rule_id s2)) = Ret s3 ->
  met_facts G (sy_vocabulary s2) (sy_next_rule_id s2) s3.
Proof.
  intros Ht Hp (Hs & HT & HNT & _) E3.
  pose proof (production_start s2 Hs) as Hi0.
  assert (Hv0 : vinv (sy_vocabulary s2)) by (destruct (si_ops _ Hs) as [ops ->]; apply vinv_reach).
  assert (HRlt : forall i, i ∈ nonterminals (sy_vocabulary s2) -> i < sy_next_rule_id s2) by (intros i Hi; by apply (si_nts _ Hs) in Hi as [? _]).
  pose proof (rule_list_inv _ _ HRlt Hv0 _ _ _ _ Hi0 E3) as Hi3.
  unfold met_facts. set (v0 := sy_vocabulary s2) in *. set (R := sy_next_rule_id s2) in *.
  assert (Hlit : forall l s, occurs (Element (StringLiteral l) s) G -> t_name_to_id v0 !! l = None).
  { intros l s Ho. apply eq_None_not_Some. rewrite HT. destruct Hp as (_ & Hp & _). by apply (Hp l s). }
  pose proof Ht as (m & cs & Er & HF). unfold production_visit_rule_list in E3.
  pose proof (grammar_parser_rules G m cs HF) as HF'. rewrite <- Er in HF'.
  edestruct (rules_met v0 R G HRlt Hv0 Hlit (height r) _ _ HF' []) as (_ & Hw & Hm & Hsound & Hcomp); [| |exact E3|].
  { split; [exact Hi0|]. split; [|split; [|split]].
    - split.
      + intros [[]|] n; cbn; by rewrite lookup_empty.
      + intros [[]|] k' n; cbn; by rewrite lookup_empty.
      + intros n Hn. simpl in Hn. lia.
      + intros [] i n; cbn; by rewrite lookup_empty.
      + intros rs n; cbn; by rewrite lookup_empty.
    - split.
      + intros p Hpr. simpl in Hpr. by apply elem_of_empty in Hpr.
      + intros rs n; cbn; by rewrite lookup_empty.
      + intros [] i n; cbn; by rewrite lookup_empty.
      + intros k a Hka. simpl in Hka. by apply elem_of_nil in Hka.
    - intros i r' _ Hr'. simpl in Hr'. by apply elem_of_empty in Hr'.
    - intros n a Hn. by apply elem_of_nil in Hn. }
  { intros n alts alt x Hn Ha Hx. exists n, alts, alt. split; [by apply elem_of_parser_rules|done]. }
  rewrite app_nil_l, operands_flat in Hm.
  assert (Hsound' : forall id r, id < R -> Production id r ∈ ps_productions s3 -> exists name alts alt, ParserRule name alts ∈ G /\ alt ∈ alts /\
       nt_name_to_id v0 !! name = Some id /\ lk_alt v0 s3 alt r).
  { intros i r' Hir Hr'. destruct (Hsound i r' Hir Hr') as (n & a & HL & Hn & Ha). apply elem_of_flat in HL as (alts & HG & Hal). eauto 10. }
  assert (Hcomp' : forall name alts alt, ParserRule name alts ∈ G -> alt ∈ alts -> exists id r, nt_name_to_id v0 !! name = Some id /\
       Production id r ∈ ps_productions s3 /\ lk_alt v0 s3 alt r).
  { intros n alts a HG Hal. apply Hcomp, elem_of_flat. eauto. }
  split_and!; try done. intros i Hi. by apply (si_nts _ Hs) in Hi.
Qed.
Lemma met_all G r g data : grammar_tree G r -> proper G -> load_tree r = Ret (g, data) ->
  exists v0 R s, g_vocabulary g = ps_vocabulary s /\ productions g = ps_productions s /\ prod_inv R v0 s /\ vinv v0 /\
    (forall i, i ∈ nonterminals v0 -> i < R /\ is_Some (nt_id_to_name v0 !! i)) /\
    (forall name, is_Some (nt_name_to_id v0 !! name) <-> name ∈ parser_rule_names G) /\
    EbnfLookup.wf v0 R G s /\ met v0 (operands G) s /\
    (forall id r, id < R -> Production id r ∈ ps_productions s -> exists name alts alt, ParserRule name alts ∈ G /\ alt ∈ alts /\
       nt_name_to_id v0 !! name = Some id /\ lk_alt v0 s alt r) /\
    (forall name alts alt, ParserRule name alts ∈ G -> alt ∈ alts -> exists id r, nt_name_to_id v0 !! name = Some id /\
       Production id r ∈ ps_productions s /\ lk_alt v0 s alt r).
Proof.
  intros Ht Hp Hload. destruct (load_tree_grammar G r Ht Hp) as [(s2 & Hs & HRn & Hrun) _].
  destruct (Hrun g data Hload) as (s3 & E3 & ->). cbn [g_vocabulary productions]. exists (sy_vocabulary s2), (sy_next_rule_id s2), s3.
  split; [done|]. split; [done|]. exact (met_state G r s2 s3 Ht Hp Hs E3).
Qed.

Lemma c41_exact G r g data :
  grammar_tree G r -> proper G -> load_tree r = Ret (g, data) ->
  exists number : atom -> nat,
    (forall n t, get_terminal_id_by_name (g_vocabulary g) n = Some t -> number (TokenRef n) = t) /\
    (forall n i, get_nonterminal_id_by_name (g_vocabulary g) n = Some i -> number (RuleRef n) = i) /\
    (forall alts sx, occurs (Element (Group alts) sx) G ->
       is_nonterminal_id (g_vocabulary g) (number (Group alts)) = true /\
       get_nonterminal_name_by_id (g_vocabulary g) (number (Group alts)) = None) /\
    forall a w, (exists sx, occurs (Element a sx) G) \/ (exists n, a = RuleRef n /\ is_Some (get_nonterminal_id_by_name (g_vocabulary g) n)) ->
      derives (productions g) [match a with TokenRef _ => T (number a) | _ => NT (number a) end] (map T w) <->
      exists names, Forall2 (fun n i => get_terminal_id_by_name (g_vocabulary g) n = Some i) names w /\
        reads_atom G (first_operand number G) a names.
Proof.
  intros Ht Hp Hload. destruct (met_all G r g data Ht Hp Hload) as (v0 & R & s3 & -> & -> & Hi3 & Hv0 & HRlt' & _ & Hw & Hm & Hsound' & Hcomp').
  assert (HRlt : forall i, i ∈ nonterminals v0 -> i < R) by (intros i Hi; by apply HRlt').
  assert (HR' : forall name id, nt_name_to_id v0 !! name = Some id -> id < R).
  { intros n i Hn. by apply (named_below v0 R HRlt Hv0 n). }
  unfold get_nonterminal_id_by_name, get_terminal_id_by_name, get_nonterminal_name_by_id. rewrite (pi_t1 _ _ _ Hi3), (pi_n1 _ _ _ Hi3), (pi_n2 _ _ _ Hi3).
  exists (number_of v0 s3). split_and!.
  - intros n t Hn. unfold number_of. cbn [atom_item]. by rewrite Hn.
  - intros n i Hn. unfold number_of. cbn [atom_item]. by rewrite Hn.
  - intros alts sx Ho. destruct (lk_occurs v0 G s3 Hcomp' _ _ Ho) as [it Hit]. rewrite (number_lk v0 s3 _ _ Hit).
    inversion Hit as [| |? n rs Has Hc]; subst. cbn [item_id]. pose proof (wf_range _ _ _ _ Hw _ _ Hc) as Hn. split.
    + unfold is_nonterminal_id. apply bool_decide_eq_true. apply (pi_n3 _ _ _ Hi3). by right.
    + apply eq_None_not_Some. intros [nm Hnm]. assert (n ∈ nonterminals v0) as K by (apply (vi_nd _ Hv0); eauto). apply HRlt in K. lia.
  - intros a w Ha. assert (exists it, lk_atom v0 s3 a it) as [it Hit].
    { destruct Ha as [[sx Ho]|(n & -> & i & Hi)]; [by eapply lk_occurs|]. eexists. by constructor. }
    assert ((match a with TokenRef _ => T (number_of v0 s3 a) | _ => NT (number_of v0 s3 a) end) = it) as ->.
    { rewrite (number_lk v0 s3 _ _ Hit). by inversion Hit; subst. }
    exact (language_read v0 R G s3 HR' Hv0 Hw Hm Hsound' Hcomp' a it w Hit).
Qed.

Lemma c41_apart G r g data name id w :
  grammar_tree G r -> proper G -> load_tree r = Ret (g, data) -> tokens_apart G ->
  get_nonterminal_id_by_name (g_vocabulary g) name = Some id ->
  derives (productions g) [NT id] (map T w) <->
  exists names, Forall2 (fun n i => get_terminal_id_by_name (g_vocabulary g) n = Some i) names w /\
    matches_atom G (RuleRef name) names.
Proof.
  intros Ht Hp Hload Hta. apply (c40 G r g data); try done. intros k b n t Ho _. split.
  - intros m b' Ho'. destruct (Hta k b b' n _ Ho Ho') as [? ?]. done.
  - intros alts b' Ho'. destruct (Hta k b b' n _ Ho Ho') as [? ?]. done.
Qed.

(** Examples. *)
Lemma g41_meets : grammar_tree g41 (build_grammar g41) /\ proper g41 /\
  load_tree (build_grammar g41) = Ret (grammar_of (build_grammar g41), rules_of (build_grammar g41)).
Proof.
  split; [by apply build_grammar_tree|]. split; [apply proper_computed; by vm_compute|]. apply loaded_ret. by vm_compute.
Qed.
Lemma g41_clash number : number (TokenRef (lit "X")) = 2 -> number (RuleRef (lit "c")) = 2 ->
  first_operand number g41 Star (RuleRef (lit "c")) = TokenRef (lit "X").
Proof.
  intros H1 H2. unfold first_operand. change (operands g41) with [(Star, TokenRef (lit "X")); (Star, RuleRef (lit "c"))].
  cbn [List.find same_suffix fst snd andb]. by rewrite H1, H2.
Qed.
Lemma ex_apart : tokens_apart ex_grammar.
Proof.
  assert (forallb (fun x => match x with Element (TokenRef _) (Some (k, _)) =>
    forallb (fun y => match y with Element (TokenRef _) _ => true | Element _ (Some (k', _)) => negb (suffix_type k =? suffix_type k') | _ => true end) (occurring ex_grammar)
    | _ => true end) (occurring ex_grammar) = true) as H by (by vm_compute).
  intros k b b' n a Ho Ho'. rewrite forallb_forall in H. apply occurs_computed, elem_of_list_In, H in Ho. rewrite forallb_forall in Ho.
  apply occurs_computed, elem_of_list_In, Ho in Ho'. rewrite Nat.eqb_refl in Ho'. destruct a; [eauto|done..].
Qed.
