(** ForestProofs.v -- C51, C52: the parser of a loaded grammar returns the trees the grammar prescribes. *)
From Verif Require Export EbnfRefuted SpecForest GrammarMain.

Scheme forest_element_mut := Minimality for forest_element Sort Prop
with forest_atom_mut := Minimality for forest_atom Sort Prop
with forest_alternative_mut := Minimality for forest_alternative Sort Prop
with forest_elements_mut := Minimality for forest_elements Sort Prop.
Combined Scheme forest_mut from forest_element_mut, forest_atom_mut, forest_alternative_mut, forest_elements_mut.

Lemma leaves_rule r : leaves [Rule r] = rule_leaves r.
Proof. change (leaves [Rule r]) with (rule_leaves r ++ []). apply app_nil_r. Qed.
Lemma parses_leaves P v α w cs : parses P v α w cs -> leaves cs = w.
Proof.
  induction 1 as [|t α tok w cs Ht _ IH|p α w1 w2 cs1 cs2 Hp _ IH1 _ IH2]; [done|..].
  - cbn [leaves concat map]. unfold leaves in *. simpl. by rewrite IH.
  - rewrite leaves_app, IH2. f_equal. unfold node. destruct (get_nonterminal_name_by_id v (left p)); [|done].
    by rewrite leaves_rule, rule_leaves_children.
Qed.

Section forests.
  Context (v0 : vocabulary) (R : nat) (G : list rule) (P : gset production) (N : nat) (v : vocabulary).
  Context (HR : forall name id, nt_name_to_id v0 !! name = Some id -> id < R) (Hv0 : vinv v0).
  Context (Et : t_name_to_id v = t_name_to_id v0) (En : nt_name_to_id v = nt_name_to_id v0) (Ei : nt_id_to_name v = nt_id_to_name v0).
  Notation tr_elem := (tr_elem v0 R P N).
  Notation tr_atom := (tr_atom v0 R P N).
  Notation tr_alts := (tr_alts v0 R P N).
  Notation tr_alt := (tr_alt v0 R P N).
  Notation tr_elems := (tr_elems v0 R P N).
  Context (Hsound : forall id r, id < R -> Production id r ∈ P -> exists name alts alt, ParserRule name alts ∈ G /\ alt ∈ alts /\
       nt_name_to_id v0 !! name = Some id /\ tr_alt alt r).
  Context (Hcomp : forall name alts alt, ParserRule name alts ∈ G -> alt ∈ alts -> exists id r, nt_name_to_id v0 !! name = Some id /\
       Production id r ∈ P /\ tr_alt alt r).

  Lemma node_generated n cs : R <= n -> node v n cs = cs.
  Proof using HR Hv0 Ei.
    intros Hn. unfold node, get_nonterminal_name_by_id. rewrite Ei. destruct (nt_id_to_name v0 !! n) as [m|] eqn:E; [|done].
    apply (vi_n _ Hv0) in E. apply HR in E. lia.
  Qed.
  Lemma node_named n id cs : nt_name_to_id v0 !! n = Some id -> node v id cs = [Rule (RuleCtx n cs id)].
  Proof using Hv0 Ei. intros Hn. unfold node, get_nonterminal_name_by_id. rewrite Ei. apply (vi_n _ Hv0) in Hn. by rewrite Hn. Qed.
  Lemma parses_by n r w cs : Production n r ∈ P -> parses P v r w cs -> parses P v [NT n] w (node v n cs).
  Proof using.
    intros Hp H. rewrite <- (app_nil_r w), <- (app_nil_r (node v n cs)).
    change n with (left (Production n r)). apply parses_NT; [done|done|constructor].
  Qed.

  Lemma forest_parses :
    (forall e cs, forest_element v G e cs -> forall it, tr_elem e it -> parses P v [it] (leaves cs) cs) /\
    (forall a cs, forest_atom v G a cs -> forall it, tr_atom a it -> parses P v [it] (leaves cs) cs) /\
    (forall a cs, forest_alternative v G a cs -> forall its, tr_alt a its -> parses P v its (leaves cs) cs) /\
    (forall es cs, forest_elements v G es cs -> forall its, tr_elems es its -> parses P v its (leaves cs) cs).
  Proof using HR Hv0 Ei En Et Hcomp Hsound.
    assert (Hgen : forall n r w cs, R <= n -> Production n r ∈ P -> parses P v r w cs -> parses P v [NT n] w cs).
    { intros n r w cs Hn Hp H. rewrite <- (node_generated n cs Hn). by eapply parses_by. }
    assert (Hmore : forall n it cs1 cs2, R <= n -> Production n [it; NT n] ∈ P -> parses P v [it] (leaves cs1) cs1 -> parses P v [NT n] (leaves cs2) cs2 ->
      parses P v [NT n] (leaves (cs1 ++ cs2)) (cs1 ++ cs2)).
    { intros n it cs1 cs2 Hn Hp H1 H2. apply (Hgen n [it; NT n]); [done|done|]. rewrite leaves_app. by apply (parses_app P v [it] [NT n]). }
    pose proof (forest_mut v G
      (fun e cs => forall it, tr_elem e it -> parses P v [it] (leaves cs) cs)
      (fun a cs => forall it, tr_atom a it -> parses P v [it] (leaves cs) cs)
      (fun a cs => forall its, tr_alt a its -> parses P v its (leaves cs) cs)
      (fun es cs => forall its, tr_elems es its -> parses P v its (leaves cs) cs)) as K.
    apply K; clear K.
    - intros a cs _ IH it Ht. inversion Ht; subst. by apply IH.
    - intros a b it Ht. inversion Ht as [|? it0 ? ? n Ha Hn Hr]; subst.
      apply (Hgen n []); [lia|apply Hr; set_solver|constructor].
    - intros a b cs1 cs2 _ IH1 _ IH2 it Ht. inversion Ht as [|? it0 ? ? n Ha Hn Hr]; subst.
      apply (Hmore n it0); [lia|apply Hr; set_solver|by apply IH1|by apply IH2].
    - intros a b cs _ IH it Ht. inversion Ht as [|? it0 ? ? n Ha Hn Hr]; subst.
      apply (Hgen n [it0]); [lia|apply Hr; set_solver|by apply IH].
    - intros a b cs1 cs2 _ IH1 _ IH2 it Ht. inversion Ht as [|? it0 ? ? n Ha Hn Hr]; subst.
      apply (Hmore n it0); [lia|apply Hr; set_solver|by apply IH1|by apply IH2].
    - intros a b it Ht. inversion Ht as [|? it0 ? ? n Ha Hn Hr]; subst.
      apply (Hgen n []); [lia|apply Hr; set_solver|constructor].
    - intros a b cs _ IH it Ht. inversion Ht as [|? it0 ? ? n Ha Hn Hr]; subst.
      apply (Hgen n [it0]); [lia|apply Hr; set_solver|by apply IH].
    - intros name t Hl it Ht. inversion Ht as [? t' Hl'| |]; subst. unfold get_terminal_id_by_name in Hl. rewrite Et, Hl' in Hl.
      injection Hl as ->. apply (parses_T P v (token_type t) [] t [] []); [done|constructor].
    - intros name id alts alt cs Hid HG Halt _ IH it Ht. inversion Ht as [|? i Hl|]; subst.
      unfold get_nonterminal_id_by_name in Hid. rewrite En, Hl in Hid. injection Hid as ->.
      destruct (Hcomp _ _ _ HG Halt) as (id' & r & Hid' & Hp & Hr). rewrite Hl in Hid'. injection Hid' as <-.
      assert (leaves [Rule (RuleCtx name cs id)] = leaves cs) as ->.
      { by rewrite leaves_rule, rule_leaves_children. }
      rewrite <- (node_named name id cs Hl). eapply parses_by; [exact Hp|]. by apply IH.
    - intros alts alt cs Halt _ IH it Ht. inversion Ht as [| |? n rs Ha Hn Hr]; subst.
      destruct (tr_alts_alt _ _ _ _ _ _ _ Ha Halt) as (r & Hin & Hr'). apply (Hgen n r); [lia|by apply Hr|by apply IH].
    - intros its Ht. inversion Ht; subst. constructor.
    - intros es cs _ IH its Ht. inversion Ht; subst. by apply IH.
    - intros its Ht. inversion Ht; subst. constructor.
    - intros e es cs1 cs2 _ IH1 _ IH2 its Ht. inversion Ht as [|? it ? its' H1 H2]; subst. rewrite leaves_app.
      apply (parses_app P v [it] its'); [by apply IH1|by apply IH2].
  Qed.

  Lemma forest_two e1 e2 cs : forest_elements v G [e1; e2] cs -> exists cs1 cs2, cs = cs1 ++ cs2 /\ forest_element v G e1 cs1 /\ forest_element v G e2 cs2.
  Proof using.
    intros H. inversion H as [|? ? w1 w' H1 H2]; subst. inversion H2 as [|? ? w2 w3 H3 H4]; subst. inversion H4; subst.
    rewrite app_nil_r. eauto.
  Qed.
  Lemma forest_one e cs : forest_elements v G [e] cs -> forest_element v G e cs.
  Proof using. intros H. inversion H as [|? ? w1 w' H1 H2]; subst. inversion H2; subst. by rewrite app_nil_r. Qed.
  Lemma forest_plain_inv a cs : forest_element v G (Element a None) cs -> forest_atom v G a cs.
  Proof using. by inversion 1. Qed.

  Lemma parses_forest α toks cs : parses P v α toks cs -> forall es, tr_elems es α -> forest_elements v G es cs.
  Proof using HR Hv0 Ei En Et Hsound.
    induction 1 as [|t β tok w cs Hty Hp IH|p β w1 w2 cs1 cs2 Hp H1 IH1 H2 IH2]; intros es Ht.
    - inversion Ht; subst. constructor.
    - inversion Ht as [|e ? es' ? He Hes]; subst. specialize (IH _ Hes).
      inversion He as [a ? Ha|]; subst. inversion Ha as [name ? Hl| |]; subst.
      apply (forest_cons v G _ _ [Terminal tok] cs); [|done]. do 2 constructor. unfold get_terminal_id_by_name. by rewrite Et.
    - inversion Ht as [|e ? es' ? He Hes]; subst. specialize (IH2 _ Hes).
      assert (Halt : forall alt, tr_alt alt (right p) -> forest_alternative v G alt cs1).
      { intros alt Ha. inversion Ha as [E0 E|es0 its0 Hes0 E0 E]; subst alt.
        - assert (Hm : forest_elements v G [] cs1) by (apply IH1; rewrite <- E; constructor). inversion Hm; subst. constructor.
        - subst its0. constructor. by apply IH1. }
      apply forest_cons; [|done].
      inversion He as [a ? Ha|a it k b n Ha Hn Hr]; subst.
      + constructor. inversion Ha as [|name ? Hl|alts ? rs Has Hn Hr]; subst.
        * destruct (Hsound (left p) (right p)) as (name' & alts & alt & HG & Hin & Hl' & Hta); [by eapply HR|by destruct p|].
          assert (name' = name) as ->.
          { apply (vi_n _ Hv0) in Hl, Hl'. congruence. }
          rewrite (node_named name _ _ Hl). apply (forest_rule v G name (left p) alts alt); [|done|done|by apply Halt].
          unfold get_nonterminal_id_by_name. by rewrite En.
        * rewrite node_generated by lia. destruct (tr_alts_right _ _ _ _ _ _ (right p) Has) as (alt & Hin & Hta); [apply Hr; by destruct p|].
          econstructor; [exact Hin|]. by apply Halt.
      + rewrite node_generated by lia.
        assert (right p ∈ suffix_rights k (left p) it) as Hin by (apply Hr; by destruct p).
        assert (Hrec : right p = [it; NT (left p)] -> exists csa csb, cs1 = csa ++ csb /\
          forest_atom v G a csa /\ forest_element v G (Element a (Some (k, b))) csb).
        { intros E. assert (Hm : forest_elements v G [Element a None; Element a (Some (k, b))] cs1).
          { apply IH1. rewrite E. repeat constructor; [done|]. by econstructor. }
          apply forest_two in Hm as (csa & csb & -> & Ha' & Hb'). exists csa, csb. split_and!; [done|by apply forest_plain_inv|done]. }
        assert (Hone : right p = [it] -> forest_atom v G a cs1).
        { intros E. apply forest_plain_inv, forest_one, IH1. rewrite E. repeat constructor; done. }
        assert (Hnil : right p = [] -> cs1 = []).
        { intros E. assert (Hm : forest_elements v G [] cs1) by (apply IH1; rewrite E; constructor). by inversion Hm. }
        destruct k; simpl in Hin; rewrite !elem_of_cons in Hin; destruct Hin as [E|[E|?%elem_of_nil]]; try done.
        * destruct (Hrec E) as (csa & csb & -> & ? & ?). by apply forest_star_cons.
        * rewrite (Hnil E). constructor.
        * destruct (Hrec E) as (csa & csb & -> & ? & ?). by apply forest_plus_more.
        * apply forest_plus_one. by apply Hone.
        * apply forest_question_yes. by apply Hone.
        * rewrite (Hnil E). constructor.
  Qed.
End forests.

Lemma c51 G r g data name id w cs :
  grammar_tree G r -> proper G -> load_tree r = Ret (g, data) -> no_collision (g_vocabulary g) G ->
  get_nonterminal_id_by_name (g_vocabulary g) name = Some id ->
  parses (productions g) (g_vocabulary g) [NT id] w cs <->
  forest_atom (g_vocabulary g) G (RuleRef name) cs /\ leaves cs = w.
Proof.
  intros Ht Hp Hload Hnc Hname. destruct (translation G r g data Ht Hp Hload Hnc) as (v0 & R & N & Hv0 & Et & En & Ei & HR & Hsound & Hcomp).
  unfold get_nonterminal_id_by_name in Hname. rewrite En in Hname. split.
  - intros H. split; [|by eapply parses_leaves]. apply forest_plain_inv, forest_one.
    eapply (parses_forest v0 R G (productions g) N); [done..|exact H|]. by repeat constructor.
  - intros [H <-]. eapply (proj1 (proj2 (forest_parses v0 R G (productions g) N (g_vocabulary g) HR Hv0 Et En Ei Hsound Hcomp))); [exact H|by constructor].
Qed.

Lemma parses_node P v n id w r : get_nonterminal_name_by_id v id = Some n ->
  parses P v [NT id] w [Rule r] <-> r = RuleCtx n (children r) id /\ exists p, p ∈ P /\ left p = id /\ parses P v (right p) w (children r).
Proof.
  intros Hn. split.
  - intros H. inversion H as [| |p α w1 w2 cs1 cs2 Hp H1 H2 E1 E2 E3]; subst. inversion H2; subst. rewrite !app_nil_r in *.
    unfold node in E3. rewrite Hn in E3. injection E3 as <-. split; [done|]. eauto.
  - intros (-> & p & Hp & <- & H). cbn [children] in *. rewrite <- (app_nil_r w).
    assert ([Rule (RuleCtx n (children r) (left p))] = node v (left p) (children r) ++ []) as ->.
    { unfold node. by rewrite Hn. }
    apply parses_NT; [done|done|constructor].
Qed.

(** The names of the rules of a loaded grammar. *)
Lemma loaded_names G r g data name id : grammar_tree G r -> proper G -> load_tree r = Ret (g, data) ->
  get_nonterminal_id_by_name (g_vocabulary g) name = Some id -> get_nonterminal_name_by_id (g_vocabulary g) id = Some name.
Proof.
  intros Ht Hp Hload Hname. destruct (load_tree_grammar G r Ht Hp) as [(s2 & (Hs & HT & HNT & _) & HR & Hrun) _].
  destruct (Hrun g data Hload) as (s3 & E3 & ->). cbn [g_vocabulary] in *.
  pose proof (production_start s2 Hs) as Hi0.
  assert (Hv0 : vinv (sy_vocabulary s2)) by (destruct (si_ops _ Hs) as [ops ->]; apply vinv_reach).
  assert (HRlt : forall i, i ∈ nonterminals (sy_vocabulary s2) -> i < sy_next_rule_id s2) by (intros i Hi; by apply (si_nts _ Hs) in Hi as [? _]).
  pose proof (rule_list_inv _ _ HRlt Hv0 _ _ _ _ Hi0 E3) as Hi3.
  unfold get_nonterminal_id_by_name, get_nonterminal_name_by_id in *. rewrite (pi_n1 _ _ _ Hi3) in Hname. rewrite (pi_n2 _ _ _ Hi3).
  by apply (vi_n _ Hv0).
Qed.

Lemma default_name v id n : get_nonterminal_name_by_id v id = Some n -> get_nonterminal_name_with_default v id = n.
Proof. unfold get_nonterminal_name_with_default, get_nonterminal_name_by_id. by intros ->. Qed.

Lemma c52_entry_complete G r g data name id order fuel tab t next pre rest :
  grammar_tree G r -> proper G -> load_tree r = Ret (g, data) -> no_collision (g_vocabulary g) G ->
  iteration_order g order -> build_table fuel order g = Ret (tab, []) ->
  get_nonterminal_id_by_name (g_vocabulary g) name = Some id ->
  tree_of (g_vocabulary g) G name t -> follows (productions g) id (token_type next) ->
  exists n, forall fuel', n <= fuel' ->
    parse_ast (g_vocabulary g) tab (pre ++ rule_leaves t ++ next :: rest) fuel' (length pre) id = Ret (t, length pre + length (rule_leaves t), []).
Proof.
  intros Ht Hp Hload Hnc Ho Htab Hname Htree Hnext.
  pose proof (loaded_names _ _ _ _ _ _ Ht Hp Hload Hname) as Hn.
  destruct (c43_closed r g data Hload) as (Hcl & _).
  pose proof (proj2 (c51 G r g data name id _ _ Ht Hp Hload Hnc Hname) (conj Htree eq_refl)) as Hpar.
  rewrite leaves_rule in Hpar.
  pose proof (parses_derives _ _ _ _ _ Hpar) as Hd.
  apply (parses_node _ _ name) in Hpar as (Et & p & Hp' & Hl & Hpar); [|done].
  destruct (c33_parse_complete g order fuel tab (g_vocabulary g) id (rule_leaves t) next rest pre Ho Hcl Htab Hd Hnext)
    as (p2 & cs2 & Hp2 & Hl2 & Hpar2 & n & Hrun).
  exists n. intros fuel' Hle. rewrite (Hrun fuel' Hle).
  assert (children t = cs2) as <-.
  { by eapply (c38_unambiguous g order fuel tab _ id _ (token_type next)); [done..| |exact Hp'|done|exact Hpar|exact Hp2|done|exact Hpar2]. }
  rewrite (default_name _ _ _ Hn), <- Et. done.
Qed.
Lemma c52_complete G r g data name order fuel tab t stop rest :
  grammar_tree G r -> proper G -> load_tree r = Ret (g, data) -> no_collision (g_vocabulary g) G ->
  iteration_order g order -> build_table fuel order g = Ret (tab, []) ->
  get_nonterminal_id_by_name (g_vocabulary g) name = Some 0 ->
  tree_of (g_vocabulary g) G name t -> token_type stop = 1 ->
  exists n, forall fuel', n <= fuel' -> parse (g_vocabulary g) tab (rule_leaves t ++ stop :: rest) fuel' = Ret (t, []).
Proof.
  intros Ht Hp Hload Hnc Ho Htab Hname Htree Hstop.
  destruct (c52_entry_complete G r g data name 0 order fuel tab t stop [] rest) as [n Hn]; [done..| |].
  { rewrite Hstop. right. split; [done|]. exists []. apply rtc_refl. }
  exists n. intros fuel' Hle. unfold parse. specialize (Hn fuel' Hle). cbn [app length] in Hn. by rewrite Hn.
Qed.
Lemma c52_entry_sound G r g data name id order fuel tab w toks fuel' i t j :
  grammar_tree G r -> proper G -> load_tree r = Ret (g, data) -> no_collision (g_vocabulary g) G ->
  iteration_order g order -> build_table fuel order g = Ret (tab, w) ->
  get_nonterminal_id_by_name (g_vocabulary g) name = Some id ->
  parse_ast (g_vocabulary g) tab toks fuel' i id = Ret (t, j, []) ->
  tree_of (g_vocabulary g) G name t /\ i <= j <= length toks /\ rule_leaves t = segment toks i j.
Proof.
  intros Ht Hp Hload Hnc Ho Htab Hname Hrun.
  pose proof (loaded_names _ _ _ _ _ _ Ht Hp Hload Hname) as Hn.
  destruct (c43_closed r g data Hload) as (Hcl & _).
  pose proof (c32_parse_sound _ _ _ _ _ (g_vocabulary g) toks _ _ _ _ _ _ Ho Hcl Htab Hrun eq_refl) as (Hj & Hd & p & Hp' & Hl & Hpar & Hr).
  assert (Hpt : parses (productions g) (g_vocabulary g) [NT id] (segment toks i j) [Rule t]).
  { apply (parses_node _ _ name); [done|]. split; [by rewrite <- (default_name _ _ _ Hn)|]. eauto. }
  apply (c51 G r g data name id _ _ Ht Hp Hload Hnc Hname) in Hpt as [Hf El]. by rewrite leaves_rule in El.
Qed.
(** Any table made of productions of the grammar. *)
Lemma c51_parsed G r g data name id tab toks fuel i t j :
  grammar_tree G r -> proper G -> load_tree r = Ret (g, data) -> no_collision (g_vocabulary g) G ->
  (forall A a p, tab !! (A, a) = Some p -> p ∈ productions g /\ left p = A) ->
  get_nonterminal_id_by_name (g_vocabulary g) name = Some id ->
  parse_ast (g_vocabulary g) tab toks fuel i id = Ret (t, j, []) ->
  tree_of (g_vocabulary g) G name t /\ i <= j <= length toks /\ rule_leaves t = segment toks i j.
Proof.
  intros Ht Hp Hload Hnc Hsub Hname Hrun.
  pose proof (loaded_names _ _ _ _ _ _ Ht Hp Hload Hname) as Hn.
  pose proof (parse_ast_sound _ (g_vocabulary g) tab toks Hsub _ _ _ _ Hrun) as (Hi & Hnm & Hc & _ & _ & Hpar & _).
  destruct (Hpar eq_refl) as (p & HpP & Hl & Hpp).
  assert (Hpt : parses (productions g) (g_vocabulary g) [NT id] (segment toks i j) [Rule t]).
  { apply (parses_node _ _ name); [done|]. split; [|eauto]. destruct t as [n cs k]. cbn in *. subst. by rewrite <- (default_name _ _ _ Hn). }
  apply (c51 G r g data name id _ _ Ht Hp Hload Hnc Hname) in Hpt as [Hf El]. split; [done|]. split; [lia|]. by rewrite leaves_rule in El.
Qed.
Lemma c52_sound G r g data name order fuel tab w toks fuel' t :
  grammar_tree G r -> proper G -> load_tree r = Ret (g, data) -> no_collision (g_vocabulary g) G ->
  iteration_order g order -> build_table fuel order g = Ret (tab, w) ->
  get_nonterminal_id_by_name (g_vocabulary g) name = Some 0 ->
  parse (g_vocabulary g) tab toks fuel' = Ret (t, []) ->
  tree_of (g_vocabulary g) G name t /\ exists rest, toks = rule_leaves t ++ rest.
Proof.
  intros Ht Hp Hload Hnc Ho Htab Hname Hrun.
  unfold parse in Hrun. apply rbind_Ret in Hrun as ([[r' j] mm] & H1 & H2). injection H2 as -> ->.
  destruct (c52_entry_sound G r g data name 0 order fuel tab w toks fuel' 0 t j) as (Hf & Hj & El); [done..|].
  split; [done|]. exists (drop j toks). rewrite El. unfold segment. rewrite Nat.sub_0_r, drop_0. by rewrite take_drop.
Qed.

Lemma c52_unique G r g data name order fuel tab t1 t2 :
  grammar_tree G r -> proper G -> load_tree r = Ret (g, data) -> no_collision (g_vocabulary g) G ->
  iteration_order g order -> build_table fuel order g = Ret (tab, []) ->
  get_nonterminal_id_by_name (g_vocabulary g) name = Some 0 ->
  tree_of (g_vocabulary g) G name t1 -> tree_of (g_vocabulary g) G name t2 -> rule_leaves t1 = rule_leaves t2 -> t1 = t2.
Proof.
  intros Ht Hp Hload Hnc Ho Htab Hname H1 H2 El. set (stop := token_new 1 [] []).
  destruct (c52_complete G r g data name order fuel tab t1 stop []) as [n1 Hn1]; [done..|].
  destruct (c52_complete G r g data name order fuel tab t2 stop []) as [n2 Hn2]; [done..|].
  specialize (Hn1 (Nat.max n1 n2) ltac:(lia)). specialize (Hn2 (Nat.max n1 n2) ltac:(lia)).
  rewrite El, Hn2 in Hn1. by injection Hn1.
Qed.

(** The trees exist exactly for the token sequences the definition matches. *)
Lemma c51_matches G r g data name w :
  grammar_tree G r -> proper G -> load_tree r = Ret (g, data) -> no_collision (g_vocabulary g) G ->
  is_Some (get_nonterminal_id_by_name (g_vocabulary g) name) ->
  (exists t, tree_of (g_vocabulary g) G name t /\ rule_leaves t = w) <->
  exists names, Forall2 (fun n t => get_terminal_id_by_name (g_vocabulary g) n = Some (token_type t)) names w /\
    matches_atom G (RuleRef name) names.
Proof.
  intros Ht Hp Hload Hnc [id Hname].
  assert (Hiff : (exists t, tree_of (g_vocabulary g) G name t /\ rule_leaves t = w) <-> sentence (productions g) id w).
  { split.
    - intros (t & Hf & <-). rewrite <- leaves_rule. eapply parses_derives. by apply (c51 G r g data name id).
    - intros Hs. apply (derives_parses _ (g_vocabulary g)) in Hs as [cs Hcs]. apply (c51 G r g data name id) in Hcs as [Hf El]; [|done..].
      inversion Hf as [|? id' alts alt cs' Hid' HG Ha Hf'|]; subst. exists (RuleCtx name cs' id'). split; [done|]. by rewrite leaves_rule. }
  rewrite Hiff. unfold sentence. assert (types w = map T (map token_type w)) as -> by (unfold types; by rewrite map_map).
  rewrite (c40 G r g data name id _ Ht Hp Hload Hnc Hname). split; intros (names & HF & Hm); exists names; (split; [|done]).
  - clear -HF. remember (map token_type w) as l eqn:El. revert w El. induction HF as [|n i ns l Hi _ IH]; intros [|x w] El; simpl in El; try done.
    injection El as -> ->. constructor; [done|]. by apply IH.
  - clear Hm Hiff. induction HF as [|n t ns w Hi _ IH]; simpl; constructor; done.
Qed.

(** list: item (COMMA item)*;  item: ID BANG* | LP list? RP;  *)
Definition ref (n : string) : element := Element (TokenRef (lit n)) None.
Definition call (n : string) : element := Element (RuleRef (lit n)) None.
Definition ex_list : list rule :=
  [ParserRule (lit "list") [Sequence [call "item"; Element (Group [Sequence [ref "COMMA"; call "item"]]) (Some (Star, false))]];
   ParserRule (lit "item") [Sequence [ref "ID"; Element (TokenRef (lit "BANG")) (Some (Star, false))];
                            Sequence [ref "LP"; Element (RuleRef (lit "list")) (Some (Question, false)); ref "RP"]];
   LexerRule (lit "ID") (lit "/[a-z]+/"); LexerRule (lit "COMMA") (lit "/,/"); LexerRule (lit "LP") (lit "/\(/");
   LexerRule (lit "RP") (lit "/\)/"); LexerRule (lit "BANG") (lit "/!/")].
Definition ex_list_tree : rule_ctx := build_grammar ex_list.
Definition ex_list_g : grammar := grammar_of ex_list_tree.
Definition ex_list_order : list production := elements (productions ex_list_g).
Definition ex_list_tab : table := match build_table 1000 ex_list_order ex_list_g with Ret (tab, _) => tab | _ => ∅ end.
Lemma ex_list_grammar_tree : grammar_tree ex_list ex_list_tree.
Proof. by apply build_grammar_tree. Qed.
Lemma ex_list_proper : proper ex_list.
Proof. apply proper_computed; by vm_compute. Qed.
Lemma ex_list_loaded : load_tree ex_list_tree = Ret (ex_list_g, rules_of ex_list_tree).
Proof. apply loaded_ret. by vm_compute. Qed.
Lemma ex_list_no_collision : no_collision (g_vocabulary ex_list_g) ex_list.
Proof. apply no_collision_computed. by vm_compute. Qed.
Lemma ex_list_table : build_table 1000 ex_list_order ex_list_g = Ret (ex_list_tab, []).
Proof.
  assert (match build_table 1000 ex_list_order ex_list_g with Ret (_, []) => true | _ => false end = true) as H by (by vm_compute).
  unfold ex_list_tab. destruct (build_table 1000 ex_list_order ex_list_g) as [[tab [|]]| |]; done.
Qed.
Definition tk' (ty : nat) : ast := Terminal (token_new ty [] []).
(** a!, () *)
Definition ex_list_parsed : rule_ctx :=
  RuleCtx (lit "list") [Rule (RuleCtx (lit "item") [tk' 2; tk' 6] 1); tk' 3; Rule (RuleCtx (lit "item") [tk' 4; tk' 5] 1)] 0.
Lemma ex_list_tree_of : tree_of (g_vocabulary ex_list_g) ex_list (lit "list") ex_list_parsed.
Proof.
  assert (Hk : forall n ty, get_terminal_id_by_name (g_vocabulary ex_list_g) n = Some ty -> forest_element (g_vocabulary ex_list_g) ex_list (Element (TokenRef n) None) [tk' ty]).
  { intros n ty H. by do 2 constructor. }
  eapply (forest_rule _ _ _ 0); [by vm_compute|apply elem_of_list_here|apply elem_of_list_here|]. constructor.
  apply (forest_cons _ _ _ _ [Rule _] [_; _]).
  - constructor. eapply (forest_rule _ _ _ 1); [by vm_compute|apply elem_of_list_further, elem_of_list_here|apply elem_of_list_here|]. constructor.
    apply (forest_cons _ _ _ _ [_] [_]); [apply Hk; by vm_compute|]. apply (forest_cons _ _ _ _ [_] []); [|constructor].
    apply (forest_star_cons _ _ _ _ [_] []); [|constructor]. constructor. by vm_compute.
  - apply (forest_cons _ _ _ _ [_; _] []); [|constructor]. apply (forest_star_cons _ _ _ _ [_; _] []); [|constructor].
    eapply forest_group; [apply elem_of_list_here|]. constructor. apply (forest_cons _ _ _ _ [_] [_]); [apply Hk; by vm_compute|].
    apply (forest_cons _ _ _ _ [_] []); [|constructor]. constructor.
    eapply (forest_rule _ _ _ 1); [by vm_compute|apply elem_of_list_further, elem_of_list_here|apply elem_of_list_further, elem_of_list_here|]. constructor.
    apply (forest_cons _ _ _ _ [_] [_]); [apply Hk; by vm_compute|]. apply (forest_cons _ _ _ _ [] [_]); [constructor|].
    apply (forest_cons _ _ _ _ [_] []); [apply Hk; by vm_compute|constructor].
Qed.
Lemma ex_list_all : grammar_tree ex_list ex_list_tree /\ proper ex_list /\ load_tree ex_list_tree = Ret (ex_list_g, rules_of ex_list_tree) /\
  no_collision (g_vocabulary ex_list_g) ex_list /\ iteration_order ex_list_g ex_list_order /\
  build_table 1000 ex_list_order ex_list_g = Ret (ex_list_tab, []) /\ get_nonterminal_id_by_name (g_vocabulary ex_list_g) (lit "list") = Some 0.
Proof.
  split_and!; [exact ex_list_grammar_tree|exact ex_list_proper|exact ex_list_loaded|exact ex_list_no_collision|unfold iteration_order; reflexivity|exact ex_list_table|].
  by vm_compute.
Qed.
