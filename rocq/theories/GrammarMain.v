(** GrammarMain.v -- the grammar/parser properties in their final form, and the witnesses. *)
From Verif Require Export ParserProofs.

(** ** Positive statements *)

Lemma c23_first_terminates g :
  exists n, forall order fuel, iteration_order g order -> n <= fuel ->
    first_set fuel order g <> OutOfFuel /\
    (first_set fuel order g = Panic <->
       exists p, p ∈ productions g /\
         (left p ∉ nonterminals (g_vocabulary g) \/
          exists α b β, right p = α ++ NT b :: β /\ nullable (productions g) α /\
                        b ∉ nonterminals (g_vocabulary g))).
Proof.
  exists (first_fuel g). intros order fuel Ho Hf. split.
  - by apply first_set_terminates.
  - by apply first_set_panics.
Qed.

Lemma c23_first_returns g :
  closed (nonterminals (g_vocabulary g)) (productions g) ->
  exists n, forall order fuel, iteration_order g order -> n <= fuel ->
    exists result cache, first_set fuel order g = Ret (result, cache).
Proof. intros Hcl. exists (first_fuel g). intros order fuel Ho Hf. by apply first_set_returns. Qed.

Lemma c24_first_exact g order fuel result cache :
  iteration_order g order -> first_set fuel order g = Ret (result, cache) ->
  dom result = nonterminals (g_vocabulary g) /\
  forall A c, result !! A = Some c ->
    (allow_epsilon c = true <-> nullable (productions g) [NT A]) /\
    (forall t, t ∈ cset c <-> starts (productions g) [NT A] t).
Proof. intros Ho H. by apply first_set_exact in H as [H _]. Qed.

Lemma c25_production_first_exact g order fuel result cache :
  iteration_order g order -> first_set fuel order g = Ret (result, cache) ->
  dom cache = productions g /\
  forall p c, cache !! p = Some c ->
    (allow_epsilon c = true <-> nullable (productions g) (right p)) /\
    (forall t, t ∈ cset c <-> starts (productions g) (right p) t).
Proof. intros Ho H. by apply first_set_exact in H as [_ H]. Qed.

Lemma c26_follow_returns g :
  closed (nonterminals (g_vocabulary g)) (productions g) -> 0 ∈ nonterminals (g_vocabulary g) ->
  exists n, forall order1 order2 fuel1 fuel2 first cache,
    iteration_order g order1 -> iteration_order g order2 ->
    first_set fuel1 order1 g = Ret (first, cache) -> n <= fuel2 ->
    exists follow, follow_set fuel2 order2 g first = Ret follow.
Proof.
  intros Hcl H0. exists (follow_fuel g). intros order1 order2 fuel1 fuel2 first cache Ho1 Ho2 H Hf.
  apply follow_set_returns; [done|done|done| |done]. exact (first_set_first_exact _ _ _ _ _ Ho1 H).
Qed.

Lemma c26_follow_exact g order1 order2 fuel1 fuel2 first cache follow :
  iteration_order g order1 -> iteration_order g order2 ->
  first_set fuel1 order1 g = Ret (first, cache) ->
  follow_set fuel2 order2 g first = Ret follow ->
  dom follow = nonterminals (g_vocabulary g) /\
  forall A s, follow !! A = Some s -> forall t, t ∈ s <->
    (exists X, follows_in (productions g) X A t) \/ (t = 1 /\ ends_in (productions g) 0 A).
Proof.
  intros Ho1 Ho2 H1 H2. eapply follow_set_exact; [exact Ho2| |exact H2].
  exact (first_set_first_exact _ _ _ _ _ Ho1 H1).
Qed.

Lemma c27_textbook g order1 order2 fuel1 fuel2 first cache follow :
  iteration_order g order1 -> iteration_order g order2 ->
  (forall p, p ∈ productions g -> reachable (productions g) (left p)) ->
  first_set fuel1 order1 g = Ret (first, cache) ->
  follow_set fuel2 order2 g first = Ret follow ->
  forall A s, follow !! A = Some s -> forall t, t ∈ s <-> textbook_follow (productions g) A t.
Proof.
  intros Ho1 Ho2 Hr H1 H2 A s HA t.
  destruct (c26_follow_exact _ _ _ _ _ _ _ _ Ho1 Ho2 H1 H2) as [_ Hex].
  rewrite (Hex _ _ HA). apply (textbook_follow_iff (productions g) A t).
  intros X p Hp <-. by apply Hr.
Qed.

Lemma c28_table_returns g :
  closed (nonterminals (g_vocabulary g)) (productions g) -> 0 ∈ nonterminals (g_vocabulary g) ->
  exists n, forall order fuel, iteration_order g order -> n <= fuel ->
    exists tab w, build_table fuel order g = Ret (tab, w).
Proof. intros Hcl H0. exists (table_fuel g). intros. by apply build_table_returns. Qed.

Lemma c28_table_entries g order fuel tab w :
  iteration_order g order -> closed (nonterminals (g_vocabulary g)) (productions g) ->
  build_table fuel order g = Ret (tab, w) ->
  (forall A t, is_Some (tab !! (A, t)) <->
     exists p, p ∈ productions g /\ left p = A /\
       (starts (productions g) (right p) t \/
        (nullable (productions g) (right p) /\ follows (productions g) A t))) /\
  (forall A t p, tab !! (A, t) = Some p ->
     p ∈ productions g /\ left p = A /\
       (starts (productions g) (right p) t \/
        (nullable (productions g) (right p) /\ follows (productions g) A t))).
Proof.
  intros Ho Hcl H. destruct (build_table_spec _ _ _ _ _ Ho Hcl H) as (S1 & S2 & _ & _).
  assert (Hs : forall A t p, tab !! (A, t) = Some p ->
     p ∈ productions g /\ left p = A /\
       (starts (productions g) (right p) t \/
        (nullable (productions g) (right p) /\ follows (productions g) A t))).
  { intros A t p Hp. destruct (S1 _ _ _ Hp) as (H1 & <- & H2 & _). done. }
  split; [|done]. intros A t. split.
  - intros [p Hp]. exists p. by apply Hs.
  - intros (p & Hp & <- & Hpr). by apply S2.
Qed.

Lemma c29_warnings g order fuel tab w :
  iteration_order g order -> closed (nonterminals (g_vocabulary g)) (productions g) ->
  build_table fuel order g = Ret (tab, w) ->
  (w = [] <-> ll1 (productions g)) /\
  (forall p q, (p, q) ∈ w -> p ∈ productions g /\ q ∈ productions g /\ left p = left q /\
     exists t, predicts (productions g) p t /\ predicts (productions g) q t).
Proof.
  intros Ho Hcl H. destruct (build_table_spec _ _ _ _ _ Ho Hcl H) as (_ & _ & S3 & S4). done.
Qed.

Lemma c30_last_wins g order fuel tab w :
  iteration_order g order -> closed (nonterminals (g_vocabulary g)) (productions g) ->
  build_table fuel order g = Ret (tab, w) ->
  forall A t p, tab !! (A, t) = Some p ->
    exists o1 o2, order = o1 ++ p :: o2 /\
      forall q, q ∈ o2 -> left q = A -> ~ predicts (productions g) q t.
Proof.
  intros Ho Hcl H A t p Hp. destruct (build_table_spec _ _ _ _ _ Ho Hcl H) as (S1 & _).
  by destruct (S1 _ _ _ Hp) as (_ & _ & _ & ?).
Qed.

(** For the parser: [tab] is the table of [g]. *)
Lemma c32_parse_sound g order fuel tab w v toks fuel' i A r j mm :
  iteration_order g order -> closed (nonterminals (g_vocabulary g)) (productions g) ->
  build_table fuel order g = Ret (tab, w) ->
  parse_ast v tab toks fuel' i A = Ret (r, j, mm) -> mm = [] ->
  i <= j <= length toks /\
  derives (productions g) [NT A] (types (segment toks i j)) /\
  exists p, p ∈ productions g /\ left p = A /\
    parses (productions g) v (right p) (segment toks i j) (children r) /\
    r = RuleCtx (get_nonterminal_name_with_default v A) (children r) A.
Proof.
  intros Ho Hcl Ht H ->.
  assert (Hsub : forall A t p, tab !! (A, t) = Some p -> p ∈ productions g /\ left p = A).
  { intros A' t p Hp. destruct (build_table_spec _ _ _ _ _ Ho Hcl Ht) as (S1 & _).
    destruct (S1 _ _ _ Hp) as (? & ? & _). done. }
  pose proof (parse_ast_sound _ v tab toks Hsub _ _ _ _ H) as (Hi & Hn & Hc & _ & _ & Hp & _).
  destruct (Hp eq_refl) as (p & HpP & Hl & Hpar). split_and!; [lia|lia| |].
  - subst A. rewrite <- Hl. eapply derives_trans; [by apply derives_prod|]. by eapply parses_derives.
  - exists p. split_and!; [done..|]. destruct r as [n cs k]. simpl in *. by subst.
Qed.

Lemma c33_parse_complete g order fuel tab v A s t rest pre :
  iteration_order g order -> closed (nonterminals (g_vocabulary g)) (productions g) ->
  build_table fuel order g = Ret (tab, []) ->
  sentence (productions g) A s -> follows (productions g) A (token_type t) ->
  exists p cs, p ∈ productions g /\ left p = A /\ parses (productions g) v (right p) s cs /\
    exists n, forall fuel', n <= fuel' ->
      parse_ast v tab (pre ++ s ++ t :: rest) fuel' (length pre) A =
        Ret (RuleCtx (get_nonterminal_name_with_default v A) cs A, length pre + length s, []).
Proof.
  intros Ho Hcl Ht Hs Hf.
  assert (Hll : ll1 (productions g)) by (by eapply (c29_warnings _ _ _ _ _ Ho Hcl Ht)).
  destruct (build_table_ll1 _ _ _ _ _ Ho Hcl Hll Ht) as [_ Htab].
  apply (derives_parses (productions g) v) in Hs as [cs Hcs].
  inversion Hcs as [| |p α w1 w2 cs1 cs2 Hp Hr Hα]; subst. inversion Hα; subst.
  exists p, cs1. rewrite app_nil_r. split_and!; [done..|].
  destruct (parse_ast_complete _ v tab (pre ++ w1 ++ t :: rest) Htab p w1 cs1 t (length pre) rest) as [n Hn];
    [done..|by rewrite drop_app|].
  exists n. done.
Qed.

Lemma c33_parse_start g order fuel tab v s t rest :
  iteration_order g order -> closed (nonterminals (g_vocabulary g)) (productions g) ->
  build_table fuel order g = Ret (tab, []) ->
  sentence (productions g) 0 s -> token_type t = 1 ->
  exists p cs, p ∈ productions g /\ left p = 0 /\ parses (productions g) v (right p) s cs /\
    exists n, forall fuel', n <= fuel' ->
      parse v tab (s ++ t :: rest) fuel' =
        Ret (RuleCtx (get_nonterminal_name_with_default v 0) cs 0, []).
Proof.
  intros Ho Hcl Ht Hs Htt.
  destruct (c33_parse_complete g order fuel tab v 0 s t rest [] Ho Hcl Ht Hs) as (p & cs & Hp & Hl & Hpar & n & Hn).
  { rewrite Htt. right. split; [done|]. exists []. apply rtc_refl. }
  exists p, cs. split_and!; [done..|]. exists n. intros fuel' Hle. unfold parse.
  specialize (Hn fuel' Hle). simpl in Hn. rewrite Hn. done.
Qed.

Lemma c34_parse_terminates g order fuel tab v toks i A :
  iteration_order g order -> closed (nonterminals (g_vocabulary g)) (productions g) ->
  build_table fuel order g = Ret (tab, []) ->
  exists n, forall fuel', n <= fuel' ->
    parse_ast v tab toks fuel' i A <> OutOfFuel /\
    parse_ast v tab toks fuel' i A = parse_ast v tab toks n i A.
Proof.
  intros Ho Hcl Ht.
  assert (Hll : ll1 (productions g)) by (by eapply (c29_warnings _ _ _ _ _ Ho Hcl Ht)).
  destruct (build_table_ll1 _ _ _ _ _ Ho Hcl Hll Ht) as [_ Htab].
  destruct (parse_ast_terminates _ v tab toks Htab Hll i A) as [n Hn].
  exists n. intros fuel' Hle. rewrite (parse_ast_mono _ _ _ n) by done. done.
Qed.

Lemma parse_mono v tab toks f f' :
  f <= f' -> parse v tab toks f <> OutOfFuel -> parse v tab toks f' = parse v tab toks f.
Proof.
  intros Hle H. unfold parse in *. rewrite (parse_ast_mono _ _ _ f f'); [done|done|].
  intros E. by rewrite E in H.
Qed.

Lemma c36_prefix_sentence g order fuel tab w v toks fuel' r :
  iteration_order g order -> closed (nonterminals (g_vocabulary g)) (productions g) ->
  build_table fuel order g = Ret (tab, w) ->
  parse v tab toks fuel' = Ret (r, []) ->
  exists s rest, toks = s ++ rest /\ sentence (productions g) 0 s /\ rule_leaves r = s.
Proof.
  intros Ho Hcl Ht H. unfold parse in H. apply rbind_Ret in H as ([[r' j] mm] & H1 & H2).
  injection H2 as -> ->.
  pose proof (c32_parse_sound _ _ _ _ _ v toks _ _ _ _ _ _ Ho Hcl Ht H1 eq_refl) as (Hj & Hd & p & Hp & Hl & Hpar & Hr).
  exists (segment toks 0 j), (drop j toks). split_and!.
  - unfold segment. rewrite Nat.sub_0_r, drop_0. by rewrite take_drop.
  - done.
  - rewrite rule_leaves_children.
    assert (Hsub : forall A t p, tab !! (A, t) = Some p -> p ∈ productions g /\ left p = A).
    { intros A' t q Hq. destruct (build_table_spec _ _ _ _ _ Ho Hcl Ht) as (S1 & _).
      destruct (S1 _ _ _ Hq) as (? & ? & _). done. }
    by pose proof (parse_ast_sound _ v tab toks Hsub _ _ _ _ H1) as (_ & _ & _ & ? & _).
Qed.

Lemma c37_leaves v tab toks fuel i A r j mm :
  parse_ast v tab toks fuel i A = Ret (r, j, mm) ->
  i <= j <= length toks /\ rule_leaves r = segment toks i j /\
  rule_index r = A /\ rule_name r = get_nonterminal_name_with_default v A /\
  Forall (named_tree v) (children r).
Proof.
  intros H.
  (* any table is the table of some set of productions, as far as this statement goes *)
  set (P := list_to_set (fst <$> ((fun kp => (Production (fst (fst kp)) (right (snd kp)), kp)) <$> map_to_list tab)) : gset production).
  set (tab' := map_imap (fun k p => Some (Production (fst k) (right p))) tab).
  assert (Heq : forall fuel i A, parse_ast v tab' toks fuel i A = parse_ast v tab toks fuel i A).
  { intros f. induction f as [|f IH]; intros i' A'; simpl; [done|].
    destruct (toks !! i') as [tok|]; simpl; [|done]. unfold tab' at 1. rewrite map_lookup_imap.
    destruct (tab !! (A', token_type tok)) as [p|] eqn:Ep; simpl; [|done].
    assert (Hi : forall α c k m, parse_items v toks (parse_ast v tab' toks f) α c k m =
                             parse_items v toks (parse_ast v tab toks f) α c k m).
    { intros α. induction α as [|[B|t] α IHα]; intros c k m; simpl; [done|..].
      - rewrite IH. destruct (parse_ast v tab toks f c B) as [[[? ?] ?]| |]; simpl; [apply IHα|done|done].
      - destruct (toks !! c); simpl; [apply IHα|done]. }
    by rewrite Hi. }
  rewrite <- Heq in H.
  assert (Hsub : forall A t p, tab' !! (A, t) = Some p -> p ∈ P /\ left p = A).
  { intros A' t p Hp. unfold tab' in Hp. rewrite map_lookup_imap in Hp.
    destruct (tab !! (A', t)) as [q|] eqn:Eq; simpl in Hp; [|done]. injection Hp as <-. simpl. split; [|done].
    unfold P. apply elem_of_list_to_set, elem_of_list_fmap.
    exists (Production A' (right q), ((A', t), q)). split; [done|]. apply elem_of_list_fmap.
    exists ((A', t), q). split; [done|]. by apply elem_of_map_to_list. }
  pose proof (parse_ast_sound P v tab' toks Hsub _ _ _ _ H) as (Hi & Hn & Hc & Hl & Hnm & _).
  rewrite rule_leaves_children. split_and!; try done; lia.
Qed.

Lemma c38_unambiguous g order fuel tab v A s t p1 cs1 p2 cs2 :
  iteration_order g order -> closed (nonterminals (g_vocabulary g)) (productions g) ->
  build_table fuel order g = Ret (tab, []) ->
  follows (productions g) A t ->
  p1 ∈ productions g -> left p1 = A -> parses (productions g) v (right p1) s cs1 ->
  p2 ∈ productions g -> left p2 = A -> parses (productions g) v (right p2) s cs2 ->
  cs1 = cs2.
Proof.
  intros Ho Hcl Ht Hf Hp1 Hl1 H1 Hp2 Hl2 H2.
  assert (Hll : ll1 (productions g)) by (by eapply (c29_warnings _ _ _ _ _ Ho Hcl Ht)).
  destruct (build_table_ll1 _ _ _ _ _ Ho Hcl Hll Ht) as [_ Htab].
  set (tok := token_new t [] []).
  destruct (parse_ast_complete _ v tab (s ++ [tok]) Htab p1 s cs1 tok 0 []) as [n1 Hn1]; [done|done|by rewrite Hl1|done|].
  destruct (parse_ast_complete _ v tab (s ++ [tok]) Htab p2 s cs2 tok 0 []) as [n2 Hn2]; [done|done|by rewrite Hl2|done|].
  specialize (Hn1 (n1 `max` n2) ltac:(lia)). specialize (Hn2 (n1 `max` n2) ltac:(lia)).
  rewrite Hl1 in Hn1. rewrite Hl2 in Hn2. rewrite Hn1 in Hn2. by injection Hn2.
Qed.

(** ** Deciding closedness, for examples *)
Definition closedb (nts : gset nat) (P : gset production) : bool :=
  forallb (fun p => bool_decide (left p ∈ nts) &&
    forallb (fun i => match i with NT b => bool_decide (b ∈ nts) | T _ => true end) (right p)) (elements P).
Lemma closedb_closed nts P : closedb nts P = true -> closed nts P.
Proof.
  unfold closedb. rewrite forallb_forall. intros H p Hp.
  specialize (H p). rewrite <- elem_of_list_In in H. specialize (H ltac:(by apply elem_of_elements)).
  apply andb_true_iff in H as [H1 H2]. apply bool_decide_eq_true in H1. split; [done|].
  rewrite forallb_forall in H2. intros b Hb. specialize (H2 (NT b)). rewrite <- elem_of_list_In in H2.
  specialize (H2 Hb). by apply bool_decide_eq_true in H2.
Qed.

Lemma prods_forall (f : production -> bool) (P : gset production) :
  forallb f (elements P) = true -> forall p, p ∈ P -> f p = true.
Proof.
  rewrite forallb_forall. intros H p Hp. apply H. apply elem_of_list_In. by apply elem_of_elements.
Qed.
Lemma in_prods (p : production) (P : gset production) : bool_decide (p ∈ P) = true -> p ∈ P.
Proof. apply bool_decide_eq_true. Qed.

Lemma o1_elem (g : grammar) (o : list production) :
  forallb (fun p => bool_decide (p ∈ productions g)) o = true ->
  forallb (fun p => bool_decide (p ∈ o)) (elements (productions g)) = true ->
  forall p, p ∈ o <-> p ∈ productions g.
Proof.
  intros H1 H2 p. split.
  - rewrite forallb_forall in H1. intros Hp%elem_of_list_In. apply H1 in Hp. by apply bool_decide_eq_true in Hp.
  - intros Hp. apply (prods_forall _ _ H2) in Hp. by apply bool_decide_eq_true in Hp.
Qed.

Definition first_epsb fuel order g A : bool :=
  match first_set fuel order g with
  | Ret (first, _) => match first !! A with Some c => allow_epsilon c | None => true end
  | _ => true
  end.
Lemma first_epsb_spec fuel order g A : first_epsb fuel order g A = false ->
  exists first cache c, first_set fuel order g = Ret (first, cache) /\ first !! A = Some c /\
    allow_epsilon c = false.
Proof.
  unfold first_epsb. intros H. destruct (first_set fuel order g) as [[first cache]| |]; [|done..].
  destruct (first !! A) as [s|] eqn:Es; [|done]. eauto 10.
Qed.

Definition follow_hasb fuel order g A t : bool :=
  match first_set fuel order g with
  | Ret (first, _) =>
      match follow_set fuel order g first with
      | Ret follow => match follow !! A with Some s => bool_decide (t ∈ s) | None => false end
      | _ => false
      end
  | _ => false
  end.
Lemma follow_hasb_spec fuel order g A t : follow_hasb fuel order g A t = true ->
  exists first cache follow s, first_set fuel order g = Ret (first, cache) /\
    follow_set fuel order g first = Ret follow /\ follow !! A = Some s /\ t ∈ s.
Proof.
  unfold follow_hasb. intros H. destruct (first_set fuel order g) as [[first cache]| |]; [|done..].
  destruct (follow_set fuel order g first) as [follow| |] eqn:E; [|done..].
  destruct (follow !! A) as [s|] eqn:Es; [|done]. apply bool_decide_eq_true in H. eauto 10.
Qed.

(** ** Example grammars *)
(** E: T_ R; R (unnamed): '+' T_ R | ε; T_: '(' E ')' | id *)
Definition ex_voc : vocabulary :=
  vrun vocabulary_new [AddTerminal 2 (lit "PLUS"); AddTerminal 3 (lit "LP"); AddTerminal 4 (lit "RP");
    AddTerminal 5 (lit "ID"); AddNamed 0 (lit "expr"); AddNamed 1 (lit "term"); AddUnnamed 2].
Definition ex_prods : gset production :=
  {[ Production 0 [NT 1; NT 2]; Production 2 [T 2; NT 1; NT 2]; Production 2 [];
     Production 1 [T 3; NT 0; T 4]; Production 1 [T 5] ]}.
Definition ex_g : grammar := Grammar (lit "expr") ex_voc ex_prods.
Definition ex_order : list production := elements ex_prods.
Definition ex_tab : table := match build_table 100 ex_order ex_g with Ret (t, _) => t | _ => ∅ end.
Definition tk (ty : nat) : token := token_new ty (lit "t") (lit "x").
(** id + ( id + id ) *)
Definition ex_toks : list token := map tk [5; 2; 3; 5; 2; 5; 4].

Lemma ex_order_ok : iteration_order ex_g ex_order.
Proof. unfold iteration_order, ex_order, ex_g. reflexivity. Qed.
Lemma ex_closed : closed (nonterminals (g_vocabulary ex_g)) (productions ex_g).
Proof. apply closedb_closed. by vm_compute. Qed.
Lemma ex_table : build_table 100 ex_order ex_g = Ret (ex_tab, []).
Proof. by vm_compute. Qed.
Lemma ex_ll1 : ll1 (productions ex_g).
Proof. eapply (c29_warnings _ _ _ _ _ ex_order_ok ex_closed ex_table). done. Qed.
Lemma ex_parse : exists r, parse_ast ex_voc ex_tab (ex_toks ++ [tk 1]) 20 0 0 = Ret (r, 7, []) /\
  rule_display r = lit "expr (term (t ) t term (t expr (term (t ) t term (t ) ) t ) )".
Proof. eexists. split; [by vm_compute|by vm_compute]. Qed.
Lemma ex_sentence : sentence (productions ex_g) 0 ex_toks.
Proof.
  destruct ex_parse as (r & Hr & _).
  by pose proof (c32_parse_sound _ _ _ _ _ _ _ _ _ _ _ _ _ ex_order_ok ex_closed ex_table Hr eq_refl)
    as (_ & ? & _).
Qed.

(** ** Witnesses *)
(** C27: S: a;  U: S b  with U unreachable. *)
Definition g27 : grammar :=
  Grammar (lit "g") (vrun vocabulary_new [AddTerminal 2 (lit "A"); AddTerminal 3 (lit "B");
    AddNamed 0 (lit "s"); AddNamed 1 (lit "u")])
    {[ Production 0 [T 2]; Production 1 [NT 0; T 3] ]}.
Lemma g27_forms γ : derives (productions g27) [NT 0] γ -> γ = [NT 0] \/ γ = [T 2].
Proof.
  unfold derives. intros H.
  assert (Hd : [NT 0] = [NT 0] \/ [NT 0] = [T 2]) by (by left).
  revert Hd H. generalize [NT 0] at 1 3 4 as δ. intros δ Hd H.
  induction H as [δ|δ1 δ2 δ3 Hs _ IH]; [done|]. apply IH. clear IH.
  inversion Hs as [a p b Hp Hq1 Hq2]; subst.
  assert (p = Production 0 [T 2] \/ p = Production 1 [NT 0; T 3]) as [->| ->].
  { pose proof (prods_forall (fun p => bool_decide (p = Production 0 [T 2] \/ p = Production 1 [NT 0; T 3]))
      (productions g27) ltac:(by vm_compute) p Hp) as Hb. by apply bool_decide_eq_true in Hb. }
  - destruct Hd as [Hd|Hd]; destruct a as [|? [|]]; simplify_eq/=; by right.
  - destruct Hd as [Hd|Hd]; destruct a as [|? [|]]; simplify_eq/=.
Qed.
Lemma c27_refuted :
  exists g order fuel first cache follow A s t,
    iteration_order g order /\ closed (nonterminals (g_vocabulary g)) (productions g) /\
    0 ∈ nonterminals (g_vocabulary g) /\
    first_set fuel order g = Ret (first, cache) /\ follow_set fuel order g first = Ret follow /\
    follow !! A = Some s /\ t ∈ s /\ ~ textbook_follow (productions g) A t.
Proof.
  destruct (follow_hasb_spec 10 (elements (productions g27)) g27 0 3) as (first & cache & follow & s & E1 & E2 & Hf & Hs);
    [by vm_compute|].
  exists g27, (elements (productions g27)), 10, first, cache, follow, 0, s, 3.
  split; [unfold iteration_order; reflexivity|].
  split; [apply closedb_closed; by vm_compute|]. split; [apply (bool_decide_unpack _); by vm_compute|].
  split; [exact E1|]. split; [exact E2|]. split; [exact Hf|]. split; [exact Hs|].
  - intros [(α & β & Hd)|[? _]]; [|done]. apply g27_forms in Hd as [Hd|Hd]; destruct α as [|? [|]]; simplify_eq/=.
Qed.

(** C30: S: a | a b *)
Definition g30 : grammar :=
  Grammar (lit "g") (vrun vocabulary_new [AddTerminal 2 (lit "A"); AddTerminal 3 (lit "B"); AddNamed 0 (lit "s")])
    {[ Production 0 [T 2]; Production 0 [T 2; T 3] ]}.
Lemma c30_refuted :
  exists g order1 order2 fuel tab1 w1 tab2 w2,
    iteration_order g order1 /\ iteration_order g order2 /\
    closed (nonterminals (g_vocabulary g)) (productions g) /\
    build_table fuel order1 g = Ret (tab1, w1) /\ build_table fuel order2 g = Ret (tab2, w2) /\
    tab1 <> tab2.
Proof.
  set (o1 := [Production 0 [T 2]; Production 0 [T 2; T 3]]).
  set (o2 := [Production 0 [T 2; T 3]; Production 0 [T 2]]).
  destruct (build_table 10 o1 g30) as [[tab1 w1]| |] eqn:E1; [|by vm_compute in E1..].
  destruct (build_table 10 o2 g30) as [[tab2 w2]| |] eqn:E2; [|by vm_compute in E2..].
  exists g30, o1, o2, 10, tab1, w1, tab2, w2.
  assert (H1 : tab1 !! (0, 2) = Some (Production 0 [T 2; T 3])).
  { vm_compute in E1. injection E1 as <- _. by vm_compute. }
  assert (H2 : tab2 !! (0, 2) = Some (Production 0 [T 2])).
  { vm_compute in E2. injection E2 as <- _. by vm_compute. }
  assert (Ho : iteration_order g30 o1).
  { unfold iteration_order. apply NoDup_Permutation.
    - apply (bool_decide_unpack _). by vm_compute.
    - apply NoDup_elements.
    - intros p. rewrite elem_of_elements. apply (o1_elem g30 o1). { by vm_compute. } { by vm_compute. } }
  split_and!; [done| |apply closedb_closed; by vm_compute|done|done|congruence].
  unfold iteration_order in *. rewrite <- Ho. apply perm_swap.
Qed.

(** C35: S: S a | b, table filled in hash order [b; S a] *)
Definition g35 : grammar :=
  Grammar (lit "g") (vrun vocabulary_new [AddTerminal 2 (lit "A"); AddTerminal 3 (lit "B"); AddNamed 0 (lit "s")])
    {[ Production 0 [T 3]; Production 0 [NT 0; T 2] ]}.
Lemma c35_refuted :
  exists g order fuel tab w toks,
    iteration_order g order /\ closed (nonterminals (g_vocabulary g)) (productions g) /\
    build_table fuel order g = Ret (tab, w) /\ sentence (productions g) 0 toks /\
    forall fuel', parse (g_vocabulary g) tab (toks ++ [tk 1]) fuel' = OutOfFuel.
Proof.
  set (o1 := [Production 0 [T 3]; Production 0 [NT 0; T 2]]).
  destruct (build_table 10 o1 g35) as [[tab1 w1]| |] eqn:E1; [|by vm_compute in E1..].
  exists g35, o1, 10, tab1, w1, [tk 3; tk 2].
  assert (H1 : tab1 !! (0, 3) = Some (Production 0 [NT 0; T 2])).
  { vm_compute in E1. injection E1 as <- _. by vm_compute. }
  split_and!; [|apply closedb_closed; by vm_compute|done| |].
  - unfold iteration_order. apply NoDup_Permutation.
    + apply (bool_decide_unpack _). by vm_compute.
    + apply NoDup_elements.
    + intros p. rewrite elem_of_elements. apply (o1_elem g35 o1). { by vm_compute. } { by vm_compute. }
  - unfold sentence, types. simpl. eapply rtc_l.
    { apply (rewrites_intro _ [] (Production 0 [NT 0; T 2]) []). apply in_prods. by vm_compute. }
    simpl. eapply rtc_l; [|apply rtc_refl].
    apply (rewrites_intro _ [] (Production 0 [T 3]) [T 2]). apply in_prods. by vm_compute.
  - intros fuel'. unfold parse.
    assert (parse_ast (g_vocabulary g35) tab1 ([tk 3; tk 2] ++ [tk 1]) fuel' 0 0 = OutOfFuel) as ->; [|done].
    induction fuel' as [|f IH]; [done|].
    cbn [parse_ast]. cbn -[parse_ast lookup]. change (([tk 3; tk 2; tk 1] : list token) !! 0) with (Some (tk 3)).
    cbn -[parse_ast lookup]. rewrite H1. cbn -[parse_ast lookup].
    cbn in IH. by rewrite IH.
Qed.

(** C36: (a) a trailing token, no complaint at all; (b) a mismatch that is only printed. *)
Lemma ex_sentence_types s : sentence (productions ex_g) 0 s ->
  forall t, t ∈ s -> token_type t ∈ ([2; 3; 4; 5] : list nat).
Proof.
  intros H. unfold sentence in H.
  assert (Hinv : forall γ δ, derives (productions ex_g) γ δ ->
    (forall u, T u ∈ γ -> u ∈ ([2; 3; 4; 5] : list nat)) -> forall u, T u ∈ δ -> u ∈ ([2; 3; 4; 5] : list nat)).
  { unfold derives. induction 1 as [γ|γ γ' δ Hs _ IH]; [done|]. intros Hγ. apply IH. clear IH.
    inversion Hs as [a p b Hp Hq1 Hq2]; subst. intros u [Hu|[Hu|Hu]%elem_of_app]%elem_of_app.
    - apply Hγ. apply elem_of_app. by left.
    - pose proof (prods_forall (fun p => forallb (fun i => match i with T u => bool_decide (u ∈ [2; 3; 4; 5]) | NT _ => true end) (right p))
        (productions ex_g) ltac:(by vm_compute) p Hp) as Hb. rewrite forallb_forall in Hb.
      specialize (Hb (T u)). rewrite <- elem_of_list_In in Hb. specialize (Hb Hu). by apply bool_decide_eq_true in Hb.
    - apply Hγ. apply elem_of_app. right. by constructor. }
  intros t Ht. eapply Hinv; [exact H| |].
  { intros u Hu. apply elem_of_list_singleton in Hu. done. } apply elem_of_list_In. unfold types.
  apply (in_map (fun t => T (token_type t)) s t). by apply elem_of_list_In.
Qed.
Lemma c36_refuted :
  exists g order fuel tab v toks fuel' r,
    iteration_order g order /\ closed (nonterminals (g_vocabulary g)) (productions g) /\
    build_table fuel order g = Ret (tab, []) /\
    parse v tab toks fuel' = Ret (r, []) /\
    ~ (exists s t, toks = s ++ [t] /\ token_type t = 1 /\ sentence (productions g) 0 s).
Proof.
  destruct (parse ex_voc ex_tab (map tk [5; 1; 1]) 20) as [[r mm]| |] eqn:E; [|by vm_compute in E..].
  exists ex_g, ex_order, 100, ex_tab, ex_voc, (map tk [5; 1; 1]), 20, r.
  assert (mm = []) as -> by (vm_compute in E; by injection E as _ <-).
  split_and!; [exact ex_order_ok|exact ex_closed|exact ex_table|done|].
  intros (s & t & Heq & Ht & Hs).
  change (map tk [5; 1; 1]) with ([tk 5; tk 1] ++ [tk 1]) in Heq. apply app_inj_tail in Heq as [<- _].
  apply ex_sentence_types with (t := tk 1) in Hs; [|apply elem_of_list_further, elem_of_list_here].
  revert Hs. apply (bool_decide_unpack _). by vm_compute.
Qed.
Lemma c36_mismatch_refuted :
  exists g order fuel tab v toks fuel' r mm,
    iteration_order g order /\ closed (nonterminals (g_vocabulary g)) (productions g) /\
    build_table fuel order g = Ret (tab, []) /\
    parse v tab toks fuel' = Ret (r, mm) /\ mm <> [] /\
    ~ (exists s rest, toks = s ++ rest /\ sentence (productions g) 0 s).
Proof.
  destruct (parse ex_voc ex_tab (map tk [3; 5; 1; 1]) 20) as [[r mm]| |] eqn:E; [|by vm_compute in E..].
  exists ex_g, ex_order, 100, ex_tab, ex_voc, (map tk [3; 5; 1; 1]), 20, r, mm.
  split_and!; [exact ex_order_ok|exact ex_closed|exact ex_table|done| |].
  { vm_compute in E. injection E as _ <-. done. }
  intros (s & rest & Heq & Hs).
  assert (Hk : s = take (length s) (map tk [3; 5; 1; 1])) by (by rewrite Heq, take_app).
  clear E Heq. destruct (length s) as [|[|[|n]]].
  all: first [rewrite Hk in Hs|idtac].
  - (* empty *) 
    assert (Hn : nullable (productions ex_g) [NT 0]) by exact Hs.
    destruct (first_epsb_spec 100 ex_order ex_g 0) as (first & cache & c & E1 & Hc & He); [by vm_compute|].
    destruct (c24_first_exact _ _ _ _ _ ex_order_ok E1) as [_ Hex].
    apply (Hex _ _ Hc) in Hn. congruence.
  - (* ( alone *)
    pose proof (c33_parse_start ex_g ex_order 100 ex_tab ex_voc [tk 3] (tk 1) [] ex_order_ok ex_closed ex_table Hs eq_refl)
      as (p & cs & _ & _ & _ & n & Hn). specialize (Hn (n + 20) ltac:(lia)).
    assert (Hp : parse ex_voc ex_tab ([tk 3] ++ [tk 1]) 20 = Panic) by (by vm_compute).
    rewrite (parse_mono _ _ _ 20) in Hn; [|lia|rewrite Hp; discriminate]. rewrite Hp in Hn. discriminate Hn.
  - (* ( id *)
    pose proof (c33_parse_start ex_g ex_order 100 ex_tab ex_voc [tk 3; tk 5] (tk 1) [] ex_order_ok ex_closed ex_table Hs eq_refl)
      as (p & cs & _ & _ & _ & n & Hn). specialize (Hn (n + 20) ltac:(lia)).
    assert (Hp : parse ex_voc ex_tab ([tk 3; tk 5] ++ [tk 1]) 20 = Panic) by (by vm_compute).
    rewrite (parse_mono _ _ _ 20) in Hn; [|lia|rewrite Hp; discriminate]. rewrite Hp in Hn. discriminate Hn.
  - apply ex_sentence_types with (t := tk 1) in Hs.
    + revert Hs. apply (bool_decide_unpack _). by vm_compute.
    + simpl. apply elem_of_list_further, elem_of_list_further, elem_of_list_here.
Qed.

Lemma c24_first_order_independent g order1 order2 fuel1 fuel2 out1 out2 :
  iteration_order g order1 -> iteration_order g order2 ->
  first_set fuel1 order1 g = Ret out1 -> first_set fuel2 order2 g = Ret out2 -> out1 = out2.
Proof. intros Ho1 Ho2 H1 H2. exact (first_set_unique _ _ _ _ _ _ _ Ho1 Ho2 H1 H2). Qed.

Lemma c26_follow_needs_start g order fuel first :
  0 ∉ nonterminals (g_vocabulary g) -> follow_set fuel order g first = Panic.
Proof. apply follow_set_no_start. Qed.

Lemma c30_order_indep g order1 order2 fuel1 fuel2 tab1 tab2 w :
  iteration_order g order1 -> iteration_order g order2 ->
  closed (nonterminals (g_vocabulary g)) (productions g) ->
  build_table fuel1 order1 g = Ret (tab1, []) -> build_table fuel2 order2 g = Ret (tab2, w) ->
  tab1 = tab2 /\ w = [].
Proof.
  intros Ho1 Ho2 Hcl H1 H2.
  assert (Hll : ll1 (productions g)) by (by eapply (c29_warnings _ _ _ _ _ Ho1 Hcl H1)).
  assert (w = []) as -> by (by eapply (c29_warnings _ _ _ _ _ Ho2 Hcl H2)). split; [|done].
  destruct (build_table_ll1 _ _ _ _ _ Ho1 Hcl Hll H1) as [_ E1].
  destruct (build_table_ll1 _ _ _ _ _ Ho2 Hcl Hll H2) as [_ E2].
  apply map_eq. intros [A t]. apply option_eq. intros p. by rewrite E1, E2.
Qed.

Lemma c38_unambiguous_start g order fuel tab v s p1 cs1 p2 cs2 :
  iteration_order g order -> closed (nonterminals (g_vocabulary g)) (productions g) ->
  build_table fuel order g = Ret (tab, []) ->
  p1 ∈ productions g -> left p1 = 0 -> parses (productions g) v (right p1) s cs1 ->
  p2 ∈ productions g -> left p2 = 0 -> parses (productions g) v (right p2) s cs2 ->
  cs1 = cs2.
Proof.
  intros Ho Hcl Ht Hp1 Hl1 H1 Hp2 Hl2 H2.
  eapply (c38_unambiguous g order fuel tab v 0 s 1 p1 cs1 p2 cs2 Ho Hcl Ht); try assumption.
  right. split; [reflexivity|]. exists []. apply rtc_refl.
Qed.

Lemma ex_reachable : forall p, p ∈ productions ex_g -> reachable (productions ex_g) (left p).
Proof.
  intros p Hp.
  pose proof (prods_forall (fun p => bool_decide (left p = 0 \/ left p = 1 \/ left p = 2))
    (productions ex_g) ltac:(by vm_compute) p Hp) as Hb. apply bool_decide_eq_true in Hb.
  assert (H1 : derives (productions ex_g) [NT 0] [NT 1; NT 2]).
  { apply rtc_once. apply (rewrites_intro _ [] (Production 0 [NT 1; NT 2]) []). apply in_prods. by vm_compute. }
  destruct Hb as [E|[E|E]]; rewrite E.
  - exists [], []. apply rtc_refl.
  - exists [], [NT 2]. exact H1.
  - exists [NT 1], []. exact H1.
Qed.
Lemma ex_tab_24 : ex_tab !! (2, 4) = Some (Production 2 []).
Proof. by vm_compute. Qed.
Lemma g30_warns : exists tab p q w,
  build_table 10 [Production 0 [T 2]; Production 0 [T 2; T 3]] g30 = Ret (tab, (p, q) :: w) /\ p <> q.
Proof.
  destruct (build_table 10 [Production 0 [T 2]; Production 0 [T 2; T 3]] g30) as [[tab w]| |] eqn:E; [|by vm_compute in E..].
  exists tab, (Production 0 [T 2; T 3]), (Production 0 [T 2]), []. split; [|discriminate].
  f_equal. f_equal. vm_compute in E. by injection E as _ <-.
Qed.
Lemma ex_mismatch : exists r j mm,
  parse_ast ex_voc ex_tab (map tk [3; 5; 1; 1]) 20 0 0 = Ret (r, j, mm) /\ mm <> [].
Proof.
  destruct (parse_ast ex_voc ex_tab (map tk [3; 5; 1; 1]) 20 0 0) as [[[r j] mm]| |] eqn:E; [|by vm_compute in E..].
  exists r, j, mm. split; [reflexivity|]. vm_compute in E. by injection E as _ _ <-.
Qed.
