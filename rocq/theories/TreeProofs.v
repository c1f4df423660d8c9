(** TreeProofs.v -- accessors, get_text, walker, visitor. *)
From Verif Require Export SpecTree LexerProofs LexerMain GrammarLemmas GrammarMain.

(** Induction on a tree: the rule children satisfy the claim. *)
Lemma tree_ind (Q : rule_ctx -> Prop) :
  (forall n cs i, (forall r, Rule r ∈ cs -> Q r) -> Q (RuleCtx n cs i)) -> forall r, Q r.
Proof.
  intros H. refine (rule_ctx_rect' (fun a => match a with Rule r => Q r | _ => True end) Q _ _ _ _).
  - done.
  - done.
  - intros r Hr. exact Hr.
  - intros n cs i HF. apply H. intros r Hr. rewrite Forall_forall in HF. exact (HF _ Hr).
Qed.

(** ** C15 *)
Section collect.
  Context {A : Type} (inj : A -> ast) (P : ast -> Prop) `{!forall c, Decision (P c)}.
  Context (f : list A -> ast -> list A).
  Context (Hyes : forall acc a, P (inj a) -> f acc (inj a) = acc ++ [a]).
  Context (Hinj : forall c, P c -> exists a, c = inj a).
  Context (Hno : forall acc c, ~ P c -> f acc c = acc).
  Lemma collect_filter cs acc : map inj (fold_left f cs acc) = map inj acc ++ filter P cs.
  Proof using Hyes Hinj Hno.
    revert acc. induction cs as [|c cs IH]; intros acc; simpl; [by rewrite app_nil_r|].
    rewrite IH. destruct (decide (P c)) as [HP|HP].
    - rewrite filter_cons_True by done. destruct (Hinj c HP) as (a & ->).
      rewrite Hyes by done. rewrite map_app. by rewrite <- app_assoc.
    - rewrite filter_cons_False by done. by rewrite Hno.
  Qed.
End collect.

Lemma c15_terminals r ty :
  map Terminal (get_terminals r ty) = filter (is_terminal_child ty) (children r) /\
  forall i, get_terminal r ty i = get_terminals r ty !! i.
Proof.
  split.
  - unfold get_terminals. rewrite (collect_filter Terminal (is_terminal_child ty)); [done|..].
    + intros acc a (t & [= <-] & E). by rewrite (proj2 (Nat.eqb_eq _ _) E).
    + intros c (t & -> & _). eauto.
    + intros acc [t|?|?] HP; [|done..]. destruct (Nat.eqb_spec (token_type t) ty) as [E|E]; [|done].
      destruct HP. by exists t.
  - intros i. unfold get_terminal. destruct (Nat.ltb_spec i (length (get_terminals r ty))) as [L|L]; [done|].
    symmetry. by apply lookup_ge_None.
Qed.

Lemma c15_errornodes r ty :
  map Error (get_errornodes r ty) = filter (is_error_child ty) (children r) /\
  forall i, get_errornode r ty i = get_errornodes r ty !! i.
Proof.
  split.
  - unfold get_errornodes. rewrite (collect_filter Error (is_error_child ty)); [done|..].
    + intros acc a (t & [= <-] & E). by rewrite (proj2 (Nat.eqb_eq _ _) E).
    + intros c (t & -> & _). eauto.
    + intros acc [?|?|t] HP; [done..|]. destruct (Nat.eqb_spec (token_type t) ty) as [E|E]; [|done].
      destruct HP. by exists t.
  - intros i. unfold get_errornode. destruct (Nat.ltb_spec i (length (get_errornodes r ty))) as [L|L]; [done|].
    symmetry. by apply lookup_ge_None.
Qed.

Lemma c15_rule_contexts r ty :
  map Rule (get_rule_contexts r ty) = filter (is_rule_child ty) (children r) /\
  forall i, get_rule_context r ty i = get_rule_contexts r ty !! i.
Proof.
  split.
  - unfold get_rule_contexts. rewrite (collect_filter Rule (is_rule_child ty)); [done|..].
    + intros acc a (t & [= <-] & E). by rewrite (proj2 (Nat.eqb_eq _ _) E).
    + intros c (t & -> & _). eauto.
    + intros acc [?|t|?] HP; [done| |done]. destruct (Nat.eqb_spec (rule_index t) ty) as [E|E]; [|done].
      destruct HP. by exists t.
  - intros i. unfold get_rule_context. destruct (Nat.ltb_spec i (length (get_rule_contexts r ty))) as [L|L]; [done|].
    symmetry. by apply lookup_ge_None.
Qed.

(** ** C16 *)
Lemma leaves_app a b : leaves (a ++ b) = leaves a ++ leaves b.
Proof. induction a; simpl; [done|]. by rewrite IHa, app_assoc. Qed.

Lemma rule_leaves_eq r : rule_leaves r = leaves (children r).
Proof. destruct r as [n cs i]. simpl. induction cs; simpl; [done|]. by rewrite IHcs. Qed.

Lemma node_of_leaves n r : node_of n r -> exists x y, rule_leaves r = x ++ rule_leaves n ++ y.
Proof.
  induction 1 as [r|n c r Hc _ (x & y & IH)].
  - exists [], []. by rewrite app_nil_r.
  - apply elem_of_list_split in Hc as (l1 & l2 & E).
    exists (leaves l1 ++ x), (y ++ leaves l2).
    rewrite rule_leaves_eq, E, leaves_app. simpl. rewrite IH. by rewrite <- !app_assoc.
Qed.

Lemma get_start_token_spec r :
  (left_edge r -> get_start_token r = head (rule_leaves r) /\ rule_leaves r <> []) /\
  (~ left_edge r -> get_start_token r = None).
Proof.
  induction r as [n cs i HF] using tree_ind. destruct cs as [|[t|r|t] cs].
  - split; [|done]. inversion 1.
  - split; [|intros H; destruct H; constructor]. intros _. done.
  - destruct (HF r) as [H1 H2]; [apply elem_of_list_here|]. split.
    + inversion 1; subst. destruct (H1 ltac:(done)) as [E1 E2].
      rewrite rule_leaves_eq. simpl. rewrite E1. destruct (rule_leaves r); done.
    + intros H. simpl. apply H2. intros HE. apply H. by constructor.
  - split; [|intros H; destruct H; constructor]. intros _. done.
Qed.

Lemma get_stop_token_snoc n cs c i :
  get_stop_token (RuleCtx n (cs ++ [c]) i) =
  match c with Terminal t => Some t | Error t => Some t | Rule r => get_stop_token r end.
Proof.
  simpl. induction cs as [|d cs IH].
  - by destruct c.
  - simpl. destruct (cs ++ [c]) as [|e l] eqn:E; [by destruct cs|].
    rewrite <- IH. by destruct d.
Qed.

Lemma last_app_ne {A} (a b : list A) : b <> [] -> last (a ++ b) = last b.
Proof. intros H. rewrite last_app. destruct (last b) eqn:E; [done|]. by apply last_None in E. Qed.

Lemma get_stop_token_spec r :
  (right_edge r -> get_stop_token r = last (rule_leaves r) /\ rule_leaves r <> []) /\
  (~ right_edge r -> get_stop_token r = None).
Proof.
  induction r as [n cs i HF] using tree_ind. destruct cs as [|c cs _] using rev_ind.
  - split; [|done]. inversion 1; by destruct cs.
  - rewrite get_stop_token_snoc, rule_leaves_eq. simpl. rewrite leaves_app.
    destruct c as [t|r|t].
    + split; [|intros H; destruct H; constructor]. intros _. simpl.
      rewrite last_snoc. split; [done|]. by destruct (leaves cs).
    + destruct (HF r) as [H1 H2]; [set_solver|]. split.
      * inversion 1; match goal with E : _ ++ [_] = _ ++ [_] |- _ => apply app_inj_tail in E as [_ [=]] end; subst.
        destruct (H1 ltac:(done)) as [E1 E2]. simpl. rewrite app_nil_r, last_app_ne by done.
        split; [done|]. intros [_ ?]%app_eq_nil. done.
      * intros H. apply H2. intros HE. apply H. by constructor.
    + split; [|intros H; destruct H; constructor]. intros _. simpl.
      rewrite last_snoc. split; [done|]. by destruct (leaves cs).
Qed.

Lemma left_edge_dec r : left_edge r \/ ~ left_edge r.
Proof.
  induction r as [n cs i HF] using tree_ind. destruct cs as [|[t|r|t] cs].
  - right. inversion 1.
  - left. constructor.
  - destruct (HF r) as [H|H]; [apply elem_of_list_here|left; by constructor|right; by inversion 1].
  - left. constructor.
Qed.
Lemma right_edge_dec r : right_edge r \/ ~ right_edge r.
Proof.
  induction r as [n cs i HF] using tree_ind. destruct cs as [|c cs _] using rev_ind.
  - right. inversion 1; by destruct cs.
  - destruct c as [t|r|t]; [left; constructor| |left; constructor].
    destruct (HF r) as [H|H]; [set_solver|left; by constructor|right].
    inversion 1; match goal with E : _ ++ [_] = _ ++ [_] |- _ => apply app_inj_tail in E as [_ [=]] end; by subst.
Qed.

(** Slicing from the start of an earlier token to the end of a later one. *)
Lemma tokens_slice (ts : list token) input rest p a q1 b q2 :
  tokens_from [] 0 ts -> input = texts ts ++ rest ->
  ts = p ++ a :: q1 ++ b :: q2 ->
  slice_bytes (char_start_index a) (char_stop_index b) input = Some (texts (a :: q1 ++ [b])).
Proof.
  intros Ht -> E.
  destruct (tokens_from_split [] 0 ts p a _ Ht E) as (Ha & _).
  destruct (tokens_from_split [] 0 ts (p ++ a :: q1) b q2 Ht) as (_ & Hb & _).
  { rewrite E. by rewrite <- app_assoc. }
  simpl in Ha, Hb. rewrite Ha, Hb, E.
  replace (texts (p ++ a :: q1) ++ text b) with (texts p ++ texts (a :: q1 ++ [b]))
    by (rewrite (app_comm_cons q1 [b] a), !texts_app, texts_single, <- app_assoc; reflexivity).
  replace (texts (p ++ a :: q1 ++ b :: q2) ++ rest) with (texts p ++ texts (a :: q1 ++ [b]) ++ (texts q2 ++ rest)).
  - apply slice_bytes_app.
  - rewrite (app_comm_cons q1 [b] a), (app_comm_cons q1 (b :: q2) a), (cons_middle b (a :: q1) q2), !texts_app. by rewrite <- !app_assoc.
Qed.
Lemma tokens_slice1 (ts : list token) input rest p a q :
  tokens_from [] 0 ts -> input = texts ts ++ rest -> ts = p ++ a :: q ->
  slice_bytes (char_start_index a) (char_stop_index a) input = Some (text a).
Proof.
  intros Ht -> E.
  destruct (tokens_from_split [] 0 ts p a _ Ht E) as (Ha & Hb & _).
  simpl in Ha, Hb. rewrite Ha, Hb, E.
  rewrite texts_app, texts_cons, <- !app_assoc. apply slice_bytes_app.
Qed.

Lemma sublist_head_last (l ts : list token) a b :
  l `sublist_of` ts -> head l = Some a -> last l = Some b ->
  (a = b /\ exists p q, ts = p ++ a :: q) \/ exists p q1 q2, ts = p ++ a :: q1 ++ b :: q2.
Proof.
  intros Hs Ha Hb. destruct l as [|a' l]; [done|]. injection Ha as ->.
  apply sublist_cons_l in Hs as (k1 & k2 & -> & Hs).
  destruct l as [|b' l _] using rev_ind.
  - left. injection Hb as <-. eauto.
  - right. rewrite app_comm_cons, last_snoc in Hb. injection Hb as ->.
    apply sublist_app_l in Hs as (k3 & k4 & -> & _ & Hs).
    apply sublist_cons_l in Hs as (k5 & k6 & -> & _).
    exists k1, (k3 ++ k5), k6. by rewrite <- app_assoc.
Qed.

Lemma filter_sublist (P : token -> Prop) `{!forall t, Decision (P t)} l : filter P l `sublist_of` l.
Proof. induction l as [|x l IH]; [done|]. rewrite filter_cons. destruct (decide (P x)); by constructor. Qed.

(** The tokens of a scan: those that are not _STOP are a sublist of consecutive tokens of the input. *)
Lemma scan_all_sublist c ws chan fuel toks printed :
  lexer_ok c -> ws <> 1 -> length (input c) + 2 <= fuel ->
  scan_all c ws chan fuel lexer_init = Ret (toks, printed) ->
  exists ts rest, tokens_from [] 0 ts /\ input c = texts ts ++ rest /\
    filter (fun t => token_type t <> 1) toks `sublist_of` ts.
Proof.
  intros Hok Hws Hf H.
  destruct (scan_all_full c ws chan fuel Hok Hws Hf) as (ts & rest & st & Hs & Hin & Hcase).
  destruct (scanned_exact _ _ _ _ Hok Hs Hin) as (_ & Ht & _ & _).
  exists ts, rest. split_and!; [done|done|].
  destruct Hcase as [(_ & _ & E)|(_ & s & [Hs1 _] & _ & _ & _ & _ & E)]; rewrite E in H; injection H as <- _;
    (destruct (chan =? 0); [|apply sublist_nil_l]).
  - etrans; apply filter_sublist.
  - rewrite filter_app, (filter_cons_False _ s) by (by intros []). rewrite filter_nil, app_nil_r.
    etrans; apply filter_sublist.
Qed.

Lemma get_text_cases n input :
  (left_edge n -> right_edge n -> exists a b, head (rule_leaves n) = Some a /\ last (rule_leaves n) = Some b /\
     get_text n input = unwrap (slice_bytes (char_start_index a) (char_stop_index b) input)) /\
  (~ left_edge n \/ ~ right_edge n -> get_text n input = Ret []).
Proof.
  unfold get_text. split.
  - intros Hl Hr. apply get_start_token_spec in Hl as [-> Hne]. apply get_stop_token_spec in Hr as [-> _].
    destruct (rule_leaves n) as [|a l] eqn:E; [done|].
    destruct (last (a :: l)) as [b|] eqn:Eb; [|by apply last_None in Eb]. eauto.
  - intros [H|H].
    + by rewrite (proj2 (get_start_token_spec n) H).
    + rewrite (proj2 (get_stop_token_spec n) H). by destruct (get_start_token n).
Qed.

Lemma node_slice c ws chan fuel toks printed n a b :
  lexer_ok c -> ws <> 1 -> length (input c) + 2 <= fuel ->
  scan_all c ws chan fuel lexer_init = Ret (toks, printed) ->
  rule_leaves n `sublist_of` toks -> Forall (fun t => token_type t <> 1) (rule_leaves n) ->
  head (rule_leaves n) = Some a -> last (rule_leaves n) = Some b ->
  exists x, slice_bytes (char_start_index a) (char_stop_index b) (input c) = Some x.
Proof.
  intros Hok Hws Hf Hsc Hsub Hns Ha Hb.
  destruct (scan_all_sublist _ _ _ _ _ _ Hok Hws Hf Hsc) as (ts & rest & Ht & Hin & Hs).
  assert (Hs' : rule_leaves n `sublist_of` ts).
  { etrans; [|exact Hs]. clear -Hsub Hns. induction Hsub as [|x l1 l2 Hs IH|x l1 l2 Hs IH].
    - done.
    - inversion Hns; subst. rewrite filter_cons_True by done. constructor. by apply IH.
    - destruct (decide (token_type x <> 1)).
      + rewrite filter_cons_True by done. constructor. by apply IH.
      + rewrite filter_cons_False by done. by apply IH. }
  destruct (sublist_head_last _ _ _ _ Hs' Ha Hb) as [[<- (p & q & E)]|(p & q1 & q2 & E)].
  - eexists. by eapply tokens_slice1.
  - eexists. by eapply tokens_slice.
Qed.

Lemma sublist_mid {A} (x y z l : list A) : l = x ++ y ++ z -> y `sublist_of` l.
Proof. intros ->. apply sublist_inserts_l, sublist_inserts_r. done. Qed.

Lemma segment_sublist toks i j : segment toks i j `sublist_of` toks.
Proof. unfold segment. etrans; [apply sublist_take|apply sublist_drop]. Qed.

(** [get_text] never panics on a node of a tree the parser made from the tokens of a text. *)
Lemma c16_get_text c ws chan fuel toks printed v tab fuel' i A root j mm n :
  lexer_ok c -> ws <> 1 -> length (input c) + 2 <= fuel ->
  scan_all c ws chan fuel lexer_init = Ret (toks, printed) ->
  parse_ast v tab toks fuel' i A = Ret (root, j, mm) -> node_of n root ->
  Forall (fun t => token_type t <> 1) (rule_leaves n) ->
  (rule_leaves n = [] \/ (left_edge n /\ right_edge n)) ->
  exists x, get_text n (input c) = Ret x /\ covers (input c) n x.
Proof.
  intros Hok Hws Hf Hsc Hp Hn Hns Hc.
  destruct Hc as [E|[Hl Hr]].
  - exists []. split; [|left; done].
    apply get_text_cases. left. intros Hl. by destruct (proj1 (get_start_token_spec n) Hl).
  - destruct (proj1 (get_text_cases n (input c)) Hl Hr) as (a & b & Ha & Hb & ->).
    apply c37_leaves in Hp as (_ & Hleaves & _).
    destruct (node_of_leaves _ _ Hn) as (x & y & Exy).
    destruct (node_slice c ws chan fuel toks printed n a b) as (z & Hz); try done.
    { etrans; [|apply (segment_sublist toks i j)]. rewrite <- Hleaves. by eapply sublist_mid. }
    exists z. rewrite Hz. split; [done|]. right. eauto.
Qed.

Lemma c16_get_text_empty_edge n input : ~ left_edge n \/ ~ right_edge n -> get_text n input = Ret [].
Proof. apply get_text_cases. Qed.

Lemma c16_get_text_no_panic c ws chan fuel toks printed v tab fuel' i A root j mm n :
  lexer_ok c -> ws <> 1 -> length (input c) + 2 <= fuel ->
  scan_all c ws chan fuel lexer_init = Ret (toks, printed) ->
  parse_ast v tab toks fuel' i A = Ret (root, j, mm) -> node_of n root ->
  Forall (fun t => token_type t <> 1) (rule_leaves n) ->
  get_text n (input c) <> Panic.
Proof.
  intros Hok Hws Hf Hsc Hp Hn Hns.
  destruct (left_edge_dec n) as [Hl|Hl]; [|by rewrite c16_get_text_empty_edge by auto].
  destruct (right_edge_dec n) as [Hr|Hr]; [|by rewrite c16_get_text_empty_edge by auto].
  destruct (c16_get_text c ws chan fuel toks printed v tab fuel' i A root j mm n) as (x & -> & _); eauto.
Qed.

(** Witness: s: opt WORD;  opt: NOTHING | epsilon;  on the input "b". *)
Definition g16 : grammar :=
  Grammar (lit "g") (vrun vocabulary_new [AddTerminal 2 (lit "NOTHING"); AddTerminal 3 (lit "WORD");
    AddNamed 0 (lit "s"); AddNamed 1 (lit "opt")])
    {[ Production 0 [NT 1; T 3]; Production 1 []; Production 1 [T 2] ]}.
Definition o16 : list production := elements (productions g16).
Definition tab16 : table := match build_table 100 o16 g16 with Ret (t, _) => t | _ => ∅ end.
Definition toks16 : list token := match scan_all (ex_lexer (lit "b")) 4 0 10 lexer_init with Ret (t, _) => t | _ => [] end.
Lemma c16_refuted :
  exists c ws fuel toks g order tab fuel' root j,
    lexer_ok c /\ ws <> 1 /\ length (input c) + 2 <= fuel /\
    scan_all c ws 0 fuel lexer_init = Ret (toks, None) /\
    iteration_order g order /\ closed (nonterminals (g_vocabulary g)) (productions g) /\
    build_table fuel order g = Ret (tab, []) /\
    parse_ast (g_vocabulary g) tab toks fuel' 0 0 = Ret (root, j, []) /\
    forall x, covers (input c) root x -> get_text root (input c) = Ret [] /\ x = input c /\ input c <> [].
Proof.
  destruct (parse_ast (g_vocabulary g16) tab16 toks16 20 0 0) as [[[root j] mm]| |] eqn:E; [|by vm_compute in E..].
  assert (mm = []) as -> by (vm_compute in E; by injection E as _ _ <-).
  exists (ex_lexer (lit "b")), 4, 100, toks16, g16, o16, tab16, 20, root, j.
  split_and!; [apply ex_lexer_ok|lia|simpl; lia|by vm_compute|unfold iteration_order, o16; reflexivity| | |done|].
  - apply closedb_closed. by vm_compute.
  - by vm_compute.
  - intros x Hx. vm_compute in E. injection E as <- _.
    destruct Hx as [[Hx _]|(a & b & Ha & Hb & Hx)]; [done|].
    injection Ha as <-. injection Hb as <-. injection Hx as <-. done.
Qed.

(** Witness: s: WORD NOTHING;  on the input "b": the mismatch is printed and _STOP ends up in the tree. *)
Definition g16' : grammar :=
  Grammar (lit "g") (vrun vocabulary_new [AddTerminal 2 (lit "NOTHING"); AddTerminal 3 (lit "WORD");
    AddNamed 0 (lit "s")]) {[ Production 0 [T 3; T 2] ]}.
Definition tab16' : table := match build_table 100 (elements (productions g16')) g16' with Ret (t, _) => t | _ => ∅ end.
Lemma c16_panic_refuted :
  exists c ws fuel toks g order tab fuel' root j mm,
    lexer_ok c /\ ws <> 1 /\ length (input c) + 2 <= fuel /\
    scan_all c ws 0 fuel lexer_init = Ret (toks, None) /\
    iteration_order g order /\ closed (nonterminals (g_vocabulary g)) (productions g) /\
    build_table fuel order g = Ret (tab, []) /\
    parse_ast (g_vocabulary g) tab toks fuel' 0 0 = Ret (root, j, mm) /\
    get_text root (input c) = Panic.
Proof.
  destruct (parse_ast (g_vocabulary g16') tab16' toks16 20 0 0) as [[[root j] mm]| |] eqn:E; [|by vm_compute in E..].
  exists (ex_lexer (lit "b")), 4, 100, toks16, g16', (elements (productions g16')), tab16', 20, root, j, mm.
  split_and!; [apply ex_lexer_ok|lia|simpl; lia|by vm_compute|unfold iteration_order; reflexivity| | |done|].
  - apply closedb_closed. by vm_compute.
  - by vm_compute.
  - vm_compute in E. injection E as <- _ _. by vm_compute.
Qed.

Lemma parses_no_stop P v α w cs :
  parses P v α w cs -> (forall p, p ∈ P -> T 1 ∉ right p) -> T 1 ∉ α ->
  Forall (fun t => token_type t <> 1) w.
Proof.
  induction 1 as [|t α tok w cs Ht _ IH|p α w1 w2 cs1 cs2 Hp _ IH1 _ IH2]; intros HP Hα.
  - constructor.
  - constructor; [|apply IH; [done|]].
    + intros E. apply Hα. rewrite <- Ht, E. apply elem_of_list_here.
    + intros H. apply Hα. by apply elem_of_list_further.
  - apply Forall_app. split; [apply IH1; eauto|apply IH2; [done|]].
    intros H. apply Hα. by apply elem_of_list_further.
Qed.

(** The two hypotheses on the tree discharged: no mismatch, and no rule mentions _STOP. *)
Lemma c16_no_mismatch c ws chan fuel toks printed g order fuel1 tab wn v fuel' i A root j n :
  lexer_ok c -> ws <> 1 -> length (input c) + 2 <= fuel ->
  scan_all c ws chan fuel lexer_init = Ret (toks, printed) ->
  iteration_order g order -> closed (nonterminals (g_vocabulary g)) (productions g) ->
  (forall p, p ∈ productions g -> T 1 ∉ right p) ->
  build_table fuel1 order g = Ret (tab, wn) ->
  parse_ast v tab toks fuel' i A = Ret (root, j, []) -> node_of n root ->
  get_text n (input c) <> Panic /\
  (rule_leaves n = [] \/ (left_edge n /\ right_edge n) ->
   exists x, get_text n (input c) = Ret x /\ covers (input c) n x).
Proof.
  intros Hok Hws Hf Hsc Ho Hcl HP Ht Hp Hn.
  destruct (c32_parse_sound _ _ _ _ _ _ _ _ _ _ _ _ _ Ho Hcl Ht Hp eq_refl) as (_ & _ & p & Hpp & _ & Hpar & _).
  assert (HF : Forall (fun t => token_type t <> 1) (rule_leaves n)).
  { pose proof (parses_no_stop _ _ _ _ _ Hpar HP (HP _ Hpp)) as HF.
    destruct (c37_leaves _ _ _ _ _ _ _ _ _ Hp) as (_ & <- & _) in HF.
    destruct (node_of_leaves _ _ Hn) as (x & y & E). rewrite E in HF.
    by apply Forall_app in HF as [_ [HF _]%Forall_app]. }
  split; [by eapply c16_get_text_no_panic|]. intros Hc. by eapply c16_get_text.
Qed.

(** ** C17 *)
Fixpoint walk_list {S} (l : listener S) (cs : list ast) (s : S) : S :=
  match cs with
  | [] => s
  | Terminal t :: cs' => walk_list l cs' (exit_terminal l t (enter_terminal l t s))
  | Rule r :: cs' => walk_list l cs' (walk l r s)
  | Error t :: cs' => walk_list l cs' (exit_errornode l t (enter_errornode l t s))
  end.
Lemma walk_unfold {S} (l : listener S) r s :
  walk l r s = exit_every_rule l r (l_exit l r (walk_list l (children r) (l_enter l r (enter_every_rule l r s)))).
Proof.
  destruct r as [n cs i]. cbn [walk]. f_equal. f_equal. cbn [children].
  generalize (l_enter l (RuleCtx n cs i) (enter_every_rule l (RuleCtx n cs i) s)).
  induction cs as [|[t|r|t] ds IH]; intros s'; [done|..]; simpl; by rewrite IH.
Qed.

Definition enter_calls (r : rule_ctx) : list call := if rule_index r <=? 8 then [EnterRule (rule_index r) r] else [].
Definition exit_calls (r : rule_ctx) : list call := if rule_index r <=? 8 then [ExitRule (rule_index r) r] else [].
Lemma l_enter_calls {S} (l : listener S) r s : l_enter l r s = fold_left (perform l) (enter_calls r) s.
Proof. destruct r as [n cs i]. unfold l_enter, enter_calls. cbn [rule_index]. by do 9 (destruct i as [|i]; [done|]). Qed.
Lemma l_exit_calls {S} (l : listener S) r s : l_exit l r s = fold_left (perform l) (exit_calls r) s.
Proof. destruct r as [n cs i]. unfold l_exit, exit_calls. cbn [rule_index]. by do 9 (destruct i as [|i]; [done|]). Qed.

Lemma nested_node_intro r body :
  nested_children (children r) body ->
  nested_node r (EnterEvery r :: enter_calls r ++ body ++ exit_calls r ++ [ExitEvery r]).
Proof.
  intros H. unfold enter_calls, exit_calls. destruct (Nat.leb_spec (rule_index r) 8) as [L|L].
  - by apply nested_known.
  - by apply nested_unknown.
Qed.

(** Every listener is driven by the same, properly nested call sequence. *)
Lemma walk_calls r :
  exists calls, nested_node r calls /\
    forall (S : Type) (l : listener S) s, walk l r s = fold_left (perform l) calls s.
Proof.
  induction r as [n cs i IH] using tree_ind. set (r := RuleCtx n cs i).
  assert (exists body, nested_children cs body /\
    forall (S : Type) (l : listener S) s, walk_list l cs s = fold_left (perform l) body s) as (body & Hb & Hw).
  { clear r. induction cs as [|[t|r|t] cs IHcs].
    - exists []. split; [constructor|done].
    - destruct IHcs as (b & Hb & Hw); [intros r Hr; apply IH; by apply elem_of_list_further|].
      exists (EnterTerminal t :: ExitTerminal t :: b). split; [by constructor|]. intros S l s. simpl. apply Hw.
    - destruct IHcs as (b & Hb & Hw); [intros r' Hr; apply IH; by apply elem_of_list_further|].
      destruct (IH r) as (c & Hc & Hwc); [apply elem_of_list_here|].
      exists (c ++ b). split; [by constructor|]. intros S l s. simpl. by rewrite fold_left_app, Hw, Hwc.
    - destruct IHcs as (b & Hb & Hw); [intros r Hr; apply IH; by apply elem_of_list_further|].
      exists (EnterError t :: ExitError t :: b). split; [by constructor|]. intros S l s. simpl. apply Hw. }
  eexists. split; [by apply nested_node_intro|].
  intros S l s. rewrite walk_unfold, l_enter_calls, l_exit_calls. simpl.
  rewrite !fold_left_app. simpl. unfold r. cbn [children]. by rewrite Hw.
Qed.

Lemma recorder_calls calls acc :
  Forall (fun c => match c with EnterRule k _ | ExitRule k _ => k <= 8 | _ => True end) calls ->
  fold_left (perform recorder) calls acc = acc ++ calls.
Proof.
  revert acc. induction calls as [|c calls IH]; intros acc HF; simpl; [by rewrite app_nil_r|].
  inversion HF; subst. rewrite IH by done.
  destruct c as [r|r|k r|k r|t|t|t|t]; simpl; try (by rewrite <- app_assoc).
  - do 9 (destruct k as [|k]; [by simpl; rewrite <- app_assoc|]). lia.
  - do 9 (destruct k as [|k]; [by simpl; rewrite <- app_assoc|]). lia.
Qed.

Scheme nested_node_ind' := Induction for nested_node Sort Prop
with nested_children_ind' := Induction for nested_children Sort Prop.

Lemma nested_known_handlers r calls :
  nested_node r calls ->
  Forall (fun c => match c with EnterRule k _ | ExitRule k _ => k <= 8 | _ => True end) calls.
Proof.
  revert r calls.
  apply (nested_node_ind' (fun r calls _ => Forall (fun c => match c with EnterRule k _ | ExitRule k _ => k <= 8 | _ => True end) calls)
    (fun cs calls _ => Forall (fun c => match c with EnterRule k _ | ExitRule k _ => k <= 8 | _ => True end) calls)); intros.
  - rewrite !Forall_app, !Forall_cons, !Forall_nil. done.
  - rewrite !Forall_app, !Forall_cons, !Forall_nil. done.
  - constructor.
  - by repeat constructor.
  - by repeat constructor.
  - by apply Forall_app.
Qed.

(** C17 *)
Lemma c17_walk r :
  nested_node r (walk recorder r []) /\
  forall (S : Type) (l : listener S) s, walk l r s = fold_left (perform l) (walk recorder r []) s.
Proof.
  destruct (walk_calls r) as (calls & Hn & Hw).
  assert (walk recorder r [] = calls) as ->.
  { rewrite Hw, recorder_calls; [done|]. by eapply nested_known_handlers. }
  done.
Qed.

Lemma opening_unfold r :
  opening_order r = r :: concat (map (fun c => match c with Rule c => opening_order c | _ => [] end) (children r)).
Proof.
  destruct r as [n cs i]. simpl. f_equal. induction cs as [|[t|r|t] cs IH]; simpl; [done|done| |done]. by rewrite IH.
Qed.
Lemma closing_unfold r :
  closing_order r = concat (map (fun c => match c with Rule c => closing_order c | _ => [] end) (children r)) ++ [r].
Proof.
  destruct r as [n cs i]. simpl. f_equal. induction cs as [|[t|r|t] cs IH]; simpl; [done|done| |done]. by rewrite IH.
Qed.
Lemma leaf_nodes_unfold r :
  leaf_nodes r = concat (map (fun c => match c with Rule c => leaf_nodes c | c => [c] end) (children r)).
Proof.
  destruct r as [n cs i]. simpl. induction cs as [|[t|r|t] cs IH]; simpl; [done|..]; by rewrite IH.
Qed.

Lemma c17_projections r calls :
  nested_node r calls ->
  omap (fun c => match c with EnterEvery n => Some n | _ => None end) calls = opening_order r /\
  omap (fun c => match c with ExitEvery n => Some n | _ => None end) calls = closing_order r /\
  omap (fun c => match c with EnterTerminal t => Some (Terminal t) | EnterError t => Some (Error t) | _ => None end) calls = leaf_nodes r /\
  omap (fun c => match c with EnterRule k n => Some (k, n) | _ => None end) calls =
    map (fun n => (rule_index n, n)) (filter (fun n => rule_index n <= 8) (opening_order r)) /\
  omap (fun c => match c with ExitRule k n => Some (k, n) | _ => None end) calls =
    map (fun n => (rule_index n, n)) (filter (fun n => rule_index n <= 8) (closing_order r)).
Proof.
  set (P1 := fun calls (x y : list rule_ctx) (z : list ast) =>
    omap (fun c => match c with EnterEvery n => Some n | _ => None end) calls = x /\
    omap (fun c => match c with ExitEvery n => Some n | _ => None end) calls = y /\
    omap (fun c => match c with EnterTerminal t => Some (Terminal t) | EnterError t => Some (Error t) | _ => None end) calls = z /\
    omap (fun c => match c with EnterRule k n => Some (k, n) | _ => None end) calls =
      map (fun n => (rule_index n, n)) (filter (fun n => rule_index n <= 8) x) /\
    omap (fun c => match c with ExitRule k n => Some (k, n) | _ => None end) calls =
      map (fun n => (rule_index n, n)) (filter (fun n => rule_index n <= 8) y)).
  intros H. change (P1 calls (opening_order r) (closing_order r) (leaf_nodes r)).
  revert r calls H.
  apply (nested_node_ind' (fun r calls _ => P1 calls (opening_order r) (closing_order r) (leaf_nodes r))
    (fun cs calls _ => P1 calls (concat (map (fun c => match c with Rule c => opening_order c | _ => [] end) cs))
        (concat (map (fun c => match c with Rule c => closing_order c | _ => [] end) cs))
        (concat (map (fun c => match c with Rule c => leaf_nodes c | c => [c] end) cs)))).
  - intros r body L Hb (H1 & H2 & H3 & H4 & H5).
    rewrite opening_unfold, closing_unfold, leaf_nodes_unfold. unfold P1.
    rewrite !omap_app, H1, H2, H3, H4, H5. simpl. rewrite !app_nil_r.
    rewrite filter_cons_True, filter_app, filter_cons_True, filter_nil, map_app by done. done.
  - intros r body L Hb (H1 & H2 & H3 & H4 & H5).
    rewrite opening_unfold, closing_unfold, leaf_nodes_unfold. unfold P1.
    rewrite !omap_app, H1, H2, H3, H4, H5. simpl. rewrite !app_nil_r.
    rewrite filter_cons_False, filter_app, (filter_cons_False _ r), filter_nil, app_nil_r by lia. done.
  - unfold P1. done.
  - intros t cs calls _ (H1 & H2 & H3 & H4 & H5). unfold P1. simpl. rewrite <- H3. done.
  - intros t cs calls _ (H1 & H2 & H3 & H4 & H5). unfold P1. simpl. rewrite <- H3. done.
  - intros r cs c1 c2 _ (H1 & H2 & H3 & H4 & H5) _ (I1 & I2 & I3 & I4 & I5). unfold P1. simpl.
    rewrite !omap_app, H1, H2, H3, H4, H5, I1, I2, I3, I4, I5. by rewrite !filter_app, !map_app.
Qed.

Lemma c17_order r :
  omap (fun c => match c with EnterEvery n => Some n | _ => None end) (walk recorder r []) = opening_order r /\
  omap (fun c => match c with ExitEvery n => Some n | _ => None end) (walk recorder r []) = closing_order r /\
  omap (fun c => match c with EnterTerminal t => Some (Terminal t) | EnterError t => Some (Error t) | _ => None end)
    (walk recorder r []) = leaf_nodes r /\
  omap (fun c => match c with EnterRule k n => Some (k, n) | _ => None end) (walk recorder r []) =
    map (fun n => (rule_index n, n)) (filter (fun n => rule_index n <= 8) (opening_order r)) /\
  omap (fun c => match c with ExitRule k n => Some (k, n) | _ => None end) (walk recorder r []) =
    map (fun n => (rule_index n, n)) (filter (fun n => rule_index n <= 8) (closing_order r)).
Proof. apply c17_projections. apply c17_walk. Qed.

(** ** C18 *)
Lemma visit_unfold {S R} (v : visitor S R) r s :
  visit v r s = match v_override v (rule_index r) with Some f => f r s | None => visit_children v r s end.
Proof.
  destruct r as [n cs i]. unfold visit_children. cbn [visit rule_index children].
  destruct (v_override v i); [done|].
  destruct (v_default_result v s) as [[d s0]| |]; [|done|done]. cbn [rbind].
  generalize (RuleCtx n cs i) as r. intros r. revert d s0.
  induction cs as [|c cs IH]; intros acc s1; [done|]. simpl.
  destruct (v_should_visit_next_child v r acc s1) as [[[] s2]| |]; [|done|done|done]. simpl.
  destruct c as [t|c|t]; simpl.
  - destruct (v_terminal v t s2) as [[x s3]| |]; [|done|done]. simpl.
    destruct (v_aggregate_result v acc x s3) as [[y s4]| |]; [|done|done]. simpl. apply IH.
  - destruct (visit v c s2) as [[x s3]| |]; [|done|done]. simpl.
    destruct (v_aggregate_result v acc x s3) as [[y s4]| |]; [|done|done]. simpl. apply IH.
  - destruct (v_errornode v t s2) as [[x s3]| |]; [|done|done]. simpl.
    destruct (v_aggregate_result v acc x s3) as [[y s4]| |]; [|done|done]. simpl. apply IH.
Qed.

Lemma c18_dispatch {S R} (v : visitor S R) r s :
  let self f := match f with Some f => f r s | None => visit_children v r s end in
  (rule_index r = 0 -> visit v r s = self (v_rule_list v)) /\
  (rule_index r = 1 -> visit v r s = self (v_parser_rule v)) /\
  (rule_index r = 2 -> visit v r s = self (v_block v)) /\
  (rule_index r = 3 -> visit v r s = self (v_alternative v)) /\
  (rule_index r = 4 -> visit v r s = self (v_epsilon v)) /\
  (rule_index r = 5 -> visit v r s = self (v_element v)) /\
  (rule_index r = 6 -> visit v r s = self (v_ebnf_suffix v)) /\
  (rule_index r = 7 -> visit v r s = self (v_lexer_rule v)) /\
  (rule_index r = 8 -> visit v r s = self (v_regular v)) /\
  (8 < rule_index r -> visit v r s = visit_children v r s).
Proof.
  intros self. rewrite visit_unfold. split_and!; try (intros ->; reflexivity).
  intros H. replace (v_override v (rule_index r)) with (@None (rule_ctx -> S -> res (R * S))); [done|].
  revert H. generalize (rule_index r) as i. intros i H. do 9 (destruct i as [|i]; [lia|]). done.
Qed.

Lemma rfold_app {A S} (f : S -> A -> res S) l1 l2 s :
  rfold f (l1 ++ l2) s = let! s' := rfold f l1 s in rfold f l2 s'.
Proof. revert s. induction l1 as [|x l1 IH]; intros s; simpl; [done|]. destruct (f s x); simpl; auto. Qed.

Lemma c18_leaves {S R} (v : visitor S R) d agg r s :
  no_overrides v ->
  (forall s, v_default_result v s = Ret (d, s)) ->
  (forall a b s, v_aggregate_result v a b s = Ret (agg a b, s)) ->
  (forall r a s, v_should_visit_next_child v r a s = Ret (true, s)) ->
  (let! (_, s') := visit v r s in Ret s') = rfold (visit_leaf v) (leaf_nodes r) s.
Proof.
  intros Hno Hd Hagg Hsh. revert s. induction r as [n cs i IH] using tree_ind. intros s.
  rewrite visit_unfold, Hno. unfold visit_children. rewrite Hd, leaf_nodes_unfold. cbn [rbind children].
  generalize (RuleCtx n cs i) as r0. clear Hd. revert s d.
  induction cs as [|c cs IHcs]; intros s acc r0; [done|]. simpl. rewrite Hsh. cbn [rbind].
  rewrite rfold_app. destruct c as [t|c|t]; simpl.
  - destruct (v_terminal v t s) as [[x s1]| |]; [|done|done]. simpl. rewrite Hagg. simpl.
    apply IHcs. intros r Hr. apply IH. by apply elem_of_list_further.
  - rewrite <- (IH c (elem_of_list_here _ _)). destruct (visit v c s) as [[x s1]| |]; [|done|done]. simpl. rewrite Hagg. simpl.
    apply IHcs. intros r Hr. apply IH. by apply elem_of_list_further.
  - destruct (v_errornode v t s) as [[x s1]| |]; [|done|done]. simpl. rewrite Hagg. simpl.
    apply IHcs. intros r Hr. apply IH. by apply elem_of_list_further.
Qed.

Section c18.
  Context {R : Type} (v : visitor (list ast) R) (d : R) (agg : R -> R -> R) (b : rule_ctx -> R -> bool) (vt ve : token -> R).
  Context (Hno : no_overrides v)
    (Hd : forall s, v_default_result v s = Ret (d, s))
    (Hagg : forall x y s, v_aggregate_result v x y s = Ret (agg x y, s))
    (Hsh : forall r x s, v_should_visit_next_child v r x s = Ret (b r x, s))
    (Hvt : forall t s, v_terminal v t s = Ret (vt t, s ++ [Terminal t]))
    (Hve : forall t s, v_errornode v t s = Ret (ve t, s ++ [Error t])).

  Lemma c18_loop (val : ast -> R) (seen : ast -> list ast) r cs acc :
    (forall t, val (Terminal t) = vt t) -> (forall t, val (Error t) = ve t) ->
    (forall t, seen (Terminal t) = [Terminal t]) -> (forall t, seen (Error t) = [Error t]) ->
    (forall r', Rule r' ∈ cs -> forall s, visit v r' s = Ret (val (Rule r'), s ++ seen (Rule r'))) ->
    exists k, k <= length cs /\
      (forall j, j < k -> b r (folded agg acc val (take j cs)) = true) /\
      (k < length cs -> b r (folded agg acc val (take k cs)) = false) /\
      forall s, visit_loop v (visit v) r cs acc s =
        Ret (folded agg acc val (take k cs), s ++ concat (map seen (take k cs))).
  Proof using Hagg Hsh Hvt Hve.
    intros Hv1 Hv2 Hs1 Hs2. revert acc. induction cs as [|c cs IH]; intros acc Hr.
    - exists 0. split_and!; simpl; [lia|lia|lia|]. intros s. by rewrite app_nil_r.
    - destruct (b r acc) eqn:Eb.
      + destruct (IH (agg acc (val c))) as (k & Hk & H1 & H2 & H3).
        { intros r' Hr'. apply Hr. by apply elem_of_list_further. }
        exists (S k). split_and!.
        * simpl; lia.
        * intros [|j] Hj; [done|]. apply (H1 j). lia.
        * simpl. intros Hk'. apply H2. lia.
        * intros s. simpl. rewrite Hsh, Eb. cbn [rbind].
          assert ((match c with
                     | Terminal t => v_terminal v t s
                     | Rule c0 => visit v c0 s
                     | Error t => v_errornode v t s
                     end) = Ret (val c, s ++ seen c)) as ->.
          { destruct c as [t|r'|t]; [by rewrite Hvt, Hv1, Hs1|apply Hr, elem_of_list_here|by rewrite Hve, Hv2, Hs2]. }
          cbn [rbind]. rewrite Hagg. cbn [rbind]. rewrite H3. by rewrite <- app_assoc.
      + exists 0. split_and!; [lia|lia|done|]. intros s. simpl. rewrite Hsh, Eb. cbn [rbind].
        by rewrite app_nil_r.
  Qed.

  Lemma c18_exists r : exists x y, forall s, visit v r s = Ret (x, s ++ y).
  Proof using Hno Hd Hagg Hsh Hvt Hve.
    induction r as [n cs i IH] using tree_ind.
    set (val := fun a => match a with Terminal t => vt t | Error t => ve t
      | Rule r => match visit v r [] with Ret (x, _) => x | _ => d end end).
    set (seen := fun a => match a with Terminal t => [Terminal t] | Error t => [Error t]
      | Rule r => match visit v r [] with Ret (_, y) => y | _ => [] end end).
    destruct (c18_loop val seen (RuleCtx n cs i) cs d) as (k & _ & _ & _ & H); [done..| |].
    { intros r' Hr' s. destruct (IH r' Hr') as (x & y & E). unfold val, seen. rewrite !E. done. }
    eexists _, _. intros s. rewrite visit_unfold, Hno. unfold visit_children. rewrite Hd. cbn [rbind children]. apply H.
  Qed.

  Lemma c18_fold :
    exists (val : ast -> R) (seen : ast -> list ast) (cut : rule_ctx -> nat),
      (forall r s, visit v r s = Ret (val (Rule r), s ++ seen (Rule r))) /\
      (forall t, val (Terminal t) = vt t /\ seen (Terminal t) = [Terminal t]) /\
      (forall t, val (Error t) = ve t /\ seen (Error t) = [Error t]) /\
      (forall r, val (Rule r) = folded agg d val (take (cut r) (children r)) /\
         seen (Rule r) = concat (map seen (take (cut r) (children r))) /\
         cut r <= length (children r) /\
         (forall j, j < cut r -> b r (folded agg d val (take j (children r))) = true) /\
         (cut r < length (children r) -> b r (folded agg d val (take (cut r) (children r))) = false)).
  Proof using Hno Hd Hagg Hsh Hvt Hve.
    set (val := fun a => match a with Terminal t => vt t | Error t => ve t
      | Rule r => match visit v r [] with Ret (x, _) => x | _ => d end end).
    set (seen := fun a => match a with Terminal t => [Terminal t] | Error t => [Error t]
      | Rule r => match visit v r [] with Ret (_, y) => y | _ => [] end end).
    assert (Hval : forall r s, visit v r s = Ret (val (Rule r), s ++ seen (Rule r))).
    { intros r s. destruct (c18_exists r) as (x & y & E). unfold val, seen. rewrite !E. done. }
    set (cut := fun r =>
      (fix go (cs : list ast) (acc : R) : nat :=
         match cs with [] => 0 | c :: cs' => if b r acc then S (go cs' (agg acc (val c))) else 0 end) (children r) d).
    exists val, seen, cut. split_and!; [done|done|done|].
    intros r.
    destruct (c18_loop val seen r (children r) d) as (k & Hk & H1 & H2 & H3); [done..|].
    assert (cut r = k) as ->.
    { clear Hval H3. unfold cut. clear cut. clearbody val. clear -Hk H1 H2. revert d k Hk H1 H2.
      induction (children r) as [|c cs IH]; intros d k Hk H1 H2; [simpl in Hk; lia|].
      destruct k as [|k].
      - by rewrite (H2 ltac:(simpl; lia) : b r d = false).
      - rewrite (H1 0 ltac:(lia) : b r d = true). f_equal. apply IH.
        + simpl in Hk. lia.
        + intros j Hj. apply (H1 (S j)). lia.
        + intros Hl. apply H2. simpl. lia. }
    pose proof (Hval r []) as E. rewrite visit_unfold, Hno in E. unfold visit_children in E.
    rewrite Hd in E. cbn [rbind] in E. rewrite H3 in E. injection E as E1 E2.
    split_and!; [done|done|done|done|done].
  Qed.
End c18.

Lemma c18_visit_children {R} (v : visitor (list ast) R) d agg b vt ve :
  no_overrides v ->
  (forall s, v_default_result v s = Ret (d, s)) ->
  (forall x y s, v_aggregate_result v x y s = Ret (agg x y, s)) ->
  (forall r x s, v_should_visit_next_child v r x s = Ret (b r x, s)) ->
  (forall t s, v_terminal v t s = Ret (vt t, s ++ [Terminal t])) ->
  (forall t s, v_errornode v t s = Ret (ve t, s ++ [Error t])) ->
  exists (val : ast -> R) (seen : ast -> list ast) (cut : rule_ctx -> nat),
    (forall r s, visit v r s = Ret (val (Rule r), s ++ seen (Rule r))) /\
    (forall t, val (Terminal t) = vt t /\ seen (Terminal t) = [Terminal t]) /\
    (forall t, val (Error t) = ve t /\ seen (Error t) = [Error t]) /\
    (forall r, val (Rule r) = folded agg d val (take (cut r) (children r)) /\
       seen (Rule r) = concat (map seen (take (cut r) (children r))) /\
       cut r <= length (children r) /\
       (forall j, j < cut r -> b r (folded agg d val (take j (children r))) = true) /\
       (cut r < length (children r) -> b r (folded agg d val (take (cut r) (children r))) = false)).
Proof. apply c18_fold. Qed.

(** The leaves in document order are the leaf tokens. *)
Lemma c18_leaf_tokens r :
  rule_leaves r = omap (fun a => match a with Terminal t | Error t => Some t | Rule _ => None end) (leaf_nodes r).
Proof.
  induction r as [n cs i IH] using tree_ind. rewrite rule_leaves_eq, leaf_nodes_unfold. cbn [children].
  induction cs as [|c cs IHcs]; [done|]. simpl. rewrite omap_app, <- IHcs by (intros r Hr; apply IH; by apply elem_of_list_further).
  f_equal. destruct c as [t|c|t]; simpl; [done| |done]. apply IH. apply elem_of_list_here.
Qed.

(** A tree for the examples: element ( RULE_REF ebnf_suffix ( STAR ) ) with an error leaf and an unknown node. *)
Definition ex_tree : rule_ctx :=
  RuleCtx (lit "element") [Terminal (tk 7); Rule (RuleCtx (lit "ebnf_suffix") [Terminal (tk 11); Error (tk 12)] 6);
    Rule (RuleCtx (lit "other") [] 42); Terminal (tk 7)] 5.
Lemma ex_tree_calls : length (walk recorder ex_tree []) = 18.
Proof. done. Qed.
Lemma ex_tree_edges : left_edge ex_tree /\ right_edge ex_tree /\ ~ left_edge (RuleCtx (lit "s") [Rule (RuleCtx (lit "opt") [] 1); Terminal (tk 3)] 0).
Proof.
  split_and!; [constructor| |].
  - exact (right_terminal (lit "element") (tk 7) [_; _; _] 5).
  - inversion 1 as [| |? ? ? ? H1]; subst. inversion H1.
Qed.
