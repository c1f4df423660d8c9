(** PageProofs.v -- C58, C59: the page main writes. *)
From Verif Require Export SpecPage Parser2Html BootstrapProofs HtmlProofs JsReadProofs.

(** *** Independence of hashing *)
Lemma main_any nd s : exists n out, out <> OutOfFuel /\ forall order fuel, iteration_order shipped order -> n <= fuel ->
  main_run nd order fuel syntaxis2_json s = out.
Proof.
  destruct (c44_total nd shipped (rules_of shipped_tree) shipped_order s shipped_load shipped_order_ok) as [n Hn].
  destruct shipped_table_returns as [n1 Htab].
  exists (Nat.max n n1), (main_run nd shipped_order n syntaxis2_json s). split; [apply (Hn n (le_n _))|].
  intros order fuel Ho Hf. rewrite <- (proj2 (Hn fuel ltac:(lia))). unfold main_run. rewrite shipped_load. cbn [rbind].
  rewrite (Htab order fuel Ho), (Htab shipped_order fuel shipped_order_ok) by lia. reflexivity.
Qed.
Lemma c58_deterministic nd g d s : load_ast syntaxis2_json = Ret (g, d) ->
  exists n out, out <> OutOfFuel /\ forall order fuel, iteration_order g order -> n <= fuel ->
    main_page nd order fuel syntaxis2_json s = out.
Proof.
  intros Hl. apply shipped_load_inv in Hl as <-. destruct (main_any nd s) as (n & out & Hne & H).
  exists n, (let! (r, _, _, _) := out in Ret (page (lit "parser") r)). split.
  - by destruct out as [[[[r w] rest] mm]| |].
  - intros order fuel Ho Hf. unfold main_page. by rewrite (H order fuel Ho Hf).
Qed.

Definition clean_run (f : rule_ctx -> bool) (x : res (rule_ctx * list (production * production) * option str * list mismatch)) : bool :=
  match x with Ret (r, [], None, []) => f r | _ => false end.
Lemma clean_run_ret f x : clean_run f x = true -> exists r, x = Ret (r, [], None, []) /\ f r = true.
Proof. unfold clean_run. destruct x as [[[[r [|]] [|]] [|]]| |]; intros H; try discriminate H. by exists r. Qed.
Lemma main_input_page nd : exists r, main_run nd shipped_order 3000 syntaxis2_json main_input = Ret (r, [], None, []) /\
  bool_decide (page (lit "parser") r = parser2_html) = true.
Proof. apply (clean_run_ret (fun r => bool_decide (page (lit "parser") r = parser2_html))). vm_compute. reflexivity. Qed.

Lemma main_run_up nd : exists n, forall order f f' s x, iteration_order shipped order ->
  main_run nd order f syntaxis2_json s = Ret x -> f <= f' -> n <= f' -> main_run nd order f' syntaxis2_json s = Ret x.
Proof.
  destruct shipped_table_returns as [n Htab]. exists n. intros order f f' s x Ho H Hf Hn. unfold main_run in H |- *.
  rewrite shipped_load in H |- *. cbn [rbind] in H |- *. rewrite (Htab order f' Ho Hn).
  destruct (build_table f order shipped) as [[tab w]| |] eqn:Et; cbn [rbind] in H |- *; [|discriminate H..].
  destruct (shipped_table_any _ _ _ _ Ho Et) as [-> ->].
  destruct (v1_lexer nd s) as [c| |] eqn:Ec; cbn [rbind] in H |- *; [|discriminate H..].
  destruct (scan_all c 15 0 f lexer_init) as [[toks rest]| |] eqn:Es; cbn [rbind] in H; [|discriminate H..].
  rewrite (scan_all_mono _ _ _ f f' _ _ Hf Es). cbn [rbind]. unfold parse in H |- *.
  destruct (parse_ast (g_vocabulary shipped) shipped_table toks f 0 0) as [[[r j] mm]| |] eqn:Ep; cbn [rbind] in H; [|discriminate H..].
  rewrite (parse_ast_mono _ _ _ f f' _ _ Hf), Ep; [exact H|rewrite Ep; discriminate].
Qed.

Lemma c58_committed nd g d : load_ast syntaxis2_json = Ret (g, d) ->
  exists n, forall order fuel, iteration_order g order -> n <= fuel ->
    main_page nd order fuel syntaxis2_json main_input = Ret parser2_html.
Proof.
  intros Hl. apply shipped_load_inv in Hl as <-. destruct (main_any nd main_input) as (n & out & Hne & H).
  destruct (main_run_up nd) as [m Hm]. exists (Nat.max n m). intros order fuel Ho Hf. unfold main_page. rewrite (H order fuel Ho ltac:(lia)).
  destruct (main_input_page nd) as (r & E3 & Hp). revert E3 Hp. generalize 3000. intros k E3 Hp.
  pose proof (Hm shipped_order k (Nat.max (Nat.max n m) k) main_input _ shipped_order_ok E3 ltac:(lia) ltac:(lia)) as E4.
  rewrite (H shipped_order (Nat.max (Nat.max n m) k) shipped_order_ok ltac:(lia)) in E4. rewrite E4. cbn [rbind].
  apply bool_decide_eq_true in Hp. by rewrite Hp.
Qed.

(** *** Reading the page back *)
Lemma lf_ends_app a b : (forall b', b <> c_lf :: b') \/ (forall a', a <> a' ++ [c_cr]) -> lf_ends (a ++ b) = lf_ends a ++ lf_ends b.
Proof.
  induction a as [|c a IH]; intros H; [done|].
  assert (lf_ends (a ++ b) = lf_ends a ++ lf_ends b) as E.
  { apply IH. destruct H as [H|H]; [by left|right]. intros a' ->. by apply (H (c :: a')). }
  cbn [app lf_ends]. destruct (N.eqb_spec c c_cr) as [->|Hc]; [|by rewrite E].
  destruct a as [|e a].
  - cbn [app]. destruct b as [|e b]; [done|]. destruct (N.eqb_spec e c_lf) as [->|He]; [|done].
    destruct H as [H|H]; [by destruct (H b)|by destruct (H [])].
  - change ((e :: a) ++ b) with (e :: (a ++ b)) in *. rewrite E. by destruct (N.eqb_spec e c_lf).
Qed.
Lemma lf_id s : c_cr ∉ s -> lf_ends s = s.
Proof.
  induction s as [|c s IH]; intros H; [done|]. apply not_elem_of_cons in H as [Hc H]. cbn [lf_ends].
  rewrite (proj2 (N.eqb_neq c c_cr)) by congruence. by rewrite IH.
Qed.
Lemma lf_const_app k s : c_cr ∉ k -> lf_ends (k ++ s) = k ++ lf_ends s.
Proof. intros H. rewrite lf_ends_app; [by rewrite lf_id|]. right. intros a ->. apply H. rewrite elem_of_app. right. by apply elem_of_list_singleton. Qed.
Lemma lf_cr s : lf_ends (c_cr :: s) = match s with e :: _ => if (e =? c_lf)%N then lf_ends s else c_lf :: lf_ends s | [] => [c_lf] end.
Proof. reflexivity. Qed.
Lemma lf_escape s : lf_ends (escape s) = escape (lf_ends s).
Proof.
  induction s as [|c s IH]; [done|]. rewrite escape_cons.
  destruct (decide (c = c_cr)) as [->|Hc].
  - assert (esc c_cr = [c_cr]) as -> by done. cbn [app]. rewrite !lf_cr. destruct s as [|e s]; [done|].
    assert (forall x, escape (c_lf :: x) = c_lf :: escape x) as El by done.
    destruct (decide (e = c_lf)) as [->|He].
    + rewrite El in IH |- *. rewrite (N.eqb_refl c_lf). exact IH.
    + rewrite (proj2 (N.eqb_neq e c_lf) He), El, <- IH.
      assert (exists x y, escape (e :: s) = x :: y /\ x <> c_lf) as (x & y & E & Hx).
      { rewrite escape_cons. unfold esc. destruct (e =? c_backslash)%N; [cbn; eauto|]. destruct (e =? c_backquote)%N; [cbn; eauto|]. cbn. eauto. }
      rewrite E. by rewrite (proj2 (N.eqb_neq x c_lf) Hx).
  - assert (lf_ends (c :: s) = c :: lf_ends s) as ->. { cbn [lf_ends]. by rewrite (proj2 (N.eqb_neq c c_cr) Hc). }
    rewrite lf_const_app, escape_cons, IH; [done|]. unfold esc.
    destruct (N.eqb_spec c c_backslash) as [->|]; [|destruct (N.eqb_spec c c_backquote) as [->|]]; cbn [app]; set_solver.
Qed.
Lemma lf_quoted k s t : c_cr ∉ k -> lf_ends (k ++ c_backquote :: escape s ++ c_backquote :: t) = k ++ c_backquote :: escape (lf_ends s) ++ c_backquote :: lf_ends t.
Proof.
  intros Hk. rewrite lf_const_app by done. f_equal.
  change (c_backquote :: escape s ++ c_backquote :: t) with ([c_backquote] ++ escape s ++ c_backquote :: t).
  rewrite lf_const_app by (apply (bool_decide_unpack _); by vm_compute). cbn [app]. f_equal.
  rewrite lf_ends_app by (left; discriminate). rewrite lf_escape. done.
Qed.
Ltac no_cr := apply (bool_decide_unpack _); by vm_compute.
Definition lf_child (c : ast) : ast := match c with Terminal t => Terminal (lf_token t) | Rule c => Rule (lf_tree c) | Error t => Error (lf_token t) end.
Lemma lf_leaf t u : lf_ends (dump_leaf t ++ u) = dump_leaf (lf_token t) ++ lf_ends u.
Proof.
  assert (forall t u, dump_leaf t ++ u = lit "{ name:" ++ c_backquote :: escape (token_name t) ++ c_backquote ::
    (lit ", text: " ++ c_backquote :: escape (text t) ++ c_backquote :: (lit "}" ++ u))) as E.
  { intros x v. unfold dump_leaf. rewrite <- !app_assoc. reflexivity. }
  rewrite !E, lf_quoted by no_cr. rewrite lf_quoted by no_cr. rewrite lf_const_app by no_cr. done.
Qed.
Lemma dump_split n cs i u : dump (RuleCtx n cs i) ++ u = lit "{ name:" ++ c_backquote :: escape n ++ c_backquote ::
  ((lit ",id: `" ++ usize_to_string i ++ lit "`, children:[") ++ (concat (map (fun c => dump_child c ++ lit ",") cs) ++ (lit "],}" ++ u))).
Proof. rewrite dump_unfold, <- !app_assoc. reflexivity. Qed.
Lemma usize_no c i : (c < 48 \/ 57 < c)%N -> c ∉ usize_to_string i.
Proof.
  intros Hc H. pose proof (uint_str_digits (Nat.to_uint i)) as HF. rewrite Forall_forall in HF. apply HF in H. lia.
Qed.
Lemma lf_dump : forall c u, lf_ends (dump_child c ++ u) = dump_child (lf_child c) ++ lf_ends u.
Proof.
  refine (ast_rect' _ (fun r => forall u, lf_ends (dump r ++ u) = dump (lf_tree r) ++ lf_ends u) _ _ _ _).
  - apply lf_leaf.
  - apply lf_leaf.
  - intros r H. exact H.
  - intros n cs i HF u. change (lf_tree (RuleCtx n cs i)) with (RuleCtx (lf_ends n) (map lf_child cs) i). rewrite !dump_split.
    rewrite lf_quoted by no_cr. f_equal. f_equal. f_equal. f_equal. rewrite lf_const_app.
    2:{ rewrite !elem_of_app. intros [H|[H|H]]; [revert H; no_cr| |revert H; no_cr]. revert H. apply usize_no. unfold c_cr. lia. }
    f_equal. transitivity (concat (map (fun c => dump_child c ++ lit ",") (map lf_child cs)) ++ lf_ends (lit "],}" ++ u)).
    + generalize (lit "],}" ++ u). clear -HF. induction HF as [|c cs Hc HF IH]; intros v; [done|]. cbn [map concat].
      rewrite <- !app_assoc, Hc. f_equal. rewrite lf_const_app by no_cr. f_equal. apply IH.
    + reflexivity.
Qed.
Lemma lf_script r u : lf_ends (script r ++ u) = script (lf_tree r) ++ lf_ends u.
Proof.
  unfold script. rewrite <- !app_assoc. rewrite lf_const_app by no_cr. f_equal.
  pose proof (lf_dump (Rule r) (lit ";" ++ u)) as E. cbn [dump_child lf_child] in E. rewrite E. reflexivity.
Qed.

(** *** U+0000 *)
Definition nul_token (t : token) : token :=
  Token (token_type t) (map replace_nul (token_name t)) (start t) (stop t) (channel t) (map replace_nul (text t)) (token_index t) (char_start_index t) (char_stop_index t).
Fixpoint nul_tree (r : rule_ctx) : rule_ctx :=
  match r with
  | RuleCtx n cs i => RuleCtx (map replace_nul n) (map (fun c => match c with Terminal t => Terminal (nul_token t) | Rule c => Rule (nul_tree c) | Error t => Error (nul_token t) end) cs) i
  end.
Definition nul_child (c : ast) : ast := match c with Terminal t => Terminal (nul_token t) | Rule c => Rule (nul_tree c) | Error t => Error (nul_token t) end.
Lemma nul_id s : c_nul ∉ s -> map replace_nul s = s.
Proof.
  induction s as [|c s IH]; intros H; [done|]. apply not_elem_of_cons in H as [Hc H]. cbn [map]. rewrite IH by done. f_equal.
  unfold replace_nul. by rewrite (proj2 (N.eqb_neq c c_nul)) by congruence.
Qed.
Lemma nul_free s : c_nul ∉ map replace_nul s.
Proof.
  intros H. apply elem_of_list_fmap in H as (c & H & _). unfold replace_nul in H. destruct (N.eqb_spec c c_nul); [discriminate H|congruence].
Qed.
Lemma nul_escape s : map replace_nul (escape s) = escape (map replace_nul s).
Proof.
  induction s as [|c s IH]; [done|]. rewrite escape_cons, map_app, IH. cbn [map]. rewrite escape_cons. f_equal.
  unfold esc, replace_nul. destruct (N.eqb_spec c c_nul) as [->|H]; [done|].
  destruct (N.eqb_spec c c_backslash) as [->|]; [done|]. destruct (N.eqb_spec c c_backquote) as [->|]; [done|].
  cbn [map]. by rewrite (proj2 (N.eqb_neq c c_nul) H).
Qed.
Lemma nul_quoted k s t : c_nul ∉ k -> map replace_nul (k ++ c_backquote :: escape s ++ c_backquote :: t) =
  k ++ c_backquote :: escape (map replace_nul s) ++ c_backquote :: map replace_nul t.
Proof. intros Hk. rewrite map_app, nul_id by done. cbn [map]. rewrite map_app, nul_escape. reflexivity. Qed.
Lemma nul_leaf t u : map replace_nul (dump_leaf t ++ u) = dump_leaf (nul_token t) ++ map replace_nul u.
Proof.
  assert (forall t u, dump_leaf t ++ u = lit "{ name:" ++ c_backquote :: escape (token_name t) ++ c_backquote ::
    (lit ", text: " ++ c_backquote :: escape (text t) ++ c_backquote :: (lit "}" ++ u))) as E.
  { intros x v. unfold dump_leaf. rewrite <- !app_assoc. reflexivity. }
  rewrite !E, nul_quoted by no_cr. rewrite nul_quoted by no_cr. reflexivity.
Qed.
Lemma nul_dump : forall c u, map replace_nul (dump_child c ++ u) = dump_child (nul_child c) ++ map replace_nul u.
Proof.
  refine (ast_rect' _ (fun r => forall u, map replace_nul (dump r ++ u) = dump (nul_tree r) ++ map replace_nul u) _ _ _ _).
  - apply nul_leaf.
  - apply nul_leaf.
  - intros r H. exact H.
  - intros n cs i HF u. change (nul_tree (RuleCtx n cs i)) with (RuleCtx (map replace_nul n) (map nul_child cs) i). rewrite !dump_split.
    rewrite nul_quoted by no_cr. f_equal. f_equal. f_equal. f_equal. rewrite map_app, nul_id.
    2:{ rewrite !elem_of_app. intros [H|[H|H]]; [revert H; no_cr| |revert H; no_cr]. revert H. apply usize_no. unfold c_nul. lia. }
    f_equal. transitivity (concat (map (fun c => dump_child c ++ lit ",") (map nul_child cs)) ++ map replace_nul (lit "],}" ++ u)).
    + generalize (lit "],}" ++ u). clear -HF. induction HF as [|c cs Hc HF IH]; intros v; [done|]. cbn [map concat].
      rewrite <- !app_assoc, Hc. f_equal. rewrite map_app, nul_id by no_cr. f_equal. apply IH.
    + reflexivity.
Qed.

(** *** Trees and their labels *)
Section relabel.
  Context (f : str -> str) (ftok : token -> token) (ftree : rule_ctx -> rule_ctx).
  Definition relabel_child (c : ast) : ast := match c with Terminal t => Terminal (ftok t) | Rule c => Rule (ftree c) | Error t => Error (ftok t) end.
  Context (Htok : forall t, token_labels (ftok t) = map f (token_labels t)).
  Context (Hid : forall t, f (token_name t) = token_name t -> f (text t) = text t -> ftok t = t).
  Context (Htree : forall n cs i, ftree (RuleCtx n cs i) = RuleCtx (f n) (map relabel_child cs) i).
  Lemma relabel_labels r : labels (ftree r) = map f (labels r).
  Proof using Htok Htree.
    revert r. refine (rule_ctx_rect' (fun c => child_labels_list (relabel_child c) = map f (child_labels_list c)) _ _ _ _ _).
    - apply Htok.
    - apply Htok.
    - intros r H. exact H.
    - intros n cs i HF. rewrite Htree, !labels_unfold. cbn [map]. f_equal. rewrite concat_map, !map_map. f_equal.
      apply map_ext_Forall. exact HF.
  Qed.
  Lemma relabel_id r : (forall s, s ∈ labels r -> f s = s) -> ftree r = r.
  Proof using Hid Htree.
    revert r. refine (rule_ctx_rect' (fun c => (forall s, s ∈ child_labels_list c -> f s = s) -> relabel_child c = c) _ _ _ _ _).
    - intros t H. cbn. f_equal. apply Hid; apply H; unfold child_labels_list, token_labels; [apply elem_of_list_here|apply elem_of_list_further, elem_of_list_here].
    - intros t H. cbn. f_equal. apply Hid; apply H; unfold child_labels_list, token_labels; [apply elem_of_list_here|apply elem_of_list_further, elem_of_list_here].
    - intros r H Hs. cbn. f_equal. apply H. exact Hs.
    - intros n cs i HF Hs. rewrite Htree. rewrite labels_unfold in Hs. rewrite (Hs n) by apply elem_of_list_here. f_equal.
      assert (forall s, s ∈ concat (map child_labels_list cs) -> f s = s) as Hs' by (intros s H; apply Hs; by apply elem_of_list_further). clear Hs.
      induction HF as [|c cs Hc HF IH]; [done|]. cbn [map concat] in Hs' |- *. f_equal.
      + apply Hc. intros s H. apply Hs'. apply elem_of_app. by left.
      + apply IH. intros s H. apply Hs'. apply elem_of_app. by right.
  Qed.
End relabel.
Lemma lf_labels r : labels (lf_tree r) = map lf_ends (labels r).
Proof. by apply (relabel_labels lf_ends lf_token). Qed.
Lemma lf_tree_id r : (forall s, s ∈ labels r -> lf_ends s = s) -> lf_tree r = r.
Proof. apply (relabel_id lf_ends lf_token); [|done]. intros [] H1 H2. unfold lf_token. cbn in *. by rewrite H1, H2. Qed.
Lemma nul_labels r : labels (nul_tree r) = map (map replace_nul) (labels r).
Proof. by apply (relabel_labels (map replace_nul) nul_token). Qed.
Lemma nul_tree_id r : (forall s, s ∈ labels r -> map replace_nul s = s) -> nul_tree r = r.
Proof. apply (relabel_id (map replace_nul) nul_token); [|done]. intros [] H1 H2. unfold nul_token. cbn in *. by rewrite H1, H2. Qed.

Lemma js_labels : forall r r', tree_js r = tree_js r' -> labels r = labels r'.
Proof.
  assert (forall t t', token_js t = token_js t' -> token_labels t = token_labels t') as Ht.
  { intros t t' H. unfold token_js in H. injection H as H1 H2. unfold token_labels. by rewrite H1, H2. }
  refine (rule_ctx_rect' (fun c => forall c', child_js c = child_js c' -> child_labels_list c = child_labels_list c') _ _ _ _ _).
  - intros t [t'|[n cs i]|t'] H; [by apply Ht|rewrite (tree_js_unfold n cs i : child_js (Rule _) = _) in H; done|by apply Ht].
  - intros t [t'|[n cs i]|t'] H; [by apply Ht|rewrite (tree_js_unfold n cs i : child_js (Rule _) = _) in H; done|by apply Ht].
  - intros [n cs i] H [t'|r'|t'] E; [rewrite (tree_js_unfold n cs i : child_js (Rule _) = _) in E; done| |rewrite (tree_js_unfold n cs i : child_js (Rule _) = _) in E; done].
    apply H. exact E.
  - intros n cs i HF [n' cs' i'] E. rewrite !tree_js_unfold in E. rewrite !labels_unfold.
    assert (n = n' /\ map child_js cs = map child_js cs') as [-> Ec] by (injection E; auto). f_equal. clear E. revert cs' Ec.
    induction HF as [|c cs Hc HF IH]; intros [|c' cs'] Ec; try done. cbn [map concat] in Ec |- *.
    assert (child_js c = child_js c' /\ map child_js cs = map child_js cs') as [E1 E2] by (injection Ec; auto).
    rewrite (Hc c' E1). f_equal. by apply IH.
Qed.
Lemma drawable_labels r : drawable_tree r <-> forall s, label s r -> drawable s.
Proof.
  split.
  - intros H s Hs. induction Hs as [cs i|t n cs i Ht <-|t n cs i Ht <-|c n cs i Hc _ IH]; inversion H as [? ? ? H1 H2 H3]; subst.
    + done.
    + by destruct (H2 t Ht).
    + by destruct (H2 t Ht).
    + by apply IH, H3.
  - revert r. refine (rule_ctx_rect' (fun a => match a with Rule r => (forall s, label s r -> drawable s) -> drawable_tree r | _ => True end) _ _ _ _ _); [done|done|by intros r Hr|].
    intros n cs i HF H. constructor.
    + apply H. constructor.
    + intros t Ht. split; apply H; [by eapply label_name|by eapply label_text].
    + intros c Hc. rewrite Forall_forall in HF. apply (HF _ Hc). intros s Hs. apply H. by eapply label_below.
Qed.

(** *** The title *)
Lemma page_head_title s : behind (lit "<title>") (page_head ++ s) = Some s.
Proof. reflexivity. Qed.
Definition mid_rest : str := tail page_mid.
Lemma page_mid_less : page_mid = c_less :: mid_rest.
Proof. reflexivity. Qed.
Lemma page_mid_title s : title_text (page_mid ++ s) = Some [].
Proof. reflexivity. Qed.
Lemma tag_less w s t : w ⊆ lit "/title" -> tag_at w (s ++ c_less :: t) = tag_at w s.
Proof.
  revert s. induction w as [|a w IH]; intros [|c s] Hw; cbn [tag_at app]; try done.
  - apply andb_false_intro1, N.eqb_neq. intros <-. specialize (Hw _ (elem_of_list_here _ _)). revert Hw. apply (bool_decide_unpack _). by vm_compute.
  - f_equal. apply IH. intros y Hy. apply Hw. by apply elem_of_list_further.
Qed.
Lemma title_either n z : (title_text (n ++ page_mid ++ z) = Some n /\ ~ ends_title n) \/
  (ends_title n /\ exists a b, n = a ++ b /\ b <> [] /\ title_text (n ++ page_mid ++ z) = Some a).
Proof.
  rewrite page_mid_less. change ((c_less :: mid_rest) ++ z) with (c_less :: (mid_rest ++ z)).
  induction n as [|c n IH].
  - left. split; [reflexivity|]. intros (a & b & E & H). symmetry in E. apply app_nil in E as [-> ->]. discriminate H.
  - cbn [app title_text]. assert (tag_at (lit "</title") (c :: n ++ c_less :: mid_rest ++ z) = tag_at (lit "</title") (c :: n)) as ->.
    { change (lit "</title") with (c_less :: lit "/title"). cbn [tag_at]. f_equal. by apply tag_less. }
    destruct (tag_at (lit "</title") (c :: n)) eqn:Et.
    + right. split; [by exists [], (c :: n)|]. by exists [], (c :: n).
    + destruct IH as [[IH Hn]|[(a & b & -> & H) (a' & b' & E & Hb & IH)]].
      * left. rewrite IH. split; [done|]. intros ([|x a] & b & E & H); [cbn in E; subst b; congruence|]. injection E as -> ->. apply Hn. by exists a, b.
      * right. split; [by exists (c :: a), b|]. exists (c :: a'), b'. rewrite IH. split; [cbn; by rewrite E|done].
Qed.
Lemma page_lf name r : lf_ends (page name r) = page_head ++ lf_ends name ++ page_mid ++ script (lf_tree r) ++ page_tail.
Proof.
  unfold page. rewrite lf_const_app by no_cr. f_equal. rewrite lf_ends_app by (left; rewrite page_mid_less; discriminate). f_equal.
  rewrite lf_const_app by no_cr. f_equal. by rewrite lf_script, (lf_id page_tail) by no_cr.
Qed.
Lemma nul_no_cr s : c_cr ∉ s -> c_cr ∉ map replace_nul s.
Proof.
  intros H H'. apply H. apply elem_of_list_fmap in H' as (c & E & Hc). unfold replace_nul in E. destruct (N.eqb_spec c c_nul); [discriminate E|congruence].
Qed.
Lemma lf_length s : length (lf_ends s) <= length s.
Proof.
  induction s as [|c s IH]; [done|]. cbn [lf_ends]. destruct (c =? c_cr)%N; [|cbn; lia].
  destruct s as [|e s]; [done|]. destruct (e =? c_lf)%N; cbn [length] in *; lia.
Qed.
Lemma c59_title name r : title_content (page name r) = Some name <-> title_safe name.
Proof.
  unfold title_content, title_source. rewrite page_lf, page_head_title. cbn [mbind option_bind].
  destruct (title_either (lf_ends name) (script (lf_tree r) ++ page_tail)) as [[E Hn]|[Hn (a & b & Eab & Hb & E)]]; rewrite E; cbn [fmap option_fmap option_map]; split.
  - intros [= Ht]. assert (c_cr ∉ name) as H1 by (rewrite <- Ht; apply nul_no_cr, lf_no_cr). rewrite lf_id in Ht, Hn by done.
    split; [done|]. split; [rewrite <- Ht; apply nul_free|done].
  - intros (H1 & H2 & H3). by rewrite lf_id, nul_id by done.
  - intros [= Ht]. pose proof (lf_length name) as Hl. rewrite Eab, app_length in Hl. apply (f_equal length) in Ht. rewrite map_length in Ht.
    destruct b; [done|]. cbn in Hl. lia.
  - intros (H1 & H2 & H3). by rewrite lf_id in Hn.
Qed.

(** *** The script *)
Lemma strip_prefix_self t s : strip_prefix t (t ++ s) = Some s.
Proof. induction t as [|c t IH]; [by destruct s|]. cbn. by rewrite N.eqb_refl. Qed.
Lemma page_head_rest t s : behind (lit "<title>" ++ t) (page_head ++ t ++ s) = Some s.
Proof.
  transitivity (match strip_prefix t (t ++ s) with Some r => Some r | None => behind (lit "<title>" ++ t) (lit "title>" ++ t ++ s) end); [reflexivity|].
  by rewrite strip_prefix_self.
Qed.
Lemma page_mid_script s : behind (lit "<script type=""module"">") (page_mid ++ s) = Some (10%N :: lit "    " ++ s).
Proof. vm_compute. reflexivity. Qed.
Definition lead : str := 10%N :: lit "    ".
Lemma lead_text s : script_text InScript (lead ++ s) = (fun t => lead ++ t) <$> script_text InScript s.
Proof. by apply dull_text. Qed.
Lemma script_page name r : title_safe name -> script_content (page name r) = (fun t => lead ++ map replace_nul t) <$> script_text InScript (script (lf_tree r) ++ page_tail).
Proof.
  intros (H1 & H2 & H3). unfold script_content. rewrite page_lf, lf_id by done. unfold title_source at 1. rewrite page_head_title. cbn [mbind option_bind].
  destruct (title_either name (script (lf_tree r) ++ page_tail)) as [[E _]|[Hn _]]; [|done]. rewrite E. cbn [mbind option_bind].
  rewrite page_head_rest. cbn [mbind option_bind]. rewrite page_mid_script. cbn [mbind option_bind].
  change (10%N :: lit "    " ++ script (lf_tree r) ++ page_tail) with (lead ++ (script (lf_tree r) ++ page_tail)). rewrite lead_text.
  generalize (script_text InScript (script (lf_tree r) ++ page_tail)). intros [u|]; [|done]. cbn [fmap option_fmap option_map].
  by rewrite map_app, (nul_id lead) by no_cr.
Qed.

Definition clean_tree (r : rule_ctx) : rule_ctx := nul_tree (lf_tree r).
Lemma nul_script r u : map replace_nul (script (lf_tree r) ++ u) = lit "const ast = " ++ dump (clean_tree r) ++ lit ";" ++ map replace_nul u.
Proof.
  unfold script. rewrite <- !app_assoc, map_app, nul_id by no_cr. f_equal.
  pose proof (nul_dump (Rule (lf_tree r)) (lit ";" ++ u)) as E. cbn [dump_child nul_child] in E. rewrite E. reflexivity.
Qed.
Lemma nul_program : map replace_nul program = program.
Proof. apply nul_id. no_cr. Qed.
Lemma clean_fixed s : lf_ends (map replace_nul (lf_ends s)) = s -> c_cr ∉ s /\ c_nul ∉ s.
Proof.
  intros H. assert (c_cr ∉ s) as H1 by (rewrite <- H; apply lf_no_cr). split; [done|]. rewrite (lf_id s) in H by done.
  rewrite lf_id in H by (by apply nul_no_cr). rewrite <- H. apply nul_free.
Qed.
Definition page_reads (name : str) (r : rule_ctx) : Prop :=
  title_content (page name r) = Some name /\
  exists text, script_content (page name r) = Some (10%N :: lit "    const ast = " ++ text) /\
    exists n, forall f, n <= f -> read_js f text = Some (tree_js r, lit ";" ++ program).
Lemma page_reads_ok name r : title_safe name -> carried r -> page_reads name r.
Proof.
  intros Hn (Hd & Hz & st & Hst & Hdb). split; [by apply c59_title|].
  assert (forall s, s ∈ labels r -> lf_ends s = s /\ map replace_nul s = s) as Hs.
  { intros s Hs%elem_labels. split; [apply lf_id|apply nul_id]; [|by apply Hz]. by apply (proj1 (drawable_labels r) Hd). }
  assert (lf_tree r = r) as E1 by (apply lf_tree_id; intros s H; by apply Hs).
  assert (nul_tree r = r) as E2 by (apply nul_tree_id; intros s H; by apply Hs).
  exists (dump r ++ lit ";" ++ program). split.
  - rewrite script_page by done. rewrite E1.
    assert (script_text InScript (script r ++ page_tail) = Some (script r ++ program)) as ->.
    { pose proof (c49_program r) as H. rewrite Hst in H. destruct st; [exact H|exact H|by destruct (Hdb dashes)]. }
    cbn [fmap option_fmap option_map]. rewrite <- E1 at 1. rewrite nul_script. unfold clean_tree. rewrite E1, E2, nul_program. reflexivity.
  - destruct (c22_dump r Hd) as [n H]. exists n. intros f Hf. by apply H.
Qed.
Lemma page_reads_only name r : page_reads name r -> title_safe name /\ carried r.
Proof.
  intros (Ht & text & Hsc & n & Hn). apply c59_title in Ht. split; [done|]. rewrite script_page in Hsc by done.
  pose proof (c49_program (lf_tree r)) as H.
  assert (forall x, (fun t => lead ++ map replace_nul t) <$> Some x = Some (10%N :: lit "    const ast = " ++ text) -> map replace_nul x = lit "const ast = " ++ text) as K.
  { intros x E. cbn [fmap option_fmap option_map] in E. apply (inj Some) in E.
    change (10%N :: lit "    const ast = " ++ text) with (lead ++ (lit "const ast = " ++ text)) in E. by apply app_inv_head in E. }
  destruct (labels_state InScript (labels (lf_tree r))) as [st|] eqn:El.
  2:{ destruct H as (a & b & Eab & Hb & E). exfalso. rewrite E in Hsc. apply K in Hsc.
    pose proof (nul_script r []) as Es. rewrite app_nil_r, Eab, map_app, Hsc, <- app_assoc in Es. apply app_inv_head in Es. change (map replace_nul []) with (@nil N) in Es.
    rewrite app_nil_r in Es.
    pose proof (proj1 (read_more n) _ _ _ (map replace_nul b) (Hn n (le_n _))) as Hr. rewrite Es in Hr.
    destruct (child_either (Rule (clean_tree r)) n (lit ";")) as [E'|(v & E' & _)]; cbn [dump_child] in E'; rewrite E' in Hr; [discriminate Hr|].
    assert (lit ";" = (lit ";" ++ program) ++ map replace_nul b) as Hl by congruence. apply (f_equal length) in Hl.
    rewrite !app_length, map_length in Hl. 
    assert (length b <> 0) as Hb' by (clear -Hb; by destruct b). clear -Hl Hb'. lia. }
  assert (script_text InScript (script (lf_tree r) ++ page_tail) = Some (script (lf_tree r) ++ program) /\ forall k, st <> InDouble k) as [E Hdb].
  { destruct st as [|k|k]; [split; [exact H|done]|split; [exact H|done]|]. rewrite H in Hsc. discriminate Hsc. }
  clear H. rewrite E in Hsc. clear E. apply K in Hsc. clear K. rewrite nul_script, nul_program in Hsc. apply app_inv_head in Hsc. subst text.
  destruct (child_either (Rule (clean_tree r)) n (lit ";" ++ program)) as [E'|(v & _ & Hns)]; cbn [dump_child] in *.
  { rewrite (Hn n (le_n _)) in E'. discriminate E'. }
  cbn [child_labels] in Hns. destruct (dump_some _ Hns) as [m Hm].
  pose proof (Hn (n + m) ltac:(lia)) as E1. pose proof (Hm (n + m) (lit ";" ++ program) ltac:(lia)) as E2. rewrite E1 in E2. clear E1 Hm Hn.
  assert (tree_js r = tree_js (lf_tree (clean_tree r))) as Ej by congruence. clear E2. apply js_labels in Ej.
  unfold clean_tree in Ej. rewrite lf_labels, nul_labels, lf_labels in Ej.
  assert (forall s, s ∈ labels r -> c_cr ∉ s /\ c_nul ∉ s) as Hs.
  { intros s Hs. apply clean_fixed. clear -Ej Hs. induction (labels r) as [|x l IH]; [by apply elem_of_nil in Hs|].
    cbn [map] in Ej. assert (x = lf_ends (map replace_nul (lf_ends x)) /\ l = map lf_ends (map (map replace_nul) (map lf_ends l))) as [E1 E2] by (injection Ej; auto).
    apply elem_of_cons in Hs as [->|Hs]; [done|by apply IH]. }
  assert (lf_tree r = r) as Ea by (apply lf_tree_id; intros s H; by apply lf_id, Hs).
  assert (nul_tree r = r) as Eb by (apply nul_tree_id; intros s H; by apply nul_id, Hs).
  unfold clean_tree in Hns. rewrite Ea, Eb in Hns. rewrite Ea in El. split_and!.
  - apply drawable_labels. intros s Hl. split; [|by apply Hs, elem_labels]. intros a b ->. apply (Hns _ Hl). by exists a, b.
  - intros s Hl. by apply Hs, elem_labels.
  - by exists st.
Qed.
Lemma c59_iff : exists program, forall name r,
  (title_content (page name r) = Some name /\
   exists text, script_content (page name r) = Some (10%N :: lit "    const ast = " ++ text) /\
     exists n, forall f, n <= f -> read_js f text = Some (tree_js r, lit ";" ++ program)) <->
  title_safe name /\ carried r.
Proof. exists program. intros name r. split; [apply page_reads_only|]. intros [H1 H2]. by apply page_reads_ok. Qed.
Lemma harmless_carried r : (forall s, label s r -> harmless s) -> carried r.
Proof.
  intros H. split_and!.
  - apply drawable_labels. intros s Hs. by apply H.
  - intros s Hs. by apply H.
  - exists InScript. split; [|done]. apply harmless_labels. intros s Hs%elem_labels. by apply H.
Qed.
Lemma c59_page : exists program, forall name r, title_safe name -> (forall s, label s r -> harmless s) ->
  title_content (page name r) = Some name /\
  exists text, script_content (page name r) = Some (10%N :: lit "    const ast = " ++ text) /\
    exists n, forall f, n <= f -> read_js f text = Some (tree_js r, lit ";" ++ program).
Proof. exists program. intros name r Hn Hr. apply page_reads_ok; [done|by apply harmless_carried]. Qed.
Lemma c59_shown decode name r : character_references decode -> title_safe name -> c_amp ∉ name -> decode <$> title_content (page name r) = Some name.
Proof. intros [H _] Hn Ha. rewrite (proj2 (c59_title name r) Hn). cbn. by rewrite H. Qed.

(** *** main's own trees *)
Definition clean (s : str) : Prop := harmless s.
Lemma tag_at_more w s t : tag_at w s = true -> tag_at w (s ++ t) = true.
Proof.
  revert s. induction w as [|a w IH]; intros [|c s]; cbn [tag_at app]; try done.
  rewrite !andb_true_iff. intros [? ?]. split; [done|by apply IH].
Qed.
Lemma starts_more w s t : starts w s = true -> starts w (s ++ t) = true.
Proof.
  revert s. induction w as [|a w IH]; intros [|c s]; cbn [starts app]; try done.
  rewrite !andb_true_iff. intros [? ?]. split; [done|by apply IH].
Qed.
Lemma clean_infix a s b : clean (a ++ s ++ b) -> clean s.
Proof.
  intros ((H2 & H3) & H4 & H5). rewrite 2!not_elem_of_app in H3. rewrite 2!not_elem_of_app in H4. split_and!; [split; [|tauto]|tauto|].
  - intros x y E. subst s. apply (H2 (a ++ x) (y ++ b)). by rewrite <- !app_assoc.
  - intros (x & y & -> & H). apply H5. exists (a ++ x), (y ++ b). rewrite <- !app_assoc. split; [done|].
    destruct H; [left; by apply tag_at_more|right; by apply starts_more].
Qed.
Definition clean_b (s : str) : bool :=
  forallb (fun c => negb (c =? c_less)%N && negb (c =? c_cr)%N && negb (c =? c_dollar)%N && negb (c =? c_nul)%N) s.
Lemma clean_b_clean s : clean_b s = true -> clean s.
Proof.
  unfold clean_b. intros H. rewrite forallb_forall in H.
  assert (forall c, c ∈ s -> c <> c_less /\ c <> c_cr /\ c <> c_dollar /\ c <> c_nul) as K.
  { intros c Hc. apply elem_of_list_In, H in Hc. rewrite !andb_true_iff, !negb_true_iff, !N.eqb_neq in Hc. tauto. }
  clear H. split; [split; [|intros Hc; by apply K in Hc as (_ & Hc & _)]|split; [intros Hc; by apply K in Hc as (_ & _ & _ & Hc)|]].
  - intros a b ->. destruct (K c_dollar) as (_ & _ & [] & _); [|done]. rewrite elem_of_app. right. apply elem_of_list_here.
  - intros (a & b & -> & H). destruct b as [|c b]; [by destruct H|]. destruct (K c) as [Hc _]; [rewrite elem_of_app; right; apply elem_of_list_here|].
    change (lit "</script") with (c_less :: lit "/script") in H. change (lit "<!--") with (c_less :: lit "!--") in H. cbn [tag_at starts] in H.
    rewrite !andb_true_iff, !N.eqb_eq in H. destruct H as [[H _]|[H _]]; [|done]. apply Hc. unfold lower in H.
    destruct ((65 <=? c)%N && (c <=? 90)%N) eqn:Ec; [|done]. apply andb_prop in Ec as [E1 E2]. apply N.leb_le in E1. unfold c_less in H. lia.
Qed.

Lemma scanned_clean nd s ts st t : clean s -> scanned (scan (LexerCfg s (map (find_at0 nd) v1_res) v1_names)) lexer_init ts st -> t ∈ ts ->
  clean (token_name t) /\ clean (text t).
Proof.
  intros Hs Hsc Ht. assert (forall nm, nm ∈ v1_names -> clean nm) as Hnames.
  { assert (forallb clean_b v1_names = true) as H by (vm_compute; reflexivity). rewrite forallb_forall in H.
    intros nm Hnm. by apply clean_b_clean, H, elem_of_list_In. }
  destruct (scanned_spec _ _ _ _ _ _ _ (v1_ok nd s) (lex_inv_init _) Hsc) as (ts0 & rest & E & _ & Hm & _ & Hcase). cbn [input] in E.
  assert (t ∈ ts0 -> clean (token_name t) /\ clean (text t)) as K.
  { intros Hin. apply elem_of_list_split in Hin as (a & b & Hab). destruct (munched_split _ _ _ _ _ _ Hm Hab) as (i & _ & Hnm & _). split.
    - apply Hnames. by apply elem_of_list_lookup_2 in Hnm.
    - rewrite E, Hab, texts_app, texts_cons, <- !app_assoc in Hs. by apply clean_infix in Hs. }
  destruct Hcase as [[-> _]|(_ & _ & st1 & _ & ->)]; [by apply K|]. apply elem_of_app in Ht as [Ht|Ht]; [by apply K|].
  apply elem_of_list_singleton in Ht as ->. split; apply clean_b_clean; reflexivity.
Qed.

Lemma elem_of_leaves t cs : t ∈ leaves cs <-> exists c, c ∈ cs /\ t ∈ ast_leaves c.
Proof.
  induction cs as [|c cs IH]; cbn [leaves].
  - split; [intros H; by apply elem_of_nil in H|intros (c & H & _); by apply elem_of_nil in H].
  - rewrite elem_of_app, IH. split.
    + intros [H|(d & H1 & H2)]; [exists c|exists d]; rewrite elem_of_cons; auto.
    + intros (d & H1 & H2). apply elem_of_cons in H1 as [->|H1]; [by left|right; by exists d].
Qed.
Section clean_trees.
  Context (v : vocabulary) (Hv : forall i n, get_nonterminal_name_by_id v i = Some n -> clean n).
  Definition clean_token (t : token) : Prop := clean (token_name t) /\ clean (text t).
  Lemma clean_children n cs i :
    clean n -> Forall (fun a => (forall t, t ∈ ast_leaves a -> clean_token t) -> match a with Rule r => (forall s, label s r -> clean s) | _ => True end) cs ->
    (forall t, t ∈ leaves cs -> clean_token t) -> (forall s, label s (RuleCtx n cs i) -> clean s).
  Proof.
    intros Hn HF Ht. rewrite Forall_forall in HF.
    assert (forall t, Terminal t ∈ cs \/ Error t ∈ cs -> clean_token t) as H1.
    { intros t [H|H]; apply Ht, elem_of_leaves; eexists; (split; [exact H|]); apply elem_of_list_here. }
    assert (forall c, Rule c ∈ cs -> forall s, label s c -> clean s) as H2.
    { intros c H. apply (HF _ H). intros t Hc. apply Ht, elem_of_leaves. by exists (Rule c). }
    intros s Hs. inversion Hs as [|t ? ? ? Ht' E|t ? ? ? Ht' E|c ? ? ? Hc Hs']; subst; [done|by apply H1|by apply H1|by apply (H2 c)].
  Qed.
  Lemma clean_named a : named_tree v a -> (forall t, t ∈ ast_leaves a -> clean_token t) -> match a with Rule r => (forall s, label s r -> clean s) | _ => True end.
  Proof.
    revert a. refine (ast_rect' _ (fun r => named_tree v (Rule r) -> (forall t, t ∈ rule_leaves r -> clean_token t) -> (forall s, label s r -> clean s)) _ _ _ _).
    - done.
    - done.
    - intros r H. exact H.
    - intros n cs i HF Hn Ht. inversion Hn as [|? ? ? Hname HN]; subst. apply clean_children; [by eapply Hv| |exact Ht].
      rewrite Forall_forall in HF, HN |- *. intros a Ha. by apply HF, HN.
  Qed.
  Lemma clean_root r : clean (rule_name r) -> Forall (named_tree v) (children r) -> (forall t, t ∈ rule_leaves r -> clean_token t) ->
    (forall s, label s r -> clean s).
  Proof.
    destruct r as [n cs i]. cbn [rule_name children]. intros Hn HN Ht. apply clean_children; [done| |exact Ht].
    rewrite Forall_forall in HN |- *. intros a Ha. by apply clean_named, HN.
  Qed.
End clean_trees.

Lemma shipped_names_clean i n : get_nonterminal_name_by_id (g_vocabulary shipped) i = Some n -> clean n.
Proof.
  rewrite shipped_v. intros H. apply elem_of_list_lookup_2, elem_of_list_In in H.
  assert (forallb clean_b shipped_names = true) as K by (vm_compute; reflexivity). rewrite forallb_forall in K. by apply clean_b_clean, K.
Qed.

Lemma main_clean nd order fuel s r w rest mm : clean s -> main_run nd order fuel syntaxis2_json s = Ret (r, w, rest, mm) -> (forall s, label s r -> clean s).
Proof.
  intros Hs H. unfold main_run in H. rewrite shipped_load in H. cbn [rbind] in H.
  destruct (build_table fuel order shipped) as [[tab w']| |]; cbn [rbind] in H; [|discriminate H..].
  rewrite v1_new in H. cbn [rbind] in H.
  destruct (scan_all _ 15 0 fuel lexer_init) as [[toks rest']| |] eqn:Es; cbn [rbind] in H; [|discriminate H..].
  unfold parse in H. destruct (parse_ast (g_vocabulary shipped) tab toks fuel 0 0) as [[[r' j] mm']| |] eqn:Ep; cbn [rbind] in H; [|discriminate H..].
  injection H as -> _ _ _. destruct (c37_leaves _ _ _ _ _ _ _ _ _ Ep) as (_ & Hl & _ & Hname & HN).
  apply (scan_all_mono _ _ _ fuel (fuel + (length s + 2)) _ _ ltac:(lia)) in Es.
  destruct (c10_scan_all (LexerCfg s (map (find_at0 nd) v1_res) v1_names) 15 0 (fuel + (length s + 2)) (v1_ok nd s) ltac:(done) ltac:(cbn [input]; lia))
    as (ts & st & toks' & printed & Hsc & _ & Es' & Htoks & _).
  rewrite Es in Es'. injection Es' as <- _. cbn [Nat.eqb] in Htoks.
  apply (clean_root (g_vocabulary shipped) shipped_names_clean); [|exact HN|].
  - rewrite Hname. apply clean_b_clean. unfold get_nonterminal_name_with_default.
    pose proof (shipped_v 0) as H0. unfold get_nonterminal_name_by_id in H0. rewrite H0. reflexivity.
  - intros t Ht. rewrite Hl in Ht. unfold segment in Ht. apply elem_of_take in Ht as (k & Hk & _).
    rewrite lookup_drop in Hk. apply elem_of_list_lookup_2 in Hk. rewrite Htoks in Hk.
    apply elem_of_list_filter in Hk as [_ Hk]. by apply (scanned_clean nd s ts st t Hs Hsc).
Qed.

Lemma parser_safe : title_safe (lit "parser").
Proof.
  split; [no_cr|]. split; [no_cr|]. intros (a & b & E & H).
  assert (forallb (fun k => negb (tag_at (lit "</title") (drop k (lit "parser")))) (seq 0 7) = true) as K by reflexivity. rewrite forallb_forall in K.
  specialize (K (length a)). rewrite E, drop_app, H in K. assert (false = true); [|done]. apply K, in_seq.
  apply (f_equal length) in E. rewrite app_length in E. cbn in E. lia.
Qed.
Lemma c59_main_iff : exists program, forall nd order fuel s p r w rest mm,
  main_page nd order fuel syntaxis2_json s = Ret p -> main_run nd order fuel syntaxis2_json s = Ret (r, w, rest, mm) ->
  title_content p = Some (lit "parser") /\
  ((exists text, script_content p = Some (10%N :: lit "    const ast = " ++ text) /\
     exists n, forall f, n <= f -> read_js f text = Some (tree_js r, lit ";" ++ program)) <-> carried r).
Proof.
  destruct c59_iff as [program Hp]. exists program. intros nd order fuel s p r w rest mm H E. unfold main_page in H. rewrite E in H. cbn [rbind] in H.
  injection H as <-. specialize (Hp (lit "parser") r). assert (title_content (page (lit "parser") r) = Some (lit "parser")) as Ht by (apply c59_title, parser_safe).
  split; [exact Ht|]. pose proof parser_safe. tauto.
Qed.
Lemma c59_main : exists program, forall nd order fuel s p, harmless s ->
  main_page nd order fuel syntaxis2_json s = Ret p ->
  exists r w rest mm text, main_run nd order fuel syntaxis2_json s = Ret (r, w, rest, mm) /\
    script_content p = Some (10%N :: lit "    const ast = " ++ text) /\
    exists n, forall f, n <= f -> read_js f text = Some (tree_js r, lit ";" ++ program).
Proof.
  destruct c59_page as [program Hp]. exists program. intros nd order fuel s p Hs H. unfold main_page in H.
  destruct (main_run nd order fuel syntaxis2_json s) as [[[[r w] rest] mm]| |] eqn:E; cbn [rbind] in H; [|discriminate H..].
  injection H as <-. pose proof (main_clean _ _ _ _ _ _ _ _ Hs E) as Hr.
  destruct (Hp (lit "parser") r) as (_ & text & Ht & Hj); [exact parser_safe|exact Hr|].
  exists r, w, rest, mm, text. split; [reflexivity|]. split; [exact Ht|exact Hj].
Qed.

Lemma c59_written : exists program, forall nd g d order G ts s,
  digits_ok nd -> load_ast syntaxis2_json = Ret (g, d) -> iteration_order g order ->
  grammar_tokens G ts -> written ts s -> harmless s ->
  exists r, grammar_tree G (retype_rule hand_type r) /\
    exists n, forall fuel, n <= fuel -> exists p text, main_page nd order fuel syntaxis2_json s = Ret p /\
      script_content p = Some (10%N :: lit "    const ast = " ++ text) /\ read_js fuel text = Some (tree_js r, lit ";" ++ program).
Proof.
  destruct c59_page as [program Hp]. exists program. intros nd g d order G ts s Hnd Hl Ho HG Hw Hs.
  destruct (c44_complete nd g d order G ts s Hnd Hl Ho HG Hw) as (r & HT & n & Hn). exists r. split; [exact HT|].
  pose proof (main_clean _ _ _ _ _ _ _ _ Hs (Hn n (le_n _))) as Hr.
  destruct (Hp (lit "parser") r) as (_ & text & Ht & m & Hj); [exact parser_safe|exact Hr|].
  exists (Nat.max n m). intros fuel Hf. exists (page (lit "parser") r), text. unfold main_page. rewrite Hn by lia.
  split; [reflexivity|]. split; [exact Ht|apply Hj; lia].
Qed.

Lemma ex_page : grammar_tokens ex_shipped_grammar ex_shipped_tokens /\ written ex_shipped_tokens ex_shipped_text /\ harmless ex_shipped_text.
Proof. split; [exact ex_shipped_grammar_tokens|]. split; [exact ex_shipped_written|]. apply clean_b_clean. reflexivity. Qed.

Lemma c59_refuted : exists name text r, (forall s, label s r -> harmless s) /\ name <> text /\ title_content (page name r) = Some text /\
  (forall name', title_safe name' -> script_content (page name r) <> script_content (page name' r)) /\
  exists name2, title_safe name2 /\ forall decode, character_references decode -> decode <$> title_content (page name2 r) <> Some name2.
Proof.
  set (r := RuleCtx (lit "a") [] 0).
  assert (forall s, label s r -> harmless s) as Hr.
  { intros s Hs. inversion Hs as [|t ? ? ? Ht|t ? ? ? Ht|c ? ? ? Hc]; subst; [by apply clean_b_clean|..].
    - destruct Ht as [H|H]; by apply elem_of_nil in H.
    - destruct Ht as [H|H]; by apply elem_of_nil in H.
    - by apply elem_of_nil in Hc. }
  exists (lit "</title><script type=""module"">alert(1)</script>"), [], r. split; [exact Hr|]. split; [done|]. split; [reflexivity|]. split.
  - intros name' Hn'. destruct c59_page as [prog Hp]. destruct (Hp name' r Hn' Hr) as (_ & text & E & _). rewrite E.
    assert (script_content (page (lit "</title><script type=""module"">alert(1)</script>") r) = Some (lit "alert(1)")) as -> by (vm_compute; reflexivity).
    intros E'. discriminate E'.
  - exists (lit "&lt;"). assert (title_safe (lit "&lt;")) as Hs.
    { split; [no_cr|]. split; [no_cr|]. intros (a & b & E & H).
      assert (forallb (fun k => negb (tag_at (lit "</title") (drop k (lit "&lt;")))) (seq 0 5) = true) as K by reflexivity. rewrite forallb_forall in K.
      specialize (K (length a)). rewrite E, drop_app, H in K. assert (false = true); [|done]. apply K, in_seq.
      apply (f_equal length) in E. rewrite app_length in E. cbn in E. lia. }
    split; [exact Hs|]. intros decode [_ Hd]. rewrite (proj2 (c59_title _ r) Hs). cbn [fmap option_fmap option_map]. rewrite Hd. discriminate.
Qed.
Lemma ex_references : exists decode, character_references decode.
Proof.
  exists (fun s => if bool_decide (s = lit "&lt;") then [c_less] else s). split; [|reflexivity].
  intros s Hs. case_bool_decide as D; [|done]. subst s. destruct Hs. apply elem_of_list_here.
Qed.
