(** DrawerProofs.v -- C21, C22. *)
From Verif Require Export SpecDrawer.

(** ** Single-character replacement *)
Lemma replace_char a rep s :
  replace [a] rep s = concat (map (fun c => if (c =? a)%N then rep else [c]) s).
Proof.
  unfold replace. induction s as [|c s IH]; [done|]. simpl. rewrite (N.eqb_sym a c).
  destruct (c =? a)%N; by rewrite IH.
Qed.
Definition esc (c : N) : str :=
  if (c =? c_backslash)%N then [c_backslash; c_backslash]
  else if (c =? c_backquote)%N then [c_backslash; c_backquote] else [c].
Lemma escape_map s : escape s = concat (map esc s).
Proof.
  unfold escape. change (lit "`") with [c_backquote]. change (lit "\") with [c_backslash].
  rewrite !replace_char. induction s as [|c s IH]; [done|]. simpl. rewrite map_app, concat_app, IH. f_equal.
  unfold esc. change (lit "\\") with [c_backslash; c_backslash]. change (lit "\`") with [c_backslash; c_backquote].
  destruct (N.eqb_spec c c_backslash) as [->|H]; [done|]. simpl. destruct (N.eqb_spec c c_backquote) as [->|H']; done.
Qed.
Lemma escape_cons c s : escape (c :: s) = esc c ++ escape s.
Proof. by rewrite !escape_map. Qed.

Lemma drawable_tail c s : drawable (c :: s) -> drawable s.
Proof.
  intros [H1 H2]. split.
  - intros a b ->. by apply (H1 (c :: a) b).
  - intros H. apply H2. by apply elem_of_list_further.
Qed.
Lemma escape_head e s t r : escape s ++ c_backquote :: r = e :: t -> e <> c_backquote -> e <> c_backslash ->
  exists s', s = e :: s'.
Proof.
  destruct s as [|c s]; [intros [= <- _]; done|]. rewrite escape_cons. unfold esc.
  destruct (N.eqb_spec c c_backslash) as [->|H]; [by intros [= <- _]|].
  destruct (N.eqb_spec c c_backquote) as [->|H']; [by intros [= <- _]|].
  intros [= <- _]. eauto.
Qed.

Lemma read_escape s r : drawable s -> read_template (escape s ++ c_backquote :: r) = Some (s, r).
Proof.
  induction s as [|c s IH]; intros Hd; [done|].
  specialize (IH (drawable_tail _ _ Hd)). rewrite escape_cons. unfold esc.
  destruct (N.eqb_spec c c_backslash) as [->|H1]; [simpl; by rewrite IH|].
  destruct (N.eqb_spec c c_backquote) as [->|H2]; [simpl; by rewrite IH|].
  simpl. rewrite IH.
  destruct (N.eqb_spec c c_backquote) as [?|_]; [done|].
  destruct (N.eqb_spec c c_backslash) as [?|_]; [done|].
  destruct (N.eqb_spec c c_cr) as [->|_]; [destruct Hd as [_ []]; apply elem_of_list_here|].
  destruct (N.eqb_spec c c_dollar) as [->|_]; [|done]. simpl.
  destruct (escape s ++ c_backquote :: r) as [|e t] eqn:E; [done|].
  destruct (N.eqb_spec e c_lbrace) as [->|_]; [|done].
  apply escape_head in E as (s' & ->); [|done..]. destruct Hd as [Hd _]. by destruct (Hd [] s').
Qed.

Lemma read_escape_inv s r : read_template (escape s ++ c_backquote :: r) = Some (s, r) -> drawable s.
Proof.
  induction s as [|c s IH]; intros H.
  - split; [intros [|? ?] ?; done|apply not_elem_of_nil].
  - assert (Hgo : drawable s -> c <> c_cr -> ~ (c = c_dollar /\ exists s', s = c_lbrace :: s') -> drawable (c :: s)).
    { intros [D1 D2] N1 N2. split.
      - intros [|x a] b E; [|injection E as <- E; by apply (D1 a b)].
        injection E as -> ->. apply N2. eauto.
      - intros [|]%elem_of_cons; [by apply N1|done]. }
    rewrite escape_cons in H. unfold esc in H.
    destruct (N.eqb_spec c c_backslash) as [->|H1].
    { simpl in H. destruct (read_template _) as [[v r']|] eqn:E in H; [|done]. injection H as -> ->.
      apply Hgo; [by apply IH|done|by intros [? _]]. }
    destruct (N.eqb_spec c c_backquote) as [->|H2].
    { simpl in H. destruct (read_template _) as [[v r']|] eqn:E in H; [|done]. injection H as -> ->.
      apply Hgo; [by apply IH|done|by intros [? _]]. }
    simpl in H.
    destruct (N.eqb_spec c c_backquote) as [?|_]; [done|].
    destruct (N.eqb_spec c c_backslash) as [?|_]; [done|].
    destruct ((c =? c_dollar)%N && match escape s ++ c_backquote :: r with e :: _ => (e =? c_lbrace)%N | [] => false end) eqn:Ed; [done|].
    destruct (N.eqb_spec c c_cr) as [->|H3].
    { exfalso. destruct (read_template _) as [[v r']|] eqn:E in H; [|done].
      destruct (escape s ++ c_backquote :: r) as [|e t] eqn:Ee; [done|].
      destruct (N.eqb_spec e c_lf) as [->|Hlf]; [|done]. injection H as -> ->.
      simpl in E. destruct (read_template t) as [[v r']|]; done. }
    destruct (read_template _) as [[v r']|] eqn:E in H; [|done]. injection H as -> ->.
    apply Hgo; [by apply IH|done|]. intros [-> [s' ->]]. rewrite escape_cons in Ed. done.
Qed.
Lemma c21_escape s r : read_template (escape s ++ c_backquote :: r) = Some (s, r) <-> drawable s.
Proof. split; [apply read_escape_inv|apply read_escape]. Qed.

Lemma c21_refuted : exists s t, (forall r, read_template (escape s ++ c_backquote :: r) = None) /\
  (forall r, exists t', read_template (escape t ++ c_backquote :: r) = Some (t', r) /\ t' <> t).
Proof.
  exists (lit "${"), [c_cr]. split; [done|]. intros r. exists [c_lf]. split; [|done]. by destruct r.
Qed.

(** ** Objects *)
Lemma uint_str_digits u : Forall (fun c => (48 <= c <= 57)%N) (uint_str u).
Proof. induction u; simpl; constructor; try done; lia. Qed.
Lemma digits_drawable s : Forall (fun c => (48 <= c <= 57)%N) s -> drawable s.
Proof.
  intros H. split.
  - intros a b ->. apply Forall_app in H as [_ H]. inversion H; subst. unfold c_dollar in *. lia.
  - intros Hc. rewrite Forall_forall in H. apply H in Hc. unfold c_cr in Hc. lia.
Qed.
Lemma escape_digits s : Forall (fun c => (48 <= c <= 57)%N) s -> escape s = s.
Proof.
  rewrite escape_map. induction 1 as [|c s Hc _ IH]; [done|]. simpl. rewrite IH. unfold esc.
  destruct (N.eqb_spec c c_backslash) as [->|_]; [unfold c_backslash in *; lia|].
  destruct (N.eqb_spec c c_backquote) as [->|_]; [unfold c_backquote in *; lia|]. done.
Qed.
Lemma read_digits n r : read_template (usize_to_string n ++ c_backquote :: r) = Some (usize_to_string n, r).
Proof.
  pose proof (uint_str_digits (Nat.to_uint n)) as H. rewrite <- (escape_digits (usize_to_string n)) at 1 by done.
  by apply read_escape, digits_drawable.
Qed.

Ltac norm_lits := repeat match goal with
  | |- context [lit ?s] => let x := eval vm_compute in (lit s) in change (lit s) with x
  | H : context [lit ?s] |- _ => let x := eval vm_compute in (lit s) in change (lit s) with x in H
  end.

Lemma read_leaf t rest f :
  drawable (token_name t) -> drawable (text t) -> 4 <= f ->
  read_js f (dump_leaf t ++ rest) = Some (token_js t, rest).
Proof.
  intros H1 H2 Hf. do 4 (destruct f as [|f]; [lia|]). clear Hf.
  assert (dump_leaf t ++ rest = lit "{ name:`" ++ (escape (token_name t) ++ c_backquote :: lit ", text: `" ++
    (escape (text t) ++ c_backquote :: lit "}" ++ rest))) as ->.
  { unfold dump_leaf. rewrite <- !app_assoc. reflexivity. }
  pose proof (read_escape (token_name t) (lit ", text: `" ++ (escape (text t) ++ c_backquote :: lit "}" ++ rest)) H1) as E1.
  pose proof (read_escape (text t) (lit "}" ++ rest) H2) as E2.
  set (s2 := escape (text t) ++ _) in *. set (s1 := escape (token_name t) ++ _) in *.
  clearbody s1 s2. unfold token_js. norm_lits.
  cbn -[read_template]. rewrite E1. cbn -[read_template]. rewrite E2. done.
Qed.

Definition dump_child (c : ast) : str := match c with Terminal t => dump_leaf t | Rule r => dump r | Error t => dump_leaf t end.
Definition child_js (c : ast) : js := match c with Terminal t => token_js t | Rule r => tree_js r | Error t => token_js t end.
Lemma dump_unfold n cs i :
  dump (RuleCtx n cs i) = lit "{ name:`" ++ escape n ++ lit "`,id: `" ++ usize_to_string i ++ lit "`, children:" ++
    (lit "[" ++ concat (map (fun c => dump_child c ++ lit ",") cs) ++ lit "]") ++ lit ",}".
Proof.
  cbn [dump]. do 6 f_equal. f_equal. f_equal. induction cs as [|c cs IH]; [done|]. cbn [map concat].
  rewrite IH. rewrite <- app_assoc. destruct c; done.
Qed.
Lemma tree_js_unfold n cs i :
  tree_js (RuleCtx n cs i) = JSObject [(lit "name", JSString n); (lit "id", JSString (usize_to_string i));
     (lit "children", JSArray (map child_js cs))].
Proof. cbn [tree_js]. do 5 f_equal. f_equal. f_equal. induction cs as [|[| |] cs IH]; [done|..]; simpl; by rewrite IH. Qed.

Lemma dump_child_head c : exists s, dump_child c = 123%N :: s.
Proof. destruct c as [t|[n cs i]|t]; eexists; reflexivity. Qed.

Lemma c22_dump r : drawable_tree r ->
  exists n, forall f rest, n <= f -> read_js f (dump r ++ rest) = Some (tree_js r, rest).
Proof.
  revert r.
  refine (rule_ctx_rect' (fun a => match a with Rule r => drawable_tree r -> exists n, forall f rest, n <= f -> read_js f (dump r ++ rest) = Some (tree_js r, rest) | _ => True end) _ _ _ _ _).
  { done. } { done. } { intros r Hr. exact Hr. }
  intros n cs i HF Hd. inversion Hd as [? ? ? Hn Ht Hc]; subst. clear Hd.
  assert (Hel : forall c, c ∈ cs -> exists n, forall f r, n <= f -> read_js f (dump_child c ++ r) = Some (child_js c, r)).
  { intros c Hcc. rewrite Forall_forall in HF. specialize (HF c Hcc). destruct c as [t|r|t]; simpl.
    - exists 4. intros f r Hf. destruct (Ht t); [by left|]. by apply read_leaf.
    - apply HF. by apply Hc.
    - exists 4. intros f r Hf. destruct (Ht t); [by right|]. by apply read_leaf. }
  assert (Hbound : exists m, forall f rest, m <= f -> 
    read_elements f (concat (map (fun c => dump_child c ++ lit ",") cs) ++ lit "]" ++ rest) = Some (map child_js cs, rest)).
  { clear -Hel. induction cs as [|c cs IH].
    - exists 1. intros [|f] rest Hf; [lia|]. done.
    - destruct IH as (n1 & H1). { intros c' Hc'. apply Hel. by apply elem_of_list_further. }
      destruct (Hel c (elem_of_list_here _ _)) as (n2 & H2).
      exists (S (n1 + n2)). intros [|f] rest Hf; [lia|].
      specialize (H1 f rest ltac:(lia)).
      cbn [map concat]. rewrite <- !app_assoc. 
      set (tl := concat (map (fun c => dump_child c ++ lit ",") cs) ++ lit "]" ++ rest) in *. clearbody tl.
      specialize (H2 f (lit "," ++ tl) ltac:(lia)). norm_lits.
      destruct (dump_child_head c) as (s & Es). rewrite Es in *. cbn [read_elements].
      cbn -[read_js read_elements]. cbn -[read_js] in H2. rewrite H2. cbn -[read_js read_elements]. by rewrite H1. }
  destruct Hbound as (m & Hm). exists (5 + m). intros f rest Hf.
  rewrite dump_unfold, tree_js_unfold.
  do 5 (destruct f as [|f]; [lia|]).
  match goal with |- read_js _ ?s = _ =>
    assert (s = lit "{ name:`" ++ (escape n ++ c_backquote :: lit ",id: `" ++ (usize_to_string i ++ c_backquote ::
      lit ", children:[" ++ (concat (map (fun c => dump_child c ++ lit ",") cs) ++ lit "]" ++ lit ",}" ++ rest)))) as ->
      by (rewrite <- !app_assoc; reflexivity) end.
  specialize (Hm f (lit ",}" ++ rest) ltac:(lia)).
  set (s3 := concat _ ++ _) in *.
  pose proof (read_digits i (lit ", children:[" ++ s3)) as E2. set (s2 := usize_to_string i ++ _) in *.
  pose proof (read_escape n (lit ",id: `" ++ s2) Hn) as E1. set (s1 := escape n ++ _) in *.
  clearbody s1 s2 s3. norm_lits.
  cbn -[read_template usize_to_string read_elements]. rewrite E1.
  cbn -[read_template usize_to_string read_elements]. rewrite E2.
  cbn -[read_template usize_to_string read_elements]. rewrite Hm. done.
Qed.

Lemma c22_refuted : exists r, (forall f rest, read_js f (dump r ++ rest) = None) /\
  exists r', forall f rest, read_js f (dump r' ++ rest) <> Some (tree_js r', rest).
Proof.
  exists (RuleCtx (lit "${") [] 0). split.
  - intros f rest. do 3 (destruct f as [|f]; [reflexivity|]). reflexivity.
  - exists (RuleCtx [c_cr] [] 0). intros f rest.
    do 6 (destruct f as [|f]; [vm_compute; discriminate|]). vm_compute. discriminate.
Qed.

Lemma escape_elem c s : c <> c_backslash -> c ∈ escape s <-> c ∈ s.
Proof.
  intros Hc. induction s as [|x s IH]; [done|]. rewrite escape_cons, elem_of_app, IH, elem_of_cons.
  unfold esc. destruct (N.eqb_spec x c_backslash) as [->|H1]; [set_solver|].
  destruct (N.eqb_spec x c_backquote) as [->|H2]; set_solver.
Qed.
Lemma usize_no_less n : c_less ∉ usize_to_string n.
Proof.
  intros H. pose proof (uint_str_digits (Nat.to_uint n)) as HF. rewrite Forall_forall in HF.
  apply HF in H. unfold c_less in H. lia.
Qed.
Lemma ex_drawn : drawable (lit "a`\$b{") /\ escape (lit "a`\$b{") = lit "a\`\\$b{".
Proof. split; [|by vm_compute]. by apply (c21_escape _ []). Qed.
