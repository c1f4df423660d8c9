(** DrawerExact.v -- C22, exactly. *)
From Verif Require Export DrawerProofs.

(** ** C22 *)
Lemma substitution_cons c s : substitution (c :: s) <-> (c = c_dollar /\ exists s', s = c_lbrace :: s') \/ substitution s.
Proof.
  split.
  - intros ([|x a] & b & E); [injection E as -> ->; left; eauto|]. injection E as -> ->. right. exists a, b. done.
  - intros [[-> [s' ->]]|(a & b & ->)]; [exists [], s'; done|exists (c :: a), b; done].
Qed.
Lemma read_template_some s r : ~ substitution s -> read_template (escape s ++ c_backquote :: r) = Some (lf_ends s, r).
Proof.
  induction s as [|c s IH]; intros Hs; [done|]. rewrite substitution_cons in Hs.
  specialize (IH ltac:(tauto)). rewrite escape_cons. unfold esc.
  destruct (N.eqb_spec c c_backslash) as [->|H1]; [simpl; by rewrite IH|].
  destruct (N.eqb_spec c c_backquote) as [->|H2]; [simpl; by rewrite IH|].
  cbn [app read_template lf_ends]. rewrite IH.
  destruct (N.eqb_spec c c_backquote) as [?|_]; [done|].
  destruct (N.eqb_spec c c_backslash) as [?|_]; [done|].
  assert ((c =? c_dollar)%N && match escape s ++ c_backquote :: r with e :: _ => (e =? c_lbrace)%N | [] => false end = false) as ->.
  { destruct (N.eqb_spec c c_dollar) as [->|_]; [|done]. cbn [andb].
    destruct (escape s ++ c_backquote :: r) as [|e t] eqn:E; [done|]. destruct (N.eqb_spec e c_lbrace) as [->|_]; [|done].
    apply escape_head in E as (s' & ->); [|done..]. destruct Hs. left. eauto. }
  destruct (N.eqb_spec c c_cr) as [->|_]; [|done].
  destruct s as [|e s]; [done|]. rewrite escape_cons. unfold esc.
  destruct (N.eqb_spec e c_backslash) as [->|]; [done|]. destruct (N.eqb_spec e c_backquote) as [->|]; [done|].
  cbn [app]. destruct (N.eqb_spec e c_lf); done.
Qed.
Lemma read_template_none s r : substitution s -> read_template (escape s ++ c_backquote :: r) = None.
Proof.
  induction s as [|c s IH]; intros Hs; [by destruct Hs as ([|] & b & ?)|]. apply substitution_cons in Hs as [[-> [s' ->]]|Hs].
  - rewrite !escape_cons. done.
  - specialize (IH Hs). rewrite escape_cons. unfold esc.
    destruct (N.eqb_spec c c_backslash) as [->|H1]; [simpl; by rewrite IH|].
    destruct (N.eqb_spec c c_backquote) as [->|H2]; [simpl; by rewrite IH|].
    cbn [app read_template]. rewrite IH.
    destruct (N.eqb_spec c c_backquote) as [?|_]; [done|].
    destruct (N.eqb_spec c c_backslash) as [?|_]; [done|].
    destruct (_ && _); [done|]. by destruct (c =? c_cr)%N.
Qed.

Lemma leaf_some t rest f : ~ substitution (token_name t) -> ~ substitution (text t) -> 4 <= f ->
  read_js f (dump_leaf t ++ rest) = Some (token_js (lf_token t), rest).
Proof.
  intros H1 H2 Hf. do 4 (destruct f as [|f]; [lia|]). clear Hf.
  assert (dump_leaf t ++ rest = lit "{ name:`" ++ (escape (token_name t) ++ c_backquote :: lit ", text: `" ++
    (escape (text t) ++ c_backquote :: lit "}" ++ rest))) as ->.
  { unfold dump_leaf. rewrite <- !app_assoc. reflexivity. }
  pose proof (read_template_some (token_name t) (lit ", text: `" ++ (escape (text t) ++ c_backquote :: lit "}" ++ rest)) H1) as E1.
  pose proof (read_template_some (text t) (lit "}" ++ rest) H2) as E2.
  set (s2 := escape (text t) ++ _) in *. set (s1 := escape (token_name t) ++ _) in *.
  unfold token_js, lf_token. cbn [token_name text]. generalize dependent (lf_ends (token_name t)). generalize dependent (lf_ends (text t)).
  clearbody s1 s2. intros v2 E2 v1 E1. norm_lits.
  cbn -[read_template]. rewrite E1. cbn -[read_template]. rewrite E2. done.
Qed.

Lemma dump_some r : (forall s, label s r -> ~ substitution s) ->
  exists n, forall f rest, n <= f -> read_js f (dump r ++ rest) = Some (tree_js (lf_tree r), rest).
Proof.
  revert r.
  refine (rule_ctx_rect' (fun a => match a with Rule r => (forall s, label s r -> ~ substitution s) -> exists n, forall f rest, n <= f -> read_js f (dump r ++ rest) = Some (tree_js (lf_tree r), rest) | _ => True end) _ _ _ _ _).
  { done. } { done. } { intros r Hr. exact Hr. }
  intros n cs i HF Hd.
  set (g := fun c : ast => match c with Terminal t => Terminal (lf_token t) | Rule c => Rule (lf_tree c) | Error t => Error (lf_token t) end).
  assert (Hel : forall c, c ∈ cs -> exists n, forall f r, n <= f -> read_js f (dump_child c ++ r) = Some (child_js (g c), r)).
  { intros c Hcc. rewrite Forall_forall in HF. specialize (HF c Hcc). destruct c as [t|r|t]; simpl.
    - exists 4. intros f r Hf. apply leaf_some; [apply Hd; eapply label_name; eauto|apply Hd; eapply label_text; eauto|done].
    - apply HF. intros s Hs. apply Hd. by eapply label_below.
    - exists 4. intros f r Hf. apply leaf_some; [apply Hd; eapply label_name; eauto|apply Hd; eapply label_text; eauto|done]. }
  assert (Hbound : exists m, forall f rest, m <= f ->
    read_elements f (concat (map (fun c => dump_child c ++ lit ",") cs) ++ lit "]" ++ rest) = Some (map child_js (map g cs), rest)).
  { clear -Hel. induction cs as [|c cs IH].
    - exists 1. intros [|f] rest Hf; [lia|]. done.
    - destruct IH as (n1 & H1). { intros c' Hc'. apply Hel. by apply elem_of_list_further. }
      destruct (Hel c (elem_of_list_here _ _)) as (n2 & H2).
      exists (S (n1 + n2)). intros [|f] rest Hf; [lia|].
      specialize (H1 f rest ltac:(lia)).
      cbn [map concat]. rewrite <- !app_assoc. 
      set (tl := concat (map (fun c => dump_child c ++ lit ",") cs) ++ lit "]" ++ rest) in *. clearbody tl.
      specialize (H2 f (lit "," ++ tl) ltac:(lia)). norm_lits.
      destruct (dump_child_head c) as (s & Es). rewrite Es in *. cbn [read_elements].
      cbn -[read_js read_elements]. cbn -[read_js] in H2. rewrite H2. cbn -[read_js read_elements]. by rewrite H1. }
  destruct Hbound as (m & Hm). exists (5 + m). intros f rest Hf.
  rewrite dump_unfold. change (lf_tree (RuleCtx n cs i)) with (RuleCtx (lf_ends n) (map g cs) i). rewrite tree_js_unfold.
  do 5 (destruct f as [|f]; [lia|]).
  match goal with |- read_js _ ?s = _ =>
    assert (s = lit "{ name:`" ++ (escape n ++ c_backquote :: lit ",id: `" ++ (usize_to_string i ++ c_backquote ::
      lit ", children:[" ++ (concat (map (fun c => dump_child c ++ lit ",") cs) ++ lit "]" ++ lit ",}" ++ rest)))) as ->
      by (rewrite <- !app_assoc; reflexivity) end.
  specialize (Hm f (lit ",}" ++ rest) ltac:(lia)).
  set (s3 := concat _ ++ _) in *.
  pose proof (read_digits i (lit ", children:[" ++ s3)) as E2. set (s2 := usize_to_string i ++ _) in *.
  pose proof (read_template_some n (lit ",id: `" ++ s2) (Hd n (label_rule _ _ _))) as E1. set (s1 := escape n ++ _) in *.
  generalize dependent (lf_ends n). generalize dependent (map child_js (map g cs)). intros js Hm nm E1.
  clearbody s1 s2 s3. norm_lits.
  cbn -[read_template usize_to_string read_elements]. rewrite E1.
  cbn -[read_template usize_to_string read_elements]. rewrite E2.
  cbn -[read_template usize_to_string read_elements]. rewrite Hm. done.
Qed.

(** Reading fails, or ends where it should and no label has a substitution. *)
Lemma substitution_dec s : substitution s \/ ~ substitution s.
Proof.
  destruct (decide (Exists (fun k => take 2 (drop k s) = [c_dollar; c_lbrace]) (seq 0 (length s)))) as [D|D].
  - left. apply Exists_exists in D as (k & _ & D). exists (take k s), (drop 2 (drop k s)). rewrite <- D, take_drop, take_drop. done.
  - right. intros (a & b & E). apply D, Exists_exists. exists (length a). split.
    + rewrite elem_of_seq, E, !app_length. cbn. lia.
    + rewrite E, drop_app. done.
Qed.
Lemma template_either s r : read_template (escape s ++ c_backquote :: r) = None \/
  exists v, read_template (escape s ++ c_backquote :: r) = Some (v, r) /\ ~ substitution s.
Proof.
  destruct (substitution_dec s) as [H|H]; [left; by apply read_template_none|right].
  exists (lf_ends s). split; [by apply read_template_some|done].
Qed.
Lemma leaf_either t rest f : read_js f (dump_leaf t ++ rest) = None \/
  exists v, read_js f (dump_leaf t ++ rest) = Some (v, rest) /\ ~ substitution (token_name t) /\ ~ substitution (text t).
Proof.
  assert (dump_leaf t ++ rest = lit "{ name:`" ++ (escape (token_name t) ++ c_backquote :: lit ", text: `" ++
    (escape (text t) ++ c_backquote :: lit "}" ++ rest))) as ->.
  { unfold dump_leaf. rewrite <- !app_assoc. reflexivity. }
  destruct (template_either (token_name t) (lit ", text: `" ++ (escape (text t) ++ c_backquote :: lit "}" ++ rest))) as [E1|(v1 & E1 & N1)].
  { left. set (s1 := escape (token_name t) ++ _) in *. clearbody s1. norm_lits. do 3 (destruct f as [|f]; [reflexivity|]). cbn -[read_template]. by rewrite E1. }
  destruct (template_either (text t) (lit "}" ++ rest)) as [E2|(v2 & E2 & N2)].
  { left. set (s2 := escape (text t) ++ _) in *. set (s1 := escape (token_name t) ++ _) in *. clearbody s1 s2. norm_lits.
    do 4 (destruct f as [|f]; [try reflexivity; cbn -[read_template]; rewrite E1; reflexivity|]).
    cbn -[read_template]. rewrite E1. cbn -[read_template]. by rewrite E2. }
  set (s2 := escape (text t) ++ _) in *. set (s1 := escape (token_name t) ++ _) in *. clearbody s1 s2. norm_lits.
  do 4 (destruct f as [|f]; [left; try reflexivity; cbn -[read_template]; rewrite E1; reflexivity|]).
  right. cbn -[read_template]. rewrite E1. cbn -[read_template]. rewrite E2. eauto.
Qed.

Definition child_labels (c : ast) (s : str) : Prop :=
  match c with Rule r => label s r | Terminal t | Error t => s = token_name t \/ s = text t end.
Lemma child_either c : forall f rest, read_js f (dump_child c ++ rest) = None \/
  exists v, read_js f (dump_child c ++ rest) = Some (v, rest) /\ forall s, child_labels c s -> ~ substitution s.
Proof.
  assert (forall t f rest, read_js f (dump_leaf t ++ rest) = None \/
    exists v, read_js f (dump_leaf t ++ rest) = Some (v, rest) /\ forall s, s = token_name t \/ s = text t -> ~ substitution s) as Hleaf.
  { intros t f rest. destruct (leaf_either t rest f) as [H|(v & H & N1 & N2)]; [by left|right]. exists v. split; [done|]. by intros s [->| ->]. }
  destruct c as [t|r|t]; [apply Hleaf| |apply Hleaf]. cbn [dump_child child_labels].
  revert r. refine (rule_ctx_rect' (fun a => match a with Rule r => forall f rest, read_js f (dump r ++ rest) = None \/
    (exists v, read_js f (dump r ++ rest) = Some (v, rest) /\ forall s, label s r -> ~ substitution s) | _ => True end) _ _ _ _ _).
  { done. } { done. } { intros r Hr. exact Hr. }
  intros n cs i HF f rest.
  assert (Hel : forall c, c ∈ cs -> forall f rest, read_js f (dump_child c ++ rest) = None \/
    exists v, read_js f (dump_child c ++ rest) = Some (v, rest) /\ forall s, child_labels c s -> ~ substitution s).
  { intros c Hcc. rewrite Forall_forall in HF. specialize (HF c Hcc). destruct c as [t|r|t]; [apply Hleaf|exact HF|apply Hleaf]. }
  assert (Hlist : forall f rest, read_elements f (concat (map (fun c => dump_child c ++ lit ",") cs) ++ lit "]" ++ rest) = None \/
    exists l, read_elements f (concat (map (fun c => dump_child c ++ lit ",") cs) ++ lit "]" ++ rest) = Some (l, rest) /\
      forall c s, c ∈ cs -> child_labels c s -> ~ substitution s).
  { clear -Hel. induction cs as [|c cs IH]; intros f rest.
    - destruct f; [by left|right]. eexists. split; [reflexivity|]. intros c s H%elem_of_nil. done.
    - destruct f as [|f]; [by left|]. destruct (IH ltac:(intros c' Hc'; apply Hel; by apply elem_of_list_further) f rest) as [H1|(l & H1 & N1)];
        cbn [map concat]; rewrite <- !app_assoc;
        set (tl := concat (map (fun c => dump_child c ++ lit ",") cs) ++ lit "]" ++ rest) in *; clearbody tl;
        (destruct (Hel c (elem_of_list_here _ _) f (lit "," ++ tl)) as [H2|(v & H2 & N2)]; norm_lits;
          destruct (dump_child_head c) as (s & Es); rewrite Es in *; cbn [read_elements]; cbn -[read_js read_elements]; cbn -[read_js] in H2; rewrite H2;
          [by left|]; cbn -[read_js read_elements]; rewrite H1).
      + by left.
      + right. eexists. split; [reflexivity|]. intros c' s' [->|Hc]%elem_of_cons; [by apply N2|by eapply N1]. }
  rewrite dump_unfold.
  match goal with |- read_js _ ?s = _ \/ _ =>
    assert (s = lit "{ name:`" ++ (escape n ++ c_backquote :: lit ",id: `" ++ (usize_to_string i ++ c_backquote ::
      lit ", children:[" ++ (concat (map (fun c => dump_child c ++ lit ",") cs) ++ lit "]" ++ lit ",}" ++ rest)))) as ->
      by (rewrite <- !app_assoc; reflexivity) end.
  assert (forall f, read_elements f (concat (map (fun c => dump_child c ++ lit ",") cs) ++ lit "]" ++ lit ",}" ++ rest) = None \/
    exists l, read_elements f (concat (map (fun c => dump_child c ++ lit ",") cs) ++ lit "]" ++ lit ",}" ++ rest) = Some (l, lit ",}" ++ rest) /\
      forall c s, c ∈ cs -> child_labels c s -> ~ substitution s) as Hm by (intros f'; apply Hlist). clear Hlist.
  set (s3 := concat _ ++ _) in *.
  pose proof (read_digits i (lit ", children:[" ++ s3)) as E2. set (s2 := usize_to_string i ++ _) in *.
  destruct (template_either n (lit ",id: `" ++ s2)) as [E1|(v1 & E1 & N1)].
  { left. set (s1 := escape n ++ _) in *. clearbody s1. norm_lits. do 3 (destruct f as [|f]; [reflexivity|]). cbn -[read_template]. by rewrite E1. }
  set (s1 := escape n ++ _) in *.
  clearbody s1 s2 s3. norm_lits.
  do 5 (destruct f as [|f]; [left; try reflexivity; cbn -[read_template usize_to_string]; rewrite E1; try reflexivity;
    cbn -[read_template usize_to_string]; rewrite E2; reflexivity|]).
  cbn -[read_template usize_to_string read_elements]. rewrite E1.
  cbn -[read_template usize_to_string read_elements]. rewrite E2.
  cbn -[read_template usize_to_string read_elements]. destruct (Hm f) as [Hn|(l & Hn & N2)]; rewrite Hn; [by left|right].
  eexists. split; [reflexivity|]. intros s Hs. inversion Hs as [|t ? ? ? Ht|t ? ? ? Ht|c ? ? ? Hc]; subst; [done|..].
  - destruct Ht as [Ht|Ht]; eapply (N2 _ _ Ht); by left.
  - destruct Ht as [Ht|Ht]; eapply (N2 _ _ Ht); by right.
  - by eapply (N2 _ _ Hc).
Qed.

Lemma dump_none r s : label s r -> substitution s -> forall f rest, read_js f (dump r ++ rest) = None.
Proof.
  intros Hl Hs f rest. destruct (child_either (Rule r) f rest) as [H|(v & _ & N)]; [done|]. by destruct (N s Hl).
Qed.
Lemma c22_exact r :
  ((forall s, label s r -> ~ substitution s) ->
    exists n, forall f rest, n <= f -> read_js f (dump r ++ rest) = Some (tree_js (lf_tree r), rest)) /\
  (forall s, label s r -> substitution s -> forall f rest, read_js f (dump r ++ rest) = None).
Proof. split; [apply dump_some|apply dump_none]. Qed.

Lemma lf_no_cr s : c_cr ∉ lf_ends s.
Proof.
  induction s as [|c s IH]; [apply not_elem_of_nil|]. cbn [lf_ends]. destruct (N.eqb_spec c c_cr) as [->|H].
  - destruct s as [|e s]; [by intros ?%elem_of_list_singleton|]. destruct (N.eqb_spec e c_lf); [done|].
    intros [?|?]%elem_of_cons; done.
  - intros [?|?]%elem_of_cons; [congruence|done].
Qed.
Lemma lf_same s : lf_ends s = s -> c_cr ∉ s.
Proof. intros <-. apply lf_no_cr. Qed.
Lemma lf_js_same r : tree_js (lf_tree r) = tree_js r -> (forall s, label s r -> ~ substitution s) -> drawable_tree r.
Proof.
  assert (forall s, ~ substitution s -> lf_ends s = s -> drawable s) as K.
  { intros s H E%lf_same. split; [|done]. intros a b ->. apply H. exists a, b. done. }
  revert r. refine (rule_ctx_rect' (fun a => match a with Rule r => tree_js (lf_tree r) = tree_js r -> (forall s, label s r -> ~ substitution s) -> drawable_tree r | _ => True end) _ _ _ _ _).
  { done. } { done. } { intros r Hr. exact Hr. }
  intros n cs i HF E HN.
  set (g := fun c : ast => match c with Terminal t => Terminal (lf_token t) | Rule c => Rule (lf_tree c) | Error t => Error (lf_token t) end).
  change (lf_tree (RuleCtx n cs i)) with (RuleCtx (lf_ends n) (map g cs) i) in E. rewrite !tree_js_unfold in E.
  assert (lf_ends n = n /\ map child_js (map g cs) = map child_js cs) as [En Ec] by (injection E; auto). clear E.
  assert (forall c, c ∈ cs -> child_js (g c) = child_js c) as Ec'.
  { clear -Ec. induction cs as [|x cs IH]; [by intros c ?%elem_of_nil|]. cbn [map] in Ec.
    assert (child_js (g x) = child_js x /\ map child_js (map g cs) = map child_js cs) as [E1 E2] by (injection Ec; auto).
    intros c [->|H]%elem_of_cons; [done|by apply IH]. }
  assert (forall t, token_js (lf_token t) = token_js t -> lf_ends (token_name t) = token_name t /\ lf_ends (text t) = text t) as Et.
  { intros t E. unfold token_js, lf_token in E. cbn [token_name text] in E. injection E. auto. }
  constructor.
  - apply K; [apply HN; constructor|done].
  - intros t Ht.
    assert (lf_ends (token_name t) = token_name t /\ lf_ends (text t) = text t) as [E1 E2].
    { apply Et. destruct Ht as [Ht|Ht]; apply (Ec' _ Ht). }
    split; (apply K; [apply HN|done]); [by eapply label_name|by eapply label_text].
  - intros c Hc. rewrite Forall_forall in HF. apply (HF _ Hc); [apply (Ec' _ Hc)|].
    intros s Hs. apply HN. by eapply label_below.
Qed.
Lemma c22_iff r : drawable_tree r <-> exists n, forall f rest, n <= f -> read_js f (dump r ++ rest) = Some (tree_js r, rest).
Proof.
  split; [apply c22_dump|]. intros (n & H).
  assert (forall s, label s r -> ~ substitution s) as N.
  { intros s Hl Hs. pose proof (dump_none r s Hl Hs n []) as E. rewrite H in E; done. }
  apply lf_js_same; [|done]. destruct (dump_some r N) as (m & Hm).
  specialize (H (n + m) [] ltac:(lia)). rewrite Hm in H by lia. by injection H.
Qed.

Lemma ex_no_substitution : forall s, label s (RuleCtx (lit "a") [Terminal (token_new 2 (lit "X") [97; 13; 10; 13]%N)] 0) -> ~ substitution s.
Proof.
  assert (forall s, c_dollar ∉ s -> ~ substitution s) as K by (intros s H (a & b & ->); apply H; set_solver).
  intros s H. apply K. inversion H as [|t ? ? ? Ht|t ? ? ? Ht|c ? ? ? Hc]; subst.
  - apply (bool_decide_unpack _). by vm_compute.
  - destruct Ht as [Ht|Ht]; apply elem_of_list_singleton in Ht; [injection Ht as ->|done]. apply (bool_decide_unpack _). by vm_compute.
  - destruct Ht as [Ht|Ht]; apply elem_of_list_singleton in Ht; [injection Ht as ->|done]. apply (bool_decide_unpack _). by vm_compute.
  - by apply elem_of_list_singleton in Hc.
Qed.
Lemma drawable_leaf n cs i : drawable_tree (RuleCtx n cs i) -> forall t, Terminal t ∈ cs \/ Error t ∈ cs -> drawable (token_name t) /\ drawable (text t).
Proof. by inversion 1. Qed.
