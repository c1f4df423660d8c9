(** LiteralProofs.v -- C57: the regexes of string literals. *)
From Verif Require Export SpecLiteral RegexProofs CollectProofs SpecVisitor.

(** *** [replace] with a pattern of one or two characters *)
Lemma replace1_eq c r s : replace [c] r (c :: s) = r ++ replace [c] r s.
Proof. unfold replace. cbn. by rewrite N.eqb_refl. Qed.
Lemma replace1_ne c d r s : c <> d -> replace [c] r (d :: s) = d :: replace [c] r s.
Proof. intros H. unfold replace. cbn. by rewrite (proj2 (N.eqb_neq _ _) H). Qed.
Lemma replace2_eq b e r s : replace [b; e] r (b :: e :: s) = r ++ replace [b; e] r s.
Proof. unfold replace. cbn. by rewrite !N.eqb_refl. Qed.
Lemma replace2_ne b e d r s : b <> d -> replace [b; e] r (d :: s) = d :: replace [b; e] r s.
Proof. intros H. unfold replace. cbn. by rewrite (proj2 (N.eqb_neq _ _) H). Qed.
Lemma replace2_esc b e d r s : e <> d -> b <> d -> replace [b; e] r (b :: d :: s) = b :: d :: replace [b; e] r s.
Proof.
  intros H1 H2. unfold replace. cbn. by rewrite N.eqb_refl, (proj2 (N.eqb_neq _ _) H1), (proj2 (N.eqb_neq _ _) H2).
Qed.
Lemma replace_nil p r : replace p r [] = [].
Proof. done. Qed.

(** The text behind one character of the denoted text. *)
Definition escaped (c : N) : str := if (c =? 43)%N || (c =? 42)%N then [92%N; c] else [c].

Lemma literal_regex_nil : literal_regex [] = [].
Proof. done. Qed.
Lemma literal_regex_char c s : c <> 92%N -> literal_regex (c :: s) = escaped c ++ literal_regex s.
Proof.
  intros H. unfold literal_regex.
  change (lit "\n") with [92%N; 110%N]. change (lit "\t") with [92%N; 116%N]. change (lit "\\") with [92%N; 92%N].
  change (lit "\r") with [92%N; 114%N]. change (lit "\'") with [92%N; 39%N]. change (lit "+") with [43%N]. change (lit "*") with [42%N].
  change (lit "\+") with [92%N; 43%N]. change (lit "\*") with [92%N; 42%N]. change (lit "\") with [92%N]. change (lit "'") with [39%N].
  rewrite !(replace2_ne 92 _ c) by done. unfold escaped.
  destruct (N.eqb_spec c 43) as [->|H43].
  - rewrite replace1_eq. cbn [app orb]. rewrite !replace1_ne by done. done.
  - rewrite replace1_ne by done. cbn [orb]. destruct (N.eqb_spec c 42) as [->|H42].
    + rewrite replace1_eq. done.
    + by rewrite replace1_ne.
Qed.
Lemma literal_regex_escape e v s : (e, v) ∈ [(110%N, 10%N); (116%N, 9%N); (114%N, 13%N); (39%N, 39%N)] ->
  literal_regex (92%N :: e :: s) = escaped v ++ literal_regex s.
Proof.
  intros H. unfold literal_regex.
  change (lit "\n") with [92%N; 110%N]. change (lit "\t") with [92%N; 116%N]. change (lit "\\") with [92%N; 92%N].
  change (lit "\r") with [92%N; 114%N]. change (lit "\'") with [92%N; 39%N]. change (lit "+") with [43%N]. change (lit "*") with [42%N].
  change (lit "\+") with [92%N; 43%N]. change (lit "\*") with [92%N; 42%N]. change (lit "\") with [92%N]. change (lit "'") with [39%N].
  rewrite !elem_of_cons in H. destruct H as [H|[H|[H|[H|H]]]]; [..|by apply elem_of_nil in H]; injection H as -> ->;
    repeat first [rewrite replace2_eq; cbn [app] | rewrite replace2_esc by done | rewrite replace2_ne by done | rewrite replace1_ne by done]; done.
Qed.

Lemma denotes_regex body w : denotes body w -> 92%N ∉ w -> literal_regex body = concat (map escaped w).
Proof.
  induction 1 as [|c body w Hc H IH|e v body w He H IH]; intros Hw; [done|..]; apply not_elem_of_cons in Hw as [Hv Hw]; cbn [map concat].
  - rewrite literal_regex_char by done. by rewrite IH.
  - rewrite (literal_regex_escape e v); [by rewrite IH|]. rewrite !elem_of_cons in He. rewrite !elem_of_cons.
    destruct He as [He|[He|[He|[He|[He|He]]]]]; auto 10; first [by apply elem_of_nil in He | exfalso; apply Hv; congruence].
Qed.

(** *** The regex text is read as the chain of the characters *)
Fixpoint chain (w : str) : re :=
  match w with
  | [] => REmpty
  | [c] => RClass false [CRange c c]
  | c :: w' => RCat (RClass false [CRange c c]) (chain w')
  end.
Lemma chain_cons c w : w <> [] -> chain (c :: w) = RCat (RClass false [CRange c c]) (chain w).
Proof. by destruct w. Qed.
Lemma chain_ne w : w <> [] -> chain w <> REmpty.
Proof. by destruct w as [|c [|d w]]. Qed.

Definition plain (c : N) : Prop := c ∉ unescaped_meta.
Lemma escaped_ne c : escaped c <> [].
Proof. unfold escaped. by destruct (_ || _). Qed.

Lemma postfix_plain a w s : Forall plain w -> postfix a (concat (map escaped w) ++ 41%N :: s) = (a, concat (map escaped w) ++ 41%N :: s).
Proof.
  destruct w as [|c w]; intros H; [done|]. apply Forall_cons in H as [H _]. cbn [map concat]. rewrite <- app_assoc.
  generalize (concat (map escaped w) ++ 41%N :: s) as t. intros t. unfold escaped.
  destruct (N.eqb_spec c 43) as [->|H43]; [done|]. destruct (N.eqb_spec c 42) as [->|H42]; [done|]. cbn [orb app].
  assert (c <> 63%N) by (intros ->; apply H; cbn; apply elem_of_list_In; cbn; auto 20).
  unfold postfix. repeat (match goal with |- context[match ?x with _ => _ end] => is_var x; destruct x end; try done).
Qed.

Lemma meta_plain c : plain c -> c <> 43%N -> c <> 42%N -> meta c && negb (existsb (N.eqb c) (lit "#&-~")) = false.
Proof.
  intros Hp H1 H2. destruct (meta c) eqn:E; [|done]. cbn [andb]. apply negb_false_iff. unfold meta in E.
  apply existsb_exists in E as [d [Hd E]]. apply N.eqb_eq in E as <-. apply existsb_exists. exists c. split; [|apply N.eqb_refl].
  assert (~ In c unescaped_meta) as Hn by (intros Hi; apply Hp; by apply elem_of_list_In).
  apply not_eq_sym in H1, H2. cbn in Hd, Hn |- *. tauto.
Qed.

Lemma parse_plain c fuel s : plain c -> c <> 43%N -> c <> 42%N ->
  parse_re (S fuel) false false (c :: s) =
    let '(a, s') := postfix (RClass false [CRange c c]) s in
    match parse_re fuel false false s' with
    | Some (REmpty, r) => Some (a, r)
    | Some (b, r) => Some (RCat a b, r)
    | None => None
    end.
Proof.
  intros Hp H1 H2. pose proof (meta_plain c Hp H1 H2) as Hm.
  assert (~ In c unescaped_meta) as Hn by (intros Hi; apply Hp; by apply elem_of_list_In). cbn in Hn.
  cbn [parse_re]. rewrite Hm. set (k := let '(a, s') := postfix (RClass false [CRange c c]) s in _). clearbody k. clear Hm Hp.
  repeat (match goal with |- context[match ?x with _ => _ end] => is_var x; destruct x end; try reflexivity; try (exfalso; tauto)).
Qed.

Lemma parse_escaped c fuel s : plain c ->
  parse_re (S fuel) false false (escaped c ++ s) =
    let '(a, s') := postfix (RClass false [CRange c c]) s in
    match parse_re fuel false false s' with
    | Some (REmpty, r) => Some (a, r)
    | Some (b, r) => Some (RCat a b, r)
    | None => None
    end.
Proof.
  intros Hp. unfold escaped. destruct (N.eqb_spec c 43) as [->|H43]; [reflexivity|]. destruct (N.eqb_spec c 42) as [->|H42]; [reflexivity|].
  cbn [orb app]. by apply parse_plain.
Qed.

Lemma parse_chain w s : Forall plain w -> forall fuel, length w < fuel ->
  parse_re fuel false false (concat (map escaped w) ++ 41%N :: s) = Some (chain w, 41%N :: s).
Proof.
  induction 1 as [|c w Hc Hw IH]; intros fuel Hf; (destruct fuel as [|fuel]; [cbn in Hf; lia|]); [reflexivity|].
  cbn [map concat]. rewrite <- app_assoc, parse_escaped by done. rewrite postfix_plain by done.
  rewrite IH by (cbn in Hf; lia). destruct w as [|d w]; [reflexivity|]. rewrite (chain_cons c (d :: w)) by done.
  pose proof (chain_ne (d :: w) ltac:(done)) as Hne. by destruct (chain (d :: w)).
Qed.

Lemma concat_escaped_length w : length w <= length (concat (map escaped w)).
Proof.
  induction w as [|c w IH]; [done|]. cbn [map concat length]. rewrite app_length.
  pose proof (escaped_ne c). destruct (escaped c); [done|]. cbn. lia.
Qed.

Lemma regex_of_literal body w : denotes body w -> Forall plain w ->
  regex_of_text (lit "^(" ++ literal_regex body ++ lit ")") = Some (chain w).
Proof.
  intros Hd Hw. rewrite (denotes_regex _ _ Hd); cycle 1.
  { intros H. rewrite Forall_forall in Hw. apply (Hw _ H). apply elem_of_list_In. vm_compute. auto. }
  change (lit ")") with [41%N]. change (lit "^(") with [94%N; 40%N]. cbn [app regex_of_text].
  pose proof (concat_escaped_length w) as Hl. set (t := concat (map escaped w) ++ [41%N]).
  assert (length t = length (concat (map escaped w)) + 1) as Ht by (subst t; by rewrite app_length).
  replace (2 * length (40%N :: t) + 2) with (S (S (2 * length t + 2))) by (cbn; lia).
  assert (parse_re (2 * length t + 2) true false t = Some (chain w, [41%N])) as Hin.
  { replace (2 * length t + 2) with (S (2 * length t + 1)) by lia. cbn [parse_re]. subst t. rewrite parse_chain by (done || lia). done. }
  assert (parse_re (S (2 * length t + 2)) false false (40%N :: t) = Some (chain w, [])) as Hout.
  { assert (parse_re (2 * length t + 2) false false [] = Some (REmpty, [])) as He by (by replace (2 * length t + 2) with (S (2 * length t + 1)) by lia).
    revert Hin He. generalize (2 * length t + 2) as f. intros f Hin He. cbn [parse_re].
    assert (forall s', t <> 63%N :: s') as Hq.
    { intros s' E. subst t. destruct w as [|c w]; [done|]. apply Forall_cons in Hw as [Hc _]. cbn [map concat] in E. unfold escaped in E.
      destruct (_ || _); [done|]. cbn in E. injection E as -> _. apply Hc. apply elem_of_list_In. cbn. auto 20. }
    assert (match parse_re f true false t with
            | Some (a, 41%N :: s'') => let '(a, s') := postfix a s'' in
                 match parse_re f false false s' with
                 | Some (REmpty, r) => Some (a, r)
                 | Some (b, r) => Some (RCat a b, r)
                 | None => None
                 end
            | _ => None end = Some (chain w, [])) as Hk by (rewrite Hin; cbn [postfix]; by rewrite He).
    revert Hk. set (k := match parse_re f true false t with Some _ => _ | None => _ end). clearbody k. intros ->. clear - Hq.
    destruct t as [|c t]; [reflexivity|]. assert (c <> 63%N) by (intros ->; by eapply Hq). clear Hq.
    repeat (match goal with |- context[match ?x with _ => _ end] => is_var x; destruct x end; try reflexivity; try congruence). }
  cbn [parse_re] in Hout |- *. by rewrite Hout.
Qed.

(** *** Matching *)
Lemma rests_chain nd w : forall s, (forall s', s = w ++ s' -> rests nd (chain w) s = [s']) /\ ((forall s', s <> w ++ s') -> rests nd (chain w) s = []).
Proof.
  induction w as [|c w IH]; intros s.
  - split; [by intros s' ->|intros H; exfalso; by apply (H s)].
  - assert (Hc : forall (d : N) (t : str), in_class nd false [CRange c c] d = (c =? d)%N).
    { intros d _. unfold in_class. cbn [existsb in_item]. rewrite orb_false_r, xorb_false_l.
      destruct (N.eqb_spec c d) as [->|Hn]; [by rewrite N.leb_refl|].
      destruct (N.leb_spec c d) as [H1|H1], (N.leb_spec d c) as [H2|H2]; try done. exfalso. apply Hn. by apply N.le_antisymm. }
    assert (E : rests nd (chain (c :: w)) s = match s with d :: t => if (c =? d)%N then rests nd (chain w) t else [] | [] => [] end).
    { destruct w as [|e w].
      - cbn [chain rests]. destruct s as [|d t]; [done|]. by rewrite (Hc d t).
      - rewrite (chain_cons c (e :: w)) by done. cbn [rests]. destruct s as [|d t]; [done|]. rewrite (Hc d t).
        destruct (c =? d)%N; [|done]. cbn [map concat]. apply app_nil_r. }
    rewrite E. split.
    + intros s' ->. cbn [app]. rewrite N.eqb_refl. by apply IH.
    + intros H. destruct s as [|d t]; [done|]. destruct (N.eqb_spec c d) as [->|Hn]; [|done].
      apply IH. intros s' ->. by apply (H s').
Qed.

Lemma chain_exact nd w : matches_exactly (find_at0 nd (chain w)) w.
Proof.
  intros s. destruct (rests_chain nd w s) as [H1 H2]. unfold find_at0. split.
  - intros s' E. rewrite (H1 _ E), E. f_equal. rewrite blen_app. lia.
  - intros H. by rewrite H2.
Qed.

Theorem c57_regex nd body w : denotes body w -> Forall (.∉ unescaped_meta) w ->
  exists m, compile nd (lit "^(" ++ literal_regex body ++ lit ")") = Some m /\ matches_exactly m w.
Proof.
  intros Hd Hw. exists (find_at0 nd (chain w)). split; [|apply chain_exact]. unfold compile. by rewrite (regex_of_literal body w).
Qed.

Theorem c57_literals nd r x s' i d a body b w :
  visit_children strings_visitor r strings_new = Ret (x, s') -> st_data s' !! i = Some d ->
  first_occurrences id [] (literal_texts r) !! i = Some (a :: body ++ [b]) ->
  denotes body w -> Forall (.∉ unescaped_meta) w ->
  exists m, compile nd (ld_regex d) = Some m /\ matches_exactly m w.
Proof.
  intros Hv Hd Hl Hden Hw. destruct (c48_strings r) as [H _]. destruct (H x s' Hv) as (_ & _ & _ & Hf).
  destruct (Hf i d _ Hd Hl) as (body' & (a' & b' & E & _) & ->).
  injection E as -> E. apply app_inj_tail in E as [<- <-]. by apply c57_regex.
Qed.

(** *** The full claim fails *)
Theorem c57_dot : exists body w, denotes body w /\ forall nd, exists m s,
  compile nd (lit "^(" ++ literal_regex body ++ lit ")") = Some m /\ m s <> None /\ forall s', s <> w ++ s'.
Proof.
  exists (lit "."), (lit "."). split; [apply denotes_char; [done|apply denotes_nil]|].
  intros nd. exists (find_at0 nd (RClass true [CRange 10 10])), (lit "x"). split; [reflexivity|]. split; [discriminate|]. done.
Qed.
Theorem c57_backslash : exists body w, denotes body w /\ forall nd, exists m,
  compile nd (lit "^(" ++ literal_regex body ++ lit ")") = Some m /\ (nd 92%N = false -> m w = None).
Proof.
  exists (lit "\\d"), (lit "\d"). split.
  { apply (denotes_escape 92 92); [apply elem_of_list_In; cbn; auto 10|]. apply denotes_char; [done|apply denotes_nil]. }
  intros nd. exists (find_at0 nd (RClass false [CDigit])). split; [reflexivity|]. intros Hn. unfold find_at0, rests, in_class.
  change (lit "\d") with [92%N; 100%N]. cbn [existsb in_item]. by rewrite Hn.
Qed.
Theorem c57_unopened : exists body w, denotes body w /\ forall nd, compile nd (lit "^(" ++ literal_regex body ++ lit ")") = None.
Proof.
  exists (lit "("), (lit "("). split; [apply denotes_char; [done|apply denotes_nil]|]. intros nd. reflexivity.
Qed.
Lemma ex_literal : denotes (lit "+\n'*") [43; 10; 39; 42]%N /\ Forall (.∉ unescaped_meta) [43; 10; 39; 42]%N /\
  literal_regex (lit "+\n'*") = (lit "\+" ++ [10%N] ++ lit "'\*").
Proof.
  split; [|split; [|reflexivity]].
  - apply denotes_char; [done|]. apply (denotes_escape 110 10); [apply elem_of_list_In; cbn; auto|].
    apply denotes_char; [done|]. apply denotes_char; [done|]. apply denotes_nil.
  - repeat (apply Forall_cons; split); [..|by apply Forall_nil]; apply (bool_decide_unpack _); vm_compute; exact I.
Qed.
