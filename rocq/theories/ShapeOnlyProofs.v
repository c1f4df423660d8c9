(** ShapeOnlyProofs.v -- C94. *)
From Verif Require Export SpecShapeOnly CrashProofs.

Lemma asts_alike_app N R l1 l1' : asts_alike N R l1 l1' -> forall l2 l2', asts_alike N R l2 l2' -> asts_alike N R (l1 ++ l2) (l1' ++ l2').
Proof. induction 1; intros; cbn [app]; [done|]. constructor; auto. Qed.
Lemma asts_alike_one N R a a' : ast_alike N R a a' -> asts_alike N R [a] [a'].
Proof. intros. constructor; [done|constructor]. Qed.
Lemma ctx_alike_children N R r r' : ctx_alike N R r r' -> asts_alike N R (children r) (children r').
Proof. by inversion 1. Qed.

Section alike.
  Context (voc voc' : vocabulary) (R : token -> token -> Prop) (toks toks' : list token).
  Context (Hv : named_alike voc voc') (HR : forall t t', R t t' -> token_type t = token_type t') (Ht : Forall2 R toks toks').
  Notation A := (asts_alike (own_names voc voc') R).
  Notation C := (ctx_alike (own_names voc voc') R).

  Definition both {X Y} (P : X -> Y -> Prop) (x : logged X) (y : logged Y) : Prop :=
    x.1 = y.1 /\ match x.2, y.2 with inl a, inl b => P a b | inr e, inr e' => e = e' | _, _ => False end.
  Lemma both_bind {X Y X' Y'} (P : X -> Y -> Prop) (Q : X' -> Y' -> Prop) m m' f f' :
    both P m m' -> (forall a a', P a a' -> both Q (f a) (f' a')) -> both Q (lbind m f) (lbind m' f').
  Proof.
    intros [H1 H2] H. destruct m as [l [a|e]], m' as [l' [a'|e']]; cbn in H1, H2; try done; subst; cbn [lbind]; try done.
    specialize (H _ _ H2). destruct (f a) as [k x], (f' a') as [k' x'], H as [K1 K2]; cbn in *. subst. by split.
  Qed.
  Lemma both_token cursor : both R (Crash.lor (toks !! cursor) (NoToken cursor)) (Crash.lor (toks' !! cursor) (NoToken cursor)).
  Proof.
    destruct (toks !! cursor) as [t|] eqn:E.
    - destruct (Forall2_lookup_l _ _ _ _ _ Ht E) as (t' & -> & H). by split.
    - apply lookup_ge_None in E. rewrite (Forall2_length _ _ _ Ht) in E. apply lookup_ge_None in E. rewrite E. by split.
  Qed.
  Lemma items_alike rec rec' : (forall c i, both (fun x y => C x.1 y.1 /\ x.2 = y.2) (rec c i) (rec' c i)) ->
    forall rhs cursor kids kids', A kids kids' ->
      both (fun x y => x.1 = y.1 /\ A x.2 y.2) (log_items voc toks rec rhs cursor kids) (log_items voc' toks' rec' rhs cursor kids').
  Proof.
    intros Hrec. induction rhs as [|[i|ty] rhs IH]; intros cursor kids kids' Hk; cbn [log_items]; [by split| |].
    - eapply both_bind; [apply Hrec|]. intros [r c] [r' c'] [H1 H2]. cbn in H1, H2. subst c'. apply IH. specialize (Hv i).
      destruct (get_nonterminal_name_by_id voc i), (get_nonterminal_name_by_id voc' i); apply asts_alike_app; try done.
      + apply asts_alike_one. by constructor.
      + exfalso. by destruct Hv as [_ H]; specialize (H eq_refl).
      + exfalso. by destruct Hv as [H _]; specialize (H eq_refl).
      + by apply ctx_alike_children.
    - apply (both_bind R); [apply both_token|]. intros t t' H. rewrite (HR _ _ H). apply (both_bind (fun _ _ => True)); [by split|]. intros _ _ _.
      apply IH, asts_alike_app, asts_alike_one; [done|by constructor].
  Qed.
  Lemma log_alike tab fuel : forall cursor i,
    both (fun x y => C x.1 y.1 /\ x.2 = y.2) (log_ast voc tab toks fuel cursor i) (log_ast voc' tab toks' fuel cursor i).
  Proof.
    induction fuel as [|fuel IH]; intros cursor i; cbn [log_ast]; [by split|].
    apply (both_bind R); [apply both_token|]. intros t t' H. rewrite (HR _ _ H).
    apply (both_bind eq); [by destruct (tab !! (i, token_type t'))|]. intros p ? <-.
    eapply both_bind; [apply items_alike; [exact IH|constructor]|]. intros [c kids] [c' kids'] [H1 H2]. cbn in H1, H2. subst c'.
    split; [done|]. cbn. split; [|done]. by constructor.
  Qed.
End alike.

Lemma c94_log voc voc' tab (R : token -> token -> Prop) toks toks' fuel cursor i :
  named_alike voc voc' -> (forall t t', R t t' -> token_type t = token_type t') -> Forall2 R toks toks' ->
  (log_ast voc tab toks fuel cursor i).1 = (log_ast voc' tab toks' fuel cursor i).1 /\
  match (log_ast voc tab toks fuel cursor i).2, (log_ast voc' tab toks' fuel cursor i).2 with
  | inl (r, c), inl (r', c') => ctx_alike (own_names voc voc') R r r' /\ c = c'
  | inr e, inr e' => e = e'
  | _, _ => False
  end.
Proof.
  intros Hv HR Ht. pose proof (log_alike voc voc' R toks toks' Hv HR Ht tab fuel cursor i) as [H1 H2]. split; [done|].
  destruct (log_ast voc tab toks fuel cursor i).2 as [[r c]|e], (log_ast voc' tab toks' fuel cursor i).2 as [[r' c']|e']; done.
Qed.
Lemma c94_entry voc voc' tab (R : token -> token -> Prop) toks toks' fuel i :
  named_alike voc voc' -> (forall t t', R t t' -> token_type t = token_type t') -> Forall2 R toks toks' ->
  match entry voc tab toks fuel i, entry voc' tab toks' fuel i with
  | Ret (r, mm), Ret (r', mm') => ctx_alike (own_names voc voc') R r r' /\ mm = mm'
  | Panic, Panic => True
  | OutOfFuel, OutOfFuel => True
  | _, _ => False
  end.
Proof.
  intros Hv HR Ht. pose proof (c94_log voc voc' tab R toks toks' fuel 0 i Hv HR Ht) as [H1 H2]. unfold entry. rewrite !log_ast_same.
  destruct (log_ast voc tab toks fuel 0 i) as [l [[r c]|e]], (log_ast voc' tab toks' fuel 0 i) as [l' [[r' c']|e']]; cbn in H1, H2 |- *; try done; subst.
  - by destruct H2.
  - by destruct e'.
Qed.

(** A function on tokens. *)
Scheme ast_alike_ind2 := Induction for ast_alike Sort Prop with ctx_alike_ind2 := Induction for ctx_alike Sort Prop with asts_alike_ind2 := Induction for asts_alike Sort Prop.
Lemma alike_map voc f r r' : ctx_alike (own_names voc voc) (fun t t' => t' = f t) r r' -> r' = map_ctx f r.
Proof.
  revert r r'. apply (ctx_alike_ind2 (own_names voc voc) (fun t t' => t' = f t) (fun a a' _ => a' = map_ast f a) (fun r r' _ => r' = map_ctx f r) (fun l l' _ => l' = map (map_ast f) l)).
  - intros t t' ->. done.
  - intros t t' ->. done.
  - intros r r' _ ->. done.
  - intros n n' cs cs' i [-> ->] _ ->. done.
  - done.
  - intros a a' l l' _ -> _ ->. done.
Qed.
Lemma c94_map voc tab f toks fuel cursor i : (forall t, token_type (f t) = token_type t) ->
  log_ast voc tab (map f toks) fuel cursor i =
  match log_ast voc tab toks fuel cursor i with
  | (mm, inl (r, c)) => (mm, inl (map_ctx f r, c))
  | (mm, inr e) => (mm, inr e)
  end.
Proof.
  intros Hf. assert (Forall2 (fun t t' => t' = f t) toks (map f toks)) as Ht by (induction toks; constructor; done).
  pose proof (c94_log voc voc tab (fun t t' => t' = f t) toks (map f toks) fuel cursor i (fun _ => reflexivity _) ltac:(by intros t ? ->) Ht) as [H1 H2].
  destruct (log_ast voc tab toks fuel cursor i) as [l [[r c]|e]], (log_ast voc tab (map f toks) fuel cursor i) as [l' [[r' c']|e']]; cbn in H1, H2; try done; subst.
  - destruct H2 as [H <-]. by rewrite (alike_map _ _ _ _ H).
  - done.
Qed.

(** The run of C87 with other texts and names. *)
Definition ex_respell (t : token) : token := Token (token_type t) (lit "other") (start t) (stop t) 7 (lit "text") 3 1 2.
Definition ex_voc_renamed : vocabulary :=
  vrun vocabulary_new [AddTerminal 2 (lit "PLUS"); AddNamed 0 (lit "summe"); AddNamed 1 (lit "glied"); AddUnnamed 2].
Lemma ex_named_alike : named_alike ex_voc ex_voc_renamed.
Proof.
  intros i. unfold get_nonterminal_name_by_id.
  assert (dom (nt_id_to_name ex_voc) = dom (nt_id_to_name ex_voc_renamed)) as H by (apply (bool_decide_unpack _); vm_compute; exact I).
  rewrite <- !not_elem_of_dom. by rewrite H.
Qed.
Lemma ex_c94 : named_alike ex_voc ex_voc_renamed /\ (forall t, token_type (ex_respell t) = token_type t) /\ map ex_respell (map GrammarMain.tk [3; 5; 1; 2; 1]) <> map GrammarMain.tk [3; 5; 1; 2; 1] /\
  log_parse ex_voc_renamed ex_tab (map ex_respell (map GrammarMain.tk [3; 5; 1; 2; 1])) 20 = ([(2, 4)], inr (NoEntry 4 1)).
Proof.
  split; [apply ex_named_alike|]. split; [done|]. split; [by vm_compute|]. vm_compute. reflexivity.
Qed.
