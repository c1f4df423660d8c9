(** TokensProofs.v -- C100: lexer rules in another order, through the whole tool chain. *)
From Verif Require Export SpecTokens MoreMain ReorderProofs.

(** *** Grammars that differ in the numbers of their symbols *)
Definition sym (π ρ : nat -> nat -> Prop) (x y : item) : Prop := match x, y with T t, T u => π t u | NT a, NT b => ρ a b | _, _ => False end.
Definition prod_sym (π ρ : nat -> nat -> Prop) (p q : production) : Prop := ρ (left p) (left q) /\ Forall2 (sym π ρ) (right p) (right q).
Lemma sym_flip π ρ x y : sym π ρ x y -> sym (flip π) (flip ρ) y x.
Proof. destruct x, y; cbn; done. Qed.
Lemma syms_flip π ρ xs ys : Forall2 (sym π ρ) xs ys -> Forall2 (sym (flip π) (flip ρ)) ys xs.
Proof. induction 1; constructor; [by apply sym_flip|done]. Qed.
Lemma prod_flip π ρ p q : prod_sym π ρ p q -> prod_sym (flip π) (flip ρ) q p.
Proof. intros [H1 H2]. split; [done|by apply syms_flip]. Qed.

Lemma prod_mono (π ρ π' ρ' : nat -> nat -> Prop) p q : (forall a b, π a b -> π' a b) -> (forall a b, ρ a b -> ρ' a b) -> prod_sym π ρ p q -> prod_sym π' ρ' p q.
Proof.
  intros Hp Hr [H1 H2]. split; [by apply Hr|]. eapply Forall2_impl; [exact H2|]. intros [a|t] [b|u]; cbn; auto.
Qed.

Section iso.
  Context (π ρ : nat -> nat -> Prop) (Hp : forall a b c, π a b -> π a c -> b = c) (Hf : forall a b c, ρ a b -> ρ a c -> b = c) (H0 : ρ 0 0) (H1 : π 1 1).
  Context (P P' : gset production) (HP : forall p, p ∈ P -> exists p', p' ∈ P' /\ prod_sym π ρ p p').
  Notation R := (Forall2 (sym π ρ)).
  Lemma syms_fun xs ys zs : R xs ys -> R xs zs -> ys = zs.
  Proof using Hf Hp.
    intros H. revert zs. induction H as [|x y xs ys Hx _ IH]; intros zs Hz; inversion Hz as [|? z ? zs' Hz1 Hz2]; subst; [done|]. f_equal; [|by apply IH].
    destruct x, y, z; cbn in *; try done; f_equal; [by eapply Hf|by eapply Hp].
  Qed.
  Lemma derives_sym α β : derives P α β -> forall α', R α α' -> exists β', R β β' /\ derives P' α' β'.
  Proof using Hf HP.
    induction 1 as [α|α β γ Hs _ IH]; intros α' Ha; [exists α'; split; [done|apply rtc_refl]|].
    inversion Hs as [a p b Hp1 E1 E2]; subst. apply Forall2_app_inv_l in Ha as (a' & x' & Ha & Hx & ->). inversion Hx as [|? y ? b' Hy Hb]; subst.
    destruct y as [B|]; [|done]. cbn in Hy. destruct (HP p Hp1) as (p' & Hp' & Hl & Hr). pose proof (Hf _ _ _ Hl Hy) as <-.
    destruct (IH (a' ++ right p' ++ b')) as (g' & Hg & Hd); [by repeat apply Forall2_app|].
    exists g'. split; [done|]. eapply rtc_l; [|exact Hd]. by apply rewrites_intro.
  Qed.
  Lemma nullable_sym α α' : R α α' -> nullable P α -> nullable P' α'.
  Proof using Hf HP. intros Ha Hd. destruct (derives_sym _ _ Hd _ Ha) as (b & Hb & Hd'). inversion Hb; subst. exact Hd'. Qed.
  Lemma starts_sym α α' t u : R α α' -> π t u -> starts P α t -> starts P' α' u.
  Proof using Hf HP Hp.
    intros Ha Htu [β Hd]. destruct (derives_sym _ _ Hd _ Ha) as (b & Hb & Hd'). inversion Hb as [|? y ? b' Hy Hb' E]; subst. destruct y as [|x]; cbn in Hy; [done|].
    pose proof (Hp _ _ _ Htu Hy) as <-. by exists b'.
  Qed.
  Lemma follows_in_sym X X' A A' t u : ρ X X' -> ρ A A' -> π t u -> follows_in P X A t -> follows_in P' X' A' u.
  Proof using Hf HP Hp.
    intros HX HA Htu (α & β & Hd). destruct (derives_sym _ _ Hd [NT X']) as (b & Hb & Hd'); [by constructor|].
    apply Forall2_app_inv_l in Hb as (a' & x' & Ha & Hx & ->). inversion Hx as [|? y ? b' Hy Hb' E]; subst. inversion Hb' as [|? z ? b'' Hz Hb'']; subst.
    destruct y as [B|], z as [|x]; cbn in Hy, Hz; try done. pose proof (Hp _ _ _ Htu Hz) as <-. pose proof (Hf _ _ _ HA Hy) as <-. by exists a', b''.
  Qed.
  Lemma follows_sym A A' t u : ρ A A' -> π t u -> follows P A t -> follows P' A' u.
  Proof using Hf HP H0 H1 Hp.
    intros HA Htu [[X H]|[-> (α & Hd)]].
    - left. assert (exists X', ρ X X') as [X' HX].
      { destruct H as (α & β & Hd). apply rtc_inv in Hd as [E|(y & Hs & _)].
        - apply (f_equal length) in E. rewrite app_length in E. cbn in E. lia.
        - inversion Hs as [a p b Hp1 E1 E2]. destruct a as [|? [|]]; [|done|done]. injection E1 as E1 _. subst X. destruct (HP p Hp1) as (p' & _ & Hl & _). by exists (left p'). }
      exists X'. by eapply follows_in_sym.
    - right. split; [by eapply Hp|]. destruct (derives_sym _ _ Hd [NT 0]) as (b & Hb & Hd'); [by constructor|].
      apply Forall2_app_inv_l in Hb as (a' & x' & Ha & Hx & ->). inversion Hx as [|? y ? b' Hy Hb' E]; subst. inversion Hb'; subst.
      destruct y as [B|]; cbn in Hy; [|done]. pose proof (Hf _ _ _ HA Hy) as <-. by exists a'.
  Qed.
  Lemma predicts_sym p p' t u : prod_sym π ρ p p' -> π t u -> predicts P p t -> predicts P' p' u.
  Proof using Hf HP H0 H1 Hp.
    intros [Hl Hr] Htu [H|[K1 K2]]; [left; by eapply starts_sym|right]. split; [by eapply nullable_sym|by eapply follows_sym].
  Qed.
  (** Whatever is predicted is a token of the grammar or the end. *)
  Lemma derives_tokens α β : derives P α β -> (forall t, T t ∈ α -> exists u, π t u) -> forall t, T t ∈ β -> exists u, π t u.
  Proof using HP.
    clear Hp Hf H0 H1. induction 1 as [α|α β γ Hs _ IH]; intros Ha; [done|]. apply IH. inversion Hs as [a p b Hp1 E1 E2]; subst. intros t Ht. rewrite !elem_of_app in Ht.
    destruct Ht as [Ht|[Ht|Ht]]; [apply Ha; set_solver| |apply Ha; set_solver]. destruct (HP p Hp1) as (p' & _ & _ & Hr). apply elem_of_list_lookup in Ht as [i Hi].
    destruct (Forall2_lookup_l _ _ _ _ _ Hr Hi) as (y & _ & Hy). destruct y as [|u]; [done|]. by exists u.
  Qed.
  Lemma predicts_token p t : p ∈ P -> predicts P p t -> exists u, π t u.
  Proof using HP H1.
    clear Hp Hf H0. intros Hin [[β Hd]|[_ [[X (α & β & Hd)]|[-> _]]]]; [| |by exists 1].
    - eapply (derives_tokens _ _ Hd); [|by left]. intros x Hx. destruct (HP p Hin) as (p' & _ & _ & Hr). apply elem_of_list_lookup in Hx as [i Hi].
      destruct (Forall2_lookup_l _ _ _ _ _ Hr Hi) as (y & _ & Hy). destruct y as [|u]; [done|]. by exists u.
    - eapply (derives_tokens _ _ Hd); [|set_solver]. intros x Hx. apply elem_of_list_singleton in Hx. done.
  Qed.
End iso.

Section both.
  Context (π ρ : nat -> nat -> Prop) (Hp : forall a b c, π a b -> π a c -> b = c) (Hpi : forall a b c, π a c -> π b c -> a = b).
  Context (Hf : forall a b c, ρ a b -> ρ a c -> b = c) (Hi : forall a b c, ρ a c -> ρ b c -> a = b) (H0 : ρ 0 0) (H1 : π 1 1).
  Context (P P' : gset production) (HP : forall p, p ∈ P -> exists p', p' ∈ P' /\ prod_sym π ρ p p') (HP' : forall p', p' ∈ P' -> exists p, p ∈ P /\ prod_sym π ρ p p').
  Lemma flipped : (forall a b c, flip π a b -> flip π a c -> b = c) /\ (forall a b c, flip ρ a b -> flip ρ a c -> b = c) /\
    forall p', p' ∈ P' -> exists p, p ∈ P /\ prod_sym (flip π) (flip ρ) p' p.
  Proof using HP' Hpi Hi.
    split_and!; [intros a b c; unfold flip; eauto..|]. intros p' H. destruct (HP' p' H) as (p & ? & ?). exists p. split; [done|by apply prod_flip].
  Qed.
  Lemma ll1_sym : ll1 P -> ll1 P'.
  Proof using Hp Hpi Hf Hi H0 H1 HP HP'.
    intros H p' q' u Kp Kq El Hpp Hpq. destruct (HP' p' Kp) as (p & Hp1 & Rp), (HP' q' Kq) as (q & Hq1 & Rq). destruct flipped as (F1 & F2 & F3).
    destruct (predicts_token (flip π) (flip ρ) H1 P' P F3 p' u Kp Hpp) as [t Ht].
    pose proof (predicts_sym (flip π) (flip ρ) F1 F2 H0 H1 P' P F3 p' p u t (prod_flip _ _ _ _ Rp) Ht Hpp) as K1.
    pose proof (predicts_sym (flip π) (flip ρ) F1 F2 H0 H1 P' P F3 q' q u t (prod_flip _ _ _ _ Rq) Ht Hpq) as K2.
    assert (p = q) as <-.
    { apply (H p q t); try done. destruct Rp as [Rp _], Rq as [Rq _]. rewrite El in Rp. by eapply Hi. }
    destruct Rp as [L1 R1], Rq as [L2 R2]. destruct p', q'. cbn in *. subst. f_equal. by eapply (syms_fun π ρ Hp Hf).
  Qed.
  Context (tab tab' : table).
  Context (HT : forall A t p, tab !! (A, t) = Some p <-> p ∈ P /\ left p = A /\ predicts P p t).
  Context (HT' : forall A t p, tab' !! (A, t) = Some p <-> p ∈ P' /\ left p = A /\ predicts P' p t).
  Lemma table_sym A A' t u : ρ A A' -> π t u -> match tab !! (A, t), tab' !! (A', u) with Some p, Some p' => prod_sym π ρ p p' | None, None => True | _, _ => False end.
  Proof using Hp Hpi Hf Hi H0 H1 HP HP' HT HT'.
    intros HA Htu. destruct (tab !! (A, t)) as [p|] eqn:E.
    - apply HT in E as (Kp & <- & Hpp). destruct (HP p Kp) as (p' & Hp' & Hr).
      rewrite (proj2 (HT' A' u p')); [done|]. split; [done|]. split; [by eapply Hf; [apply Hr|]|]. by eapply (predicts_sym π ρ Hp Hf H0 H1 P P' HP).
    - destruct (tab' !! (A', u)) as [p'|] eqn:E'; [|done]. apply HT' in E' as (Kp' & <- & Hpp). destruct (HP' p' Kp') as (p & Kp & Hr). destruct flipped as (F1 & F2 & F3).
      assert (tab !! (A, t) = Some p) as E2; [|congruence]. apply HT. split; [done|]. split; [by eapply Hi; [apply Hr|]|].
      exact (predicts_sym (flip π) (flip ρ) F1 F2 H0 H1 P' P F3 p' p u t (prod_flip _ _ _ _ Hr) Htu Hpp).
  Qed.
  Context (v v' : vocabulary) (Hn : forall A A', ρ A A' -> get_nonterminal_name_by_id v A = get_nonterminal_name_by_id v' A').
  Context (Hl : forall t u, π t u -> exists n, get_terminal_name_by_id v t = Some n /\ get_terminal_name_by_id v' u = Some n).
  Context (toks toks' : list token) (Htoks : Forall2 (fun t t' => same_token t t' /\ π (token_type t) (token_type t')) toks toks').
  Definition run_alike {B} (S : B -> B -> Prop) (x x' : logged B) : Prop :=
    Forall2 (same_line v v') x.1 x'.1 /\ match x.2, x'.2 with inl a, inl a' => S a a' | inr e, inr e' => same_halt v v' e e' | _, _ => False end.
  Lemma alike_bind {B C} (S : B -> B -> Prop) (U : C -> C -> Prop) x x' (k k' : B -> logged C) :
    run_alike S x x' -> (forall a a', S a a' -> run_alike U (k a) (k' a')) -> run_alike U (lbind x k) (lbind x' k').
  Proof using Type.
    intros [L H] K. destruct x as [l [a|e]], x' as [l' [a'|e']]; cbn [fst snd] in *; try done. specialize (K a a' H) as [L' H']. cbn [lbind].
    destruct (k a) as [m o], (k' a') as [m' o']. cbn [fst snd] in *. split; [by apply Forall2_app|done].
  Qed.
  Definition tok_rel (t t' : token) : Prop := same_token t t' /\ π (token_type t) (token_type t').
  Lemma alike_token c : run_alike tok_rel (Crash.lor (toks !! c) (NoToken c)) (Crash.lor (toks' !! c) (NoToken c)).
  Proof using Htoks.
    destruct (toks !! c) as [t|] eqn:E.
    - destruct (Forall2_lookup_l _ _ _ _ _ Htoks E) as (t' & -> & Ht). split; [constructor|exact Ht].
    - destruct (toks' !! c) as [t'|] eqn:E'; [|by split; [constructor|]]. destruct (Forall2_lookup_r _ _ _ _ _ Htoks E') as (t & Et & _). congruence.
  Qed.
  Definition node (A : nat) (x x' : rule_ctx * nat) : Prop :=
    x.2 = x'.2 /\ Forall2 same_ast (children x.1) (children x'.1) /\ (is_Some (get_nonterminal_name_by_id v A) -> same_ast (Rule x.1) (Rule x'.1)).
  Definition kids_alike (x x' : nat * list ast) : Prop := x.1 = x'.1 /\ Forall2 same_ast x.2 x'.2.
  Lemma items_alike (rec rec' : nat -> nat -> logged (rule_ctx * nat)) : (forall c A A', ρ A A' -> run_alike (node A) (rec c A) (rec' c A')) ->
    forall rhs rhs', Forall2 (sym π ρ) rhs rhs' -> forall c kids kids', Forall2 same_ast kids kids' ->
    run_alike kids_alike (log_items v toks rec rhs c kids) (log_items v' toks' rec' rhs' c kids').
  Proof using Hn Hl Htoks Hp Hpi.
    intros Hrec rhs rhs' H. induction H as [|x y rhs rhs' Hx _ IH]; intros c kids kids' Hk; [by split; [constructor|]|].
    destruct x as [A|t], y as [A'|t']; cbn in Hx; try done; cbn [log_items].
    - eapply alike_bind; [exact (Hrec c A A' Hx)|]. intros [r c1] [r' c2] (E & Hc & Hr). cbn in E, Hc, Hr. subst c2. cbv beta iota. apply IH. rewrite (Hn _ _ Hx). rewrite (Hn _ _ Hx) in Hr.
      destruct (get_nonterminal_name_by_id v' A') as [nm|]; (apply Forall2_app; [done|]); [|done]. constructor; [|constructor]. apply Hr. eauto.
    - eapply alike_bind; [exact (alike_token c)|]. intros tok tok' [Ht1 Ht2]. eapply (alike_bind eq).
      + assert ((t =? token_type tok) = (t' =? token_type tok')) as ->.
        { destruct (Nat.eqb_spec t (token_type tok)) as [->|], (Nat.eqb_spec t' (token_type tok')) as [->|]; try done; exfalso; eauto. }
        destruct (negb _); (split; [|done]); cbn [fst]; [|constructor]. constructor; [|constructor]. split; [done|]. by apply Hl.
      + intros _ _ _. apply IH. apply Forall2_app; [done|]. constructor; [|constructor]. by constructor.
  Qed.
  Lemma log_alike fuel : forall c A A', ρ A A' -> run_alike (node A) (log_ast v tab toks fuel c A) (log_ast v' tab' toks' fuel c A').
  Proof using All.
    induction fuel as [|fuel IH]; intros c A A' HA; [by split; [constructor|]|]. cbn [log_ast].
    eapply alike_bind; [exact (alike_token c)|]. intros tok tok' [Ht1 Ht2].
    eapply (alike_bind (prod_sym π ρ)).
    { pose proof (table_sym A A' _ _ HA Ht2) as Ht. destruct (tab !! _) as [p|], (tab' !! _) as [p'|]; try done; (split; [constructor|]); cbn; [done|]. split; [done|by apply Hn]. }
    intros p p' [_ Hr]. eapply alike_bind; [exact (items_alike _ _ IH _ _ Hr c [] [] ltac:(constructor))|]. intros [c1 k1] [c2 k2] [E Hk]. cbn in E, Hk. subst c2.
    split; [constructor|]. cbn. split; [done|]. split; [done|]. intros [nm Hs]. cbn [fst].
    unfold get_nonterminal_name_with_default. unfold get_nonterminal_name_by_id in Hn, Hs. rewrite <- (Hn _ _ HA), Hs. by constructor.
  Qed.
End both.

Section grown.
  Context (G G' : list rule) (Hr : reordered_tokens G G').
  Lemma retoken_occurs e : occurs e G <-> occurs e G'.
  Proof using Hr.
    destruct Hr as (Ho & _). split; intros (n & alts & alt & H1 & H2 & H3); destruct (Ho n alt) as [K1 K2].
    - destruct K1 as (alts' & ? & ?); [by exists alts|]. by exists n, alts', alt.
    - destruct K2 as (alts' & ? & ?); [by exists alts|]. by exists n, alts', alt.
  Qed.
  Lemma retoken_generated e : generated G e <-> generated G' e.
  Proof using Hr.
    split; (intros [(a & k & b & E & H)|(alts & s & E & H)]; [left; exists a, k, b|right; exists alts, s]); (split; [done|by apply retoken_occurs]).
  Qed.
  Lemma retoken_names : lexer_rule_names G ≡ₚ lexer_rule_names G'.
  Proof using Hr. rewrite (lexer_names_parts G), (lexer_names_parts G'). destruct Hr as (_ & _ & H & _). unfold lexer_rule_names at 1 2. by rewrite H. Qed.
  Lemma retoken_sym : reordered_tokens G' G.
  Proof using Hr.
    pose proof retoken_names as Hn. destruct Hr as (H1 & H2 & H3 & H4 & H5). split_and!; [intros n alt; by rewrite H1|intros n; by rewrite H2|by symmetry|by rewrite <- Hn|by symmetry].
  Qed.
  Lemma retoken_proper : proper G -> proper G'.
  Proof using Hr.
    intros (H1 & H2 & H3). pose proof retoken_names as Hn. unfold proper, terminal_names in *. split_and!.
    - intros n Kn. rewrite !elem_of_cons, <- Hn, <- !elem_of_cons. apply H1. by apply Hr.
    - intros l s Ho. rewrite !elem_of_cons, <- Hn, <- !elem_of_cons. by apply (H2 l s), retoken_occurs.
    - intros n r Kr. apply (H3 n). rewrite token_in_parts. destruct Hr as (_ & _ & -> & _). by rewrite <- token_in_parts.
  Qed.
  Context (v v' : vocabulary) (f f' : element -> item).
  Context (Hsf : stands_for G v f) (Hsf' : stands_for G' v' f') (Hlit : forall l s, ~ occurs (Element (StringLiteral l) s) G).
  Context (Hnames : forall n, n ∈ parser_rule_names G -> is_Some (get_nonterminal_id_by_name v' n)).
  Definition same_number (t u : nat) : Prop := exists n, get_terminal_id_by_name v n = Some t /\ get_terminal_id_by_name v' n = Some u.
  Notation ρ := (same_symbol G v v' f f').
  Notation π := same_number.
  Lemma generated_alike e : generated G e -> sym π ρ (f e) (f' e).
  Proof using Hsf Hsf' Hr.
    intros Hg. destruct (sf_new _ _ _ Hsf e Hg) as (n & E & _). destruct (sf_new _ _ _ Hsf' e) as (n' & E' & _); [by apply retoken_generated|].
    rewrite E, E'. right. by exists e.
  Qed.
  Lemma operand_alike a s : occurs (Element a s) G -> sym π ρ (f (Element a None)) (f' (Element a None)).
  Proof using Hsf Hsf' Hr Hlit.
    intros Ho. pose proof Ho as Ho'. apply retoken_occurs in Ho'. destruct a as [n|l|n|alts].
    - destruct (sf_token _ _ _ Hsf _ _ Ho) as (t & E1 & ->), (sf_token _ _ _ Hsf' _ _ Ho') as (t' & E2 & ->). by exists n.
    - by apply Hlit in Ho.
    - destruct (sf_rule _ _ _ Hsf _ _ Ho) as (t & E1 & ->), (sf_rule _ _ _ Hsf' _ _ Ho') as (t' & E2 & ->). left. by exists n.
    - apply generated_alike. right. by exists alts, s.
  Qed.
  Lemma element_alike e : occurs e G -> sym π ρ (f e) (f' e).
  Proof using Hsf Hsf' Hr Hlit.
    intros Ho. destruct e as [a [[k b]|]]; [|by eapply operand_alike]. apply generated_alike. left. by exists a, k, b.
  Qed.
  Lemma alt_alike alt : (forall e, within_alternative e alt -> occurs e G) -> Forall2 (sym π ρ) (SpecRewrite.items f alt) (SpecRewrite.items f' alt).
  Proof using Hsf Hsf' Hr Hlit.
    intros H. destruct alt as [|es]; [constructor|]. cbn [SpecRewrite.items]. apply Forall2_fmap_2, Forall_Forall2_diag, Forall_forall. intros e He. apply element_alike, H.
    eapply within_sequence; [exact He|]. constructor.
  Qed.
  Lemma rewritten_alike p : rewritten G v f (fun _ a => a) p -> exists p', rewritten G' v' f' (fun _ a => a) p' /\ prod_sym π ρ p p'.
  Proof using Hsf Hsf' Hr Hlit Hnames.
    intros [name alts alt n Hr1 Ha E|alts s alt n Ho Ha E|a b n r Ho E Hr1|a b n r Ho E Hr1|a b n r Ho E Hr1].
    - destruct (Hnames name) as [n' E']; [apply rule_names_in; by exists alts|]. exists (Production n' (SpecRewrite.items f' alt)).
      destruct (proj1 (proj1 Hr name alt)) as (alts' & Hr' & Ha'); [by exists alts|].
      split; [by eapply rewritten_rule|]. split; [left; by exists name|]. apply alt_alike.
      intros e He. by exists name, alts, alt.
    - pose proof (generated_alike (Element (Group alts) None)) as Hg. rewrite E in Hg. destruct (f' (Element (Group alts) None)) as [n'|] eqn:E'.
      2: { exfalso. apply Hg. right. by exists alts, s. }
      exists (Production n' (SpecRewrite.items f' alt)). split; [eapply rewritten_group; [by apply retoken_occurs|done|done]|].
      split; [apply Hg; right; by exists alts, s|]. apply alt_alike. intros e He. destruct Ho as (nm & as' & al & H1 & H2 & H3).
      exists nm, as', al. split; [done|]. split; [done|]. eapply (proj2 (within_trans _ (Element (Group alts) s) ltac:(by eapply within_group))). exact H3.
    - pose proof (element_alike _ Ho) as Hg. pose proof (operand_alike _ _ Ho) as Hop. rewrite E in Hg. destruct (f' (Element a (Some (Star, b)))) as [n'|] eqn:E'; [|done].
      apply elem_of_cons in Hr1 as [->|Hr1%elem_of_list_singleton]; [|subst r].
      + exists (Production n' [f' (Element a None); NT n']). split; [eapply rewritten_star; [by apply retoken_occurs|done|by left]|]. split; [done|]. repeat first [apply List.Forall2_nil | apply List.Forall2_cons; [first [exact Hop|exact Hg]|]].
      + exists (Production n' []). split; [eapply rewritten_star; [by apply retoken_occurs|done|by right; left]|]. split; [done|]. repeat first [apply List.Forall2_nil | apply List.Forall2_cons; [first [exact Hop|exact Hg]|]].
    - pose proof (element_alike _ Ho) as Hg. pose proof (operand_alike _ _ Ho) as Hop. rewrite E in Hg. destruct (f' (Element a (Some (Plus, b)))) as [n'|] eqn:E'; [|done].
      apply elem_of_cons in Hr1 as [->|Hr1%elem_of_list_singleton]; [|subst r].
      + exists (Production n' [f' (Element a None); NT n']). split; [eapply rewritten_plus; [by apply retoken_occurs|done|by left]|]. split; [done|]. repeat first [apply List.Forall2_nil | apply List.Forall2_cons; [first [exact Hop|exact Hg]|]].
      + exists (Production n' [f' (Element a None)]). split; [eapply rewritten_plus; [by apply retoken_occurs|done|by right; left]|]. split; [done|]. repeat first [apply List.Forall2_nil | apply List.Forall2_cons; [first [exact Hop|exact Hg]|]].
    - pose proof (element_alike _ Ho) as Hg. pose proof (operand_alike _ _ Ho) as Hop. rewrite E in Hg. destruct (f' (Element a (Some (Question, b)))) as [n'|] eqn:E'; [|done].
      apply elem_of_cons in Hr1 as [->|Hr1%elem_of_list_singleton]; [|subst r].
      + exists (Production n' [f' (Element a None)]). split; [eapply rewritten_question; [by apply retoken_occurs|done|by left]|]. split; [done|]. repeat first [apply List.Forall2_nil | apply List.Forall2_cons; [first [exact Hop|exact Hg]|]].
      + exists (Production n' []). split; [eapply rewritten_question; [by apply retoken_occurs|done|by right; left]|]. split; [done|]. repeat first [apply List.Forall2_nil | apply List.Forall2_cons; [first [exact Hop|exact Hg]|]].
  Qed.
End grown.

(** *** The lexers *)
Lemma numbers r g data : load_tree r = Ret (g, data) -> forall n t, get_terminal_id_by_name (g_vocabulary g) n = Some t <-> (lit "_START" :: lit "_STOP" :: map ld_name data) !! t = Some n.
Proof.
  intros Hl n t. rewrite <- (c39_constants _ _ _ _ _ Hl). destruct (c39_numbering _ _ _ Hl) as (K & _). unfold generated_constants. rewrite !elem_of_cons, elem_of_list_fmap. split.
  - intros [[= -> ->]|[[= -> ->]|(d & [= -> ->] & Hd)]]; [done|done|]. apply elem_of_list_lookup in Hd as [i Hd]. destruct (K i d Hd) as (-> & _).
    etrans; [exact (list_lookup_fmap ld_name data i)|]. by rewrite Hd.
  - destruct t as [|[|t]]; [intros [= <-]; by left|intros [= <-]; right; by left|]. intros H. right. right. pose proof (list_lookup_fmap ld_name data t) as H'. assert (ld_name <$> data !! t = Some n) as H2 by (rewrite <- H'; exact H). clear H H'. rename H2 into H.
    destruct (data !! t) as [d|] eqn:E; [|done]. injection H as <-. exists d. destruct (K t d E) as (-> & _). split; [done|by eapply elem_of_list_lookup_2].
Qed.
Lemma numbers_nodup r g data : load_tree r = Ret (g, data) -> NoDup (lit "_START" :: lit "_STOP" :: map ld_name data).
Proof.
  intros Hl. pose proof (numbers _ _ _ Hl) as K. apply NoDup_alt. intros i j n Hi%K Hj%K. congruence.
Qed.
Lemma forall2_perm {A B} (R : A -> B -> Prop) l l' : l ≡ₚ l' -> forall k, Forall2 R l k -> exists k', k ≡ₚ k' /\ Forall2 R l' k'.
Proof.
  induction 1 as [|x l l' _ IH|x y l|l l' l'' _ IH1 _ IH2]; intros k H.
  - exists k. by inversion H.
  - inversion H as [|? b ? k0 Hb Hk]; subst. destruct (IH _ Hk) as (k' & P & F). exists (b :: k'). split; [by apply perm_skip|by constructor].
  - inversion H as [|? b ? k0 Hb Hk]; subst. inversion Hk as [|? c ? k1 Hc Hk']; subst. exists (c :: b :: k1). split; [apply perm_swap|by repeat constructor].
  - destruct (IH1 _ H) as (k' & P & F). destruct (IH2 _ F) as (k'' & P' & F'). exists k''. split; [by etrans|done].
Qed.
Fixpoint fresh {A} (key : A -> str) (seen : list str) (l : list A) : list A :=
  match l with [] => [] | x :: l' => if bool_decide (key x ∈ seen) then fresh key seen l' else x :: fresh key seen l' end.
Lemma first_occurrences_more {A} (key : A -> str) l : forall seen x, x ∉ map key l -> first_occurrences key (x :: seen) l = first_occurrences key seen l.
Proof.
  induction l as [|y l IH]; intros seen x Hx; [done|]. cbn [map] in Hx. apply not_elem_of_cons in Hx as [Hy Hx]. cbn [first_occurrences].
  assert (E : bool_decide (key y ∈ x :: seen) = bool_decide (key y ∈ seen)).
  { apply bool_decide_ext. rewrite elem_of_cons. split; [intros [H|H]; [by symmetry in H|done]|by right]. }
  rewrite E. clear E. case_bool_decide; [by apply IH|]. f_equal.
  assert (K : forall s1 s2, (forall z, z ∈ s1 <-> z ∈ s2) -> first_occurrences key s1 l = first_occurrences key s2 l).
  { clear. induction l as [|y l IH]; intros s1 s2 Hs; [done|]. cbn [first_occurrences]. rewrite (bool_decide_ext _ _ (Hs (key y))). case_bool_decide; [by apply IH|]. f_equal.
    apply IH. intros z. by rewrite !elem_of_cons, Hs. }
  rewrite (K _ (x :: key y :: seen)); [by apply IH|]. intros z. rewrite !elem_of_cons. tauto.
Qed.
Lemma first_occurrences_nodup {A} (key : A -> str) l : forall seen, NoDup (map key l) -> first_occurrences key seen l = fresh key seen l.
Proof.
  induction l as [|x l IH]; intros seen Hnd; [done|]. cbn [map] in Hnd. apply NoDup_cons in Hnd as [Hx Hnd]. cbn [first_occurrences fresh].
  case_bool_decide; [by apply IH|]. f_equal. rewrite first_occurrences_more by done. by apply IH.
Qed.
Lemma fresh_perm {A} (key : A -> str) seen l l' : l ≡ₚ l' -> fresh key seen l ≡ₚ fresh key seen l'.
Proof.
  induction 1 as [|x l l' _ IH|x y l|l l' l'' _ IH1 _ IH2]; cbn [fresh]; [done| | |by etrans].
  - case_bool_decide; [done|by apply perm_skip].
  - repeat case_bool_decide; try done. apply perm_swap.
Qed.
Lemma scan_types c skip chan fuel : length (token_names c) = length (regex_list c) + 2 -> token_names c !! 1 = Some (lit "_STOP") -> forall st acc toks st',
  Forall (fun t => token_names c !! token_type t = Some (token_name t)) acc -> scan_loop (scan c) skip chan fuel st acc = Ret (toks, st') ->
  Forall (fun t => token_names c !! token_type t = Some (token_name t)) toks.
Proof.
  intros Hlen Hstop. induction fuel as [|fuel IH]; intros st acc toks st' Hacc; [done|]. cbn [scan_loop].
  pose proof (scan_reordered c c st ltac:(done)) as Hs. destruct (scan c st) as [[[t|] st1]| |]; cbn [rbind]; [|by intros [= <- _]|done|done].
  destruct Hs as [(_ & _ & Ht) _].
  assert (token_names c !! token_type t = Some (token_name t)) as Ht'.
  { destruct Ht as [(-> & _ & -> & _)|(i & i' & -> & _ & -> & _)]; done. }
  destruct (skip _); [by apply IH|]. destruct (_ =? _); [|by apply IH]. apply IH. apply Forall_app. split; [done|by repeat constructor].
Qed.

Definition defs (G : list rule) : list (str * str) := omap (fun r => match r with LexerRule n x => Some (n, x) | ParserRule _ _ => None end) G.
Lemma defs_parts G : defs G = defs (lexer_rules_of G).
Proof. induction G as [|[m a|m x] G IH]; [done|..]; unfold defs, lexer_rules_of in *; cbn [omap list_omap]; [done|by rewrite IH]. Qed.
Lemma defs_names G : map fst (defs G) = lexer_rule_names G.
Proof. induction G as [|[m a|m x] G IH]; [done|..]; unfold defs, lexer_rule_names in *; cbn [omap list_omap map]; [done|by rewrite IH]. Qed.
Section lexers.
  Context (G G' : list rule) (r r' : rule_ctx) (g g' : grammar) (data data' : list lexer_rule_data) (Hr : reordered_tokens G G').
  Context (HT : grammar_tree G r) (HT' : grammar_tree G' r') (Hp : proper G) (Hl : load_tree r = Ret (g, data)) (Hl' : load_tree r' = Ret (g', data')).
  Lemma data_perm : map (fun d => (ld_name d, ld_regex d)) data ≡ₚ map (fun d => (ld_name d, ld_regex d)) data'.
  Proof using All.
    pose proof (retoken_proper _ _ Hr Hp) as Hp'. destruct HT as (n & cs & -> & Ht), HT' as (n' & cs' & -> & Ht').
    apply c48_load_tree in Hl as D, Hl' as D'. rewrite (definitions_tree _ _ _ _ Ht Hp) in D. rewrite (definitions_tree _ _ _ _ Ht' Hp') in D'.
    change (omap _ G) with (defs G) in D. change (omap _ G') with (defs G') in D'.
    assert (HP : defs G ≡ₚ defs G') by (rewrite (defs_parts G), (defs_parts G'); destruct Hr as (_ & _ & H & _); unfold defs at 1 2; by rewrite H).
    rewrite first_occurrences_nodup in D by (rewrite defs_names; apply Hr). rewrite first_occurrences_nodup in D' by (rewrite defs_names; apply (retoken_sym _ _ Hr)).
    destruct (forall2_perm _ _ _ (fresh_perm fst _ _ _ HP) _ D) as (k & P & F). rewrite P.
    assert (map (fun d => (ld_name d, ld_regex d)) k = map (fun d => (ld_name d, ld_regex d)) data') as ->; [|done]. clear P D.
    revert D' F. generalize (fresh fst [lit "_START"; lit "_STOP"] (defs G')). intros l D' F. clear -D' F. revert k F. induction D' as [|e d l data' [E1 E2] _ IH]; intros k F; inversion F as [|? b ? k0 [F1 F2] Fk]; subst; [done|].
    cbn [map]. rewrite (IH _ Fk), E1, F1, (regex_of_unique _ _ _ E2 F2). done.
  Qed.
  Lemma lexers_reordered compile s : reordered (generated_lexer compile data s) (generated_lexer compile data' s).
  Proof using All.
    pose proof data_perm as P. unfold reordered, named_rules, generated_lexer. cbn [input token_names regex_list drop length]. rewrite !map_length. split_and!; [done|lia|lia|].
    assert (K : forall l : list lexer_rule_data, zip (map (fun t => compile (ld_regex t)) l) (map ld_name l) = map (fun '(a, b) => (compile b, a)) (map (fun d => (ld_name d, ld_regex d)) l)).
    { clear. induction l as [|d l IH]; [done|]. cbn [map]. cbn. f_equal. exact IH. }
    rewrite !K. by apply Permutation_map.
  Qed.
  Notation v := (g_vocabulary g).
  Notation v' := (g_vocabulary g').
  Lemma scans_alike compile s ws ws' chan fuel : no_ties (generated_lexer compile data s) -> (lit "WHITE_SPACE", ws) ∈ generated_constants data -> (lit "WHITE_SPACE", ws') ∈ generated_constants data' ->
    match scan_all (generated_lexer compile data s) ws chan fuel lexer_init, scan_all (generated_lexer compile data' s) ws' chan fuel lexer_init with
    | Ret (toks, printed), Ret (toks', printed') => Forall2 (fun t t' => same_token t t' /\ same_number v v' (token_type t) (token_type t')) toks toks' /\ printed = printed'
    | Panic, Panic => True
    | OutOfFuel, OutOfFuel => True
    | _, _ => False
    end.
  Proof using All.
    intros Ht Hw Hw'. apply (c39_constants _ _ _ _ _ Hl) in Hw. apply (c39_constants _ _ _ _ _ Hl') in Hw'.
    apply (numbers _ _ _ Hl) in Hw. apply (numbers _ _ _ Hl') in Hw'. set (c := generated_lexer compile data s) in *. set (c' := generated_lexer compile data' s) in *.
    assert (A : ws <> 1) by (intros ->; done). assert (A' : ws' <> 1) by (intros ->; done).
    pose proof (c93_scan_all c c' ws ws' (lit "WHITE_SPACE") chan fuel lexer_init (lexers_reordered compile s) Ht (numbers_nodup _ _ _ Hl) (numbers_nodup _ _ _ Hl') A A' Hw Hw') as K.
    assert (T : forall toks rest, scan_all c ws chan fuel lexer_init = Ret (toks, rest) -> Forall (fun t => token_names c !! token_type t = Some (token_name t)) toks).
    { intros toks rest. unfold scan_all. destruct (scan_loop _ _ _ _ _ _) as [[tk st]| |] eqn:E; cbn [rbind]; [|done..].
      assert (Hlen : length (token_names c) = length (regex_list c) + 2) by (cbn; rewrite !map_length; lia).
      apply (scan_types c _ _ _ Hlen eq_refl) in E; [|constructor]. destruct (_ <? _); [destruct (drop_bytes _ _); cbn [unwrap rbind]; [by intros [= <- _]|done]|by intros [= <- _]]. }
    assert (T' : forall toks rest, scan_all c' ws' chan fuel lexer_init = Ret (toks, rest) -> Forall (fun t => token_names c' !! token_type t = Some (token_name t)) toks).
    { intros toks rest. unfold scan_all. destruct (scan_loop _ _ _ _ _ _) as [[tk st]| |] eqn:E; cbn [rbind]; [|done..].
      assert (Hlen : length (token_names c') = length (regex_list c') + 2) by (cbn; rewrite !map_length; lia).
      apply (scan_types c' _ _ _ Hlen eq_refl) in E; [|constructor]. destruct (_ <? _); [destruct (drop_bytes _ _); cbn [unwrap rbind]; [by intros [= <- _]|done]|by intros [= <- _]]. }
    destruct (scan_all c _ _ _ _) as [[toks rest]| |], (scan_all c' _ _ _ _) as [[toks' rest']| |]; try done. destruct K as [K ->]. split; [|done].
    specialize (T _ _ eq_refl). specialize (T' _ _ eq_refl). clear -K T T' Hl Hl'. induction K as [|t t' toks toks' Ht _ IH]; [constructor|].
    apply Forall_cons in T as [T1 T], T' as [T1' T']. constructor; [|by apply IH]. split; [done|]. exists (token_name t). split; [by apply (numbers _ _ _ Hl)|].
    destruct Ht as [_ ->]. by apply (numbers _ _ _ Hl').
  Qed.
  Context (Hc : no_collision v G) (Hc' : no_collision v' G') (Hne : parser_rule_names G <> []).
  Lemma retoken_relation : exists ρ : nat -> nat -> Prop,
    (forall a b c, ρ a b -> ρ a c -> b = c) /\ (forall a b c, ρ a c -> ρ b c -> a = b) /\ ρ 0 0 /\
    (forall p, p ∈ productions g -> exists p', p' ∈ productions g' /\ prod_sym (same_number v v') ρ p p') /\
    (forall p', p' ∈ productions g' -> exists p, p ∈ productions g /\ prod_sym (same_number v v') ρ p p') /\
    (forall A A', ρ A A' -> get_nonterminal_name_by_id v A = get_nonterminal_name_by_id v' A').
  Proof using All.
    pose proof (retoken_proper _ _ Hr Hp) as Hp'.
    destruct (c83 _ _ _ _ HT Hp Hl Hc) as (f & Hsf & H1 & HP). destruct (c83 _ _ _ _ HT' Hp' Hl' Hc') as (f' & Hsf' & H1' & HP').
    destruct (load_names _ _ _ _ HT Hp Hl) as [N1 N2], (load_names _ _ _ _ HT' Hp' Hl') as [N1' N2'].
    assert (Hlit : forall l s, ~ occurs (Element (StringLiteral l) s) G) by (destruct (proj1 (c42 _ _ HT Hp)) as (_ & _ & K); [by eexists|exact K]).
    exists (same_symbol G v v' f f'). split_and!.
    - intros a b c [(n & K1 & K2)|(e & G1 & E1 & E2)] [(m & M1 & M2)|(e' & G2 & F1 & F2)].
      + apply N2 in K1, M1. congruence.
      + destruct (sf_new _ _ _ Hsf e' G2) as (k & L1 & _ & L2). apply N2 in K1. congruence.
      + destruct (sf_new _ _ _ Hsf e G1) as (k & L1 & _ & L2). apply N2 in M1. congruence.
      + assert (f' e = f' e') as E; [|congruence]. apply (H1' e e'); [by apply (retoken_generated _ _ Hr)..|]. apply (H1 e e' G1 G2). congruence.
    - intros a b c [(n & K1 & K2)|(e & G1 & E1 & E2)] [(m & M1 & M2)|(e' & G2 & F1 & F2)].
      + apply N2' in K2, M2. congruence.
      + destruct (sf_new _ _ _ Hsf' e') as (k & L1 & _ & L2); [by apply (retoken_generated _ _ Hr)|]. apply N2' in K2. congruence.
      + destruct (sf_new _ _ _ Hsf' e) as (k & L1 & _ & L2); [by apply (retoken_generated _ _ Hr)|]. apply N2' in M2. congruence.
      + assert (f e = f e') as E; [|congruence]. apply (H1 e e' G1 G2). apply (H1' e e'); [by apply (retoken_generated _ _ Hr)..|]. congruence.
    - destruct (parser_rule_names G) as [|n ns] eqn:En; [done|]. assert (head (parser_rule_names G) = Some n) as Hh by (by rewrite En).
      left. exists n. split; [exact (first_rule _ _ _ _ _ HT Hp Hl Hh)|]. apply (first_rule _ _ _ _ _ HT' Hp' Hl'). destruct Hr as (_ & _ & _ & _ & <-). exact Hh.
    - intros p Hin%HP. destruct (rewritten_alike G G' Hr v v' f f' Hsf Hsf' Hlit) with p as (p' & K1 & K2); [|done|].
      + intros n Hn. by apply N1', Hr.
      + exists p'. split; [by apply HP'|done].
    - intros p' Hin%HP'.
      assert (Hlit' : forall l s, ~ occurs (Element (StringLiteral l) s) G') by (intros l s K; by apply (Hlit l s), (retoken_occurs _ _ Hr)).
      destruct (rewritten_alike G' G (retoken_sym _ _ Hr) v' v f' f Hsf' Hsf Hlit') with p' as (p & K1 & K2); [|done|].
      + intros n Hn. by apply N1, Hr.
      + exists p. split; [by apply HP|]. apply prod_flip in K2. eapply prod_mono; [| |exact K2].
        * intros a b (n & E1 & E2). by exists n.
        * intros a b [(n & E1 & E2)|(e & Ge & E1 & E2)]; [left; by exists n|]. right. exists e. split; [by apply (retoken_generated _ _ Hr)|done].
    - intros A A' [(n & K1 & K2)|(e & K0 & K1 & K2)].
      + apply N2 in K1. apply N2' in K2. congruence.
      + destruct (sf_new _ _ _ Hsf e K0) as (k & F1 & _ & F2). destruct (sf_new _ _ _ Hsf' e) as (k' & F1' & _ & F2'); [by apply (retoken_generated _ _ Hr)|]. congruence.
  Qed.
  Lemma numbers_relation : (forall a b c, same_number v v' a b -> same_number v v' a c -> b = c) /\ (forall a b c, same_number v v' a c -> same_number v v' b c -> a = b) /\
    same_number v v' 1 1 /\ (forall t u, same_number v v' t u -> exists n, get_terminal_name_by_id v t = Some n /\ get_terminal_name_by_id v' u = Some n).
  Proof using Hl Hl'.
    pose proof (load_vinv _ _ _ Hl) as V. pose proof (load_vinv _ _ _ Hl') as V'. pose proof (numbers _ _ _ Hl) as K. pose proof (numbers _ _ _ Hl') as K'. split_and!.
    - intros a b c (n & E1 & E2) (m & F1 & F2). apply K in E1, F1. congruence.
    - intros a b c (n & E1 & E2) (m & F1 & F2). apply K' in E2, F2. congruence.
    - exists (lit "_STOP"). split; [by apply K|by apply K'].
    - intros t u (n & E1 & E2). exists n. split; [by apply (vi_t _ V)|by apply (vi_t _ V')].
  Qed.
  Lemma c100_ll1_to : ll1 (productions g) -> ll1 (productions g').
  Proof using All.
    intros H. destruct retoken_relation as (ρ & R1 & R2 & R3 & R4 & R5 & R6). destruct numbers_relation as (Q1 & Q2 & Q3 & Q4).
    exact (ll1_sym _ ρ Q1 Q2 R1 R2 R3 Q3 _ _ R4 R5 H).
  Qed.
  Lemma c100_chain compile order order' ws ws' s : no_ties (generated_lexer compile data s) ->
    (lit "WHITE_SPACE", ws) ∈ generated_constants data -> (lit "WHITE_SPACE", ws') ∈ generated_constants data' ->
    ll1 (productions g) -> iteration_order g order -> iteration_order g' order' ->
    exists n, forall fuel, n <= fuel -> alike v v' (chain_log compile order fuel g data ws s) (chain_log compile order' fuel g' data' ws' s).
  Proof using All.
    intros Hties Hws Hws' Hll Ho Ho'. pose proof (c100_ll1_to Hll) as Hll'. pose proof (retoken_proper _ _ Hr Hp) as Hp'.
    destruct retoken_relation as (ρ & R1 & R2 & R3 & R4 & R5 & R6). destruct numbers_relation as (Q1 & Q2 & Q3 & Q4).
    destruct (c43_closed _ _ _ Hl) as (C1 & _ & _ & _ & _ & _). destruct (c43_closed _ _ _ Hl') as (C1' & _ & _ & _ & _ & _).
    assert (Hz : 0 ∈ nonterminals v /\ 0 ∈ nonterminals v' /\ is_Some (get_nonterminal_name_by_id v 0)).
    { destruct (parser_rule_names G) as [|n ns] eqn:En; [done|]. assert (head (parser_rule_names G) = Some n) as Hh by (by rewrite En).
      pose proof (first_rule _ _ _ _ _ HT Hp Hl Hh) as F. assert (head (parser_rule_names G') = Some n) as Hh' by (destruct Hr as (_ & _ & _ & _ & <-); exact Hh).
      pose proof (first_rule _ _ _ _ _ HT' Hp' Hl' Hh') as F'. apply (load_names _ _ _ _ HT Hp Hl) in F. apply (load_names _ _ _ _ HT' Hp' Hl') in F'.
      pose proof (load_vinv _ _ _ Hl) as V. pose proof (load_vinv _ _ _ Hl') as V'. split; [apply (vi_nd _ V); by eexists|]. split; [apply (vi_nd _ V'); by eexists|by eexists]. }
    destruct Hz as (Z & Z' & Zn).
    destruct (c28_table_returns g C1 Z) as [n Hn]. destruct (c28_table_returns g' C1' Z') as [n' Hn']. exists (n `max` n'). intros fuel Hf.
    destruct (Hn order fuel Ho ltac:(lia)) as (tab & w & B). destruct (Hn' order' fuel Ho' ltac:(lia)) as (tab' & w' & B').
    pose proof (proj2 (proj1 (c29_warnings _ _ _ _ _ Ho C1 B)) Hll) as ->. pose proof (proj2 (proj1 (c29_warnings _ _ _ _ _ Ho' C1' B')) Hll') as ->.
    unfold alike, chain_log. rewrite B, B'. cbn [rbind]. pose proof (scans_alike compile s ws ws' 0 fuel Hties Hws Hws') as Hsc.
    destruct (scan_all (generated_lexer compile data s) ws 0 fuel lexer_init) as [[toks rest]| |], (scan_all (generated_lexer compile data' s) ws' 0 fuel lexer_init) as [[toks' rest']| |]; cbn [rbind]; try done.
    destruct Hsc as [Htk ->].
    pose proof (log_alike _ ρ Q1 Q2 R1 R2 R3 Q3 _ _ R4 R5 tab tab' (table_exact _ _ _ _ _ Ho C1 B Hll) (table_exact _ _ _ _ _ Ho' C1' B' Hll') v v' R6 Q4 toks toks' Htk fuel 0 0 0 R3) as L.
    pose proof (alike_bind v v' (node v 0) (fun t t' => same_ast (Rule t) (Rule t')) _ _ (fun '(r, _) => lret r) (fun '(r, _) => lret r) L) as K.
    assert (K2 : forall a a' : rule_ctx * nat, node v 0 a a' -> run_alike v v' (fun t t' => same_ast (Rule t) (Rule t')) (let '(r0, _) := a in lret r0) (let '(r0, _) := a' in lret r0)).
    { intros [t c] [t' c'] (_ & _ & E). split; [constructor|]. by apply E. }
    specialize (K K2). unfold log_parse. change (run_alike v v' (fun t t' => same_ast (Rule t) (Rule t')) (lbind (log_ast v tab toks fuel 0 0) (fun '(r, _) => lret r)) (lbind (log_ast v' tab' toks' fuel 0 0) (fun '(r, _) => lret r))) in K.
    revert K. destruct (lbind (log_ast v tab toks fuel 0 0) _) as [l o], (lbind (log_ast v' tab' toks' fuel 0 0) _) as [l' o']. intros [K1 K3]. cbn [fst snd] in K1, K3. by split_and!.
  Qed.
End lexers.
Lemma c100_ll1 G G' r r' g g' data data' : reordered_tokens G G' -> grammar_tree G r -> grammar_tree G' r' -> proper G -> load_tree r = Ret (g, data) -> load_tree r' = Ret (g', data') ->
  no_collision (g_vocabulary g) G -> no_collision (g_vocabulary g') G' -> parser_rule_names G <> [] -> (ll1 (productions g) <-> ll1 (productions g')).
Proof.
  intros Hr HT HT' Hp Hl Hl' Hc Hc' Hne. split; [exact (c100_ll1_to _ _ _ _ _ _ _ _ Hr HT HT' Hp Hl Hl' Hc Hc' Hne)|].
  refine (c100_ll1_to _ _ _ _ _ _ _ _ (retoken_sym _ _ Hr) HT' HT (retoken_proper _ _ Hr Hp) Hl' Hl Hc' Hc _). destruct Hr as (_ & _ & _ & _ & E). intros En. rewrite En in E. by destruct (parser_rule_names G).
Qed.
