(** ParserProofs.v -- the table-driven parser: soundness, completeness, termination. *)
From Verif Require Export TableProofs Parser.

(** ** Parse forests *)
Section forests.
  Context (P : gset production) (v : vocabulary).

  Lemma parses_app α β w1 w2 cs1 cs2 :
    parses P v α w1 cs1 -> parses P v β w2 cs2 -> parses P v (α ++ β) (w1 ++ w2) (cs1 ++ cs2).
  Proof.
    intros H1 H2. induction H1 as [|t α tok w cs Ht H IH|p α u1 u2 cs1 cs2' Hp Hr IHr Hα IHα]; simpl; [done|..].
    - by constructor.
    - rewrite <- !(assoc_L (++)). by constructor.
  Qed.
  Lemma parses_app_inv α β w cs :
    parses P v (α ++ β) w cs ->
    exists w1 w2 cs1 cs2, w = w1 ++ w2 /\ cs = cs1 ++ cs2 /\ parses P v α w1 cs1 /\ parses P v β w2 cs2.
  Proof.
    revert w cs. induction α as [|x α IH]; intros w cs H; simpl in H.
    - exists [], w, [], cs. split_and!; [done..|constructor|done].
    - inversion H as [|t α' tok w' cs' Ht Hα|p α' u1 u2 cs1 cs2 Hp Hr Hα]; subst.
      + apply IH in Hα as (w1 & w2 & cs1 & cs2 & -> & -> & H1 & H2).
        exists (tok :: w1), w2, (Terminal tok :: cs1), cs2. split_and!; [done..|by constructor|done].
      + apply IH in Hα as (w1 & w2 & cs1' & cs2' & -> & -> & H1 & H2).
        exists (u1 ++ w1), w2, (node v (left p) cs1 ++ cs1'), cs2'.
        rewrite <- !(assoc_L (++)). split_and!; [done..|by constructor|done].
  Qed.

  Lemma types_app w1 w2 : types (w1 ++ w2) = types w1 ++ types w2.
  Proof. apply map_app. Qed.

  Lemma parses_derives α w cs : parses P v α w cs -> derives P α (types w).
  Proof.
    induction 1 as [|t α tok w cs Ht H IH|p α u1 u2 cs1 cs2 Hp Hr IHr Hα IHα].
    - apply rtc_refl.
    - simpl. rewrite Ht. apply (derives_app P [T t] [T t] α); [apply rtc_refl|done].
    - rewrite types_app. apply (derives_app P [NT (left p)] _ α); [|done].
      eapply derives_trans; [by apply derives_prod|done].
  Qed.
  Lemma parses_types w : parses P v (types w) w (Terminal <$> w).
  Proof. induction w as [|t w IH]; simpl; by constructor. Qed.
  Lemma derives_parses α w : derives P α (types w) -> exists cs, parses P v α w cs.
  Proof.
    unfold derives. intros H. remember (types w) as γ eqn:Hγ. revert w Hγ.
    induction H as [α|α β γ Hs _ IH]; intros w ->; [exists (Terminal <$> w); apply parses_types|].
    destruct (IH w eq_refl) as [cs Hcs]. inversion Hs as [a p b Hp Hq1 Hq2]; subst.
    apply parses_app_inv in Hcs as (w1 & w' & cs1 & cs' & -> & -> & H1 & Hcs).
    apply parses_app_inv in Hcs as (w2 & w3 & cs2 & cs3 & -> & -> & H2 & H3).
    eexists. apply parses_app; [exact H1|]. econstructor; done.
  Qed.
  Lemma parses_nullable α cs : parses P v α [] cs -> nullable P α.
  Proof. intros H. apply (parses_derives _ _ _ H). Qed.
  Lemma parses_starts α tok w cs : parses P v α (tok :: w) cs -> starts P α (token_type tok).
  Proof. intros H. exists (types w). apply (parses_derives _ _ _ H). Qed.
End forests.

Lemma leaves_app cs1 cs2 : leaves (cs1 ++ cs2) = leaves cs1 ++ leaves cs2.
Proof. induction cs1 as [|c cs1 IH]; simpl; [done|]. by rewrite IH, (assoc_L (++)). Qed.
Lemma rule_leaves_children r : rule_leaves r = leaves (children r).
Proof. destruct r as [n cs i]. simpl. induction cs as [|c cs IH]; simpl; [done|]. by rewrite IH. Qed.

Lemma segment_refl toks i : segment toks i i = [].
Proof. unfold segment. by rewrite Nat.sub_diag, take_0. Qed.
Lemma segment_app toks i j k : i <= j <= k -> segment toks i j ++ segment toks j k = segment toks i k.
Proof.
  intros H. unfold segment.
  replace (drop j toks) with (drop (j - i) (drop i toks)) by (rewrite drop_drop; f_equal; lia).
  replace (k - i) with ((j - i) + (k - j)) by lia. by rewrite take_take_drop.
Qed.
Lemma segment_S toks i tok : toks !! i = Some tok -> segment toks i (i + 1) = [tok].
Proof.
  intros H. unfold segment. replace (i + 1 - i) with 1 by lia.
  rewrite (drop_S _ _ _ H). simpl. by rewrite take_0.
Qed.

(** ** Fuel monotonicity *)
Lemma parse_items_mono voc toks rec1 rec2 rhs c kids mm :
  (forall c A, rec1 c A <> OutOfFuel -> rec2 c A = rec1 c A) ->
  parse_items voc toks rec1 rhs c kids mm <> OutOfFuel ->
  parse_items voc toks rec2 rhs c kids mm = parse_items voc toks rec1 rhs c kids mm.
Proof.
  intros Hrec. revert c kids mm. induction rhs as [|[B|t] rhs IH]; intros c kids mm H; simpl in *; [done|..].
  - destruct (rec1 c B) as [[[r c1] mm1]| |] eqn:E; simpl in *.
    + rewrite Hrec by (by rewrite E). rewrite E. simpl. by apply IH.
    + rewrite Hrec by (by rewrite E). by rewrite E.
    + done.
  - destruct (toks !! c) as [tok|]; simpl in *; [|done]. by apply IH.
Qed.
Lemma parse_ast_mono voc tab toks f f' c A :
  f <= f' -> parse_ast voc tab toks f c A <> OutOfFuel ->
  parse_ast voc tab toks f' c A = parse_ast voc tab toks f c A.
Proof.
  revert f' c A. induction f as [|f IH]; intros f' c A Hle H; [done|].
  destruct f' as [|f']; [lia|]. simpl in *.
  destruct (toks !! c) as [tok|]; simpl in *; [|done].
  destruct (tab !! (A, token_type tok)) as [p|]; simpl in *; [|done].
  assert (Hitems : parse_items voc toks (parse_ast voc tab toks f') (right p) c [] [] =
                   parse_items voc toks (parse_ast voc tab toks f) (right p) c [] []).
  { apply parse_items_mono.
    - intros c' A' H'. apply IH; [lia|done].
    - intros E. by rewrite E in H. }
  by rewrite Hitems.
Qed.

(** ** Soundness *)
Section sound.
  Context (P : gset production) (voc : vocabulary) (tab : table) (toks : list token).
  Context (Htab : forall A t p, tab !! (A, t) = Some p -> p ∈ P /\ left p = A).

  Definition ast_ok (c A : nat) (out : rule_ctx * nat * list mismatch) : Prop :=
    let '(r, c', mm) := out in
    rule_index r = A /\ rule_name r = get_nonterminal_name_with_default voc A /\
    c <= c' <= length toks /\ leaves (children r) = segment toks c c' /\
    Forall (named_tree voc) (children r) /\
    (mm = [] -> exists p, p ∈ P /\ left p = A /\ parses P voc (right p) (segment toks c c') (children r)) /\
    (c' = c -> mm = [] /\ nullable P [NT A]).

  Definition items_ok (α : list item) (c : nat) (c' : nat) (cs : list ast) (mm : list mismatch) : Prop :=
    c <= c' /\ (c <= length toks -> c' <= length toks) /\ leaves cs = segment toks c c' /\ Forall (named_tree voc) cs /\
    (mm = [] -> parses P voc α (segment toks c c') cs) /\
    (c' = c -> mm = [] /\ nullable P α).

  Lemma parse_items_sound rec α c kids mm c' kids' mm' :
    (forall c A out, rec c A = Ret out -> ast_ok c A out) ->
    parse_items voc toks rec α c kids mm = Ret (c', kids', mm') ->
    exists cs mmn, kids' = kids ++ cs /\ mm' = mm ++ mmn /\ items_ok α c c' cs mmn.
  Proof.
    intros Hrec. revert c kids mm. induction α as [|[B|t] α IH]; intros c kids mm H; simpl in H.
    - injection H as <- <- <-. exists [], []. rewrite !app_nil_r. split_and!; [done..|].
      unfold items_ok. rewrite segment_refl. split_and!; try done; [constructor|].
      intros _. split; [done|]. apply nullable_nil.
    - apply rbind_Ret in H as ([[r c1] mm1] & H1 & H2).
      destruct (Hrec _ _ _ H1) as (Hi & Hn & Hc & Hl & Hnm & Hp & Hz).
      apply IH in H2 as (cs & mmn & -> & -> & Hok). destruct Hok as (Hc' & Hc'' & Hl' & Hnm' & Hp' & Hz').
      exists (node voc B (children r) ++ cs), (mm1 ++ mmn).
      rewrite <- (assoc_L (++) mm). split_and!; [|done|].
      { rewrite (assoc_L (++)). f_equal. unfold node.
        destruct (get_nonterminal_name_by_id voc B) as [n|] eqn:En; [|done].
        destruct r as [n' cs' i']. simpl in *. subst. unfold get_nonterminal_name_with_default.
        unfold get_nonterminal_name_by_id in En. by rewrite En. }
      assert (leaves (node voc B (children r)) = leaves (children r)) as Hln.
      { unfold node. destruct (get_nonterminal_name_by_id voc B); [|done]. simpl.
        rewrite app_nil_r. clear. induction (children r) as [|c cs IH]; simpl; [done|]. by rewrite IH. }
      split_and!.
      + lia.
      + intros. apply Hc''. lia.
      + rewrite leaves_app, Hln, Hl, Hl'. apply segment_app. lia.
      + apply Forall_app. split; [|done]. unfold node.
        destruct (get_nonterminal_name_by_id voc B) as [n|] eqn:En; [|done].
        repeat constructor; done.
      + intros [-> ->]%app_nil. destruct (Hp eq_refl) as (p & HpP & <- & Hpp).
        rewrite <- (segment_app _ c c1 c') by lia. constructor; [done|done|]. by apply Hp'.
      + intros ->. assert (c1 = c) as -> by lia.
        destruct (Hz eq_refl) as [-> Hnu], (Hz' eq_refl) as [-> Hnu']. split; [done|]. by apply nullable_cons.
    - apply rbind_Ret in H as (tok & H1 & H2). apply unwrap_Ret in H1.
      apply IH in H2 as (cs & mmn & -> & -> & Hok). destruct Hok as (Hc' & Hc'' & Hl' & Hnm' & Hp' & Hz').
      pose proof (lookup_lt_Some _ _ _ H1) as Hlt.
      exists (Terminal tok :: cs), ((if negb (t =? token_type tok) then [(c, t)] else []) ++ mmn).
      split_and!.
      + by rewrite <- (assoc_L (++)).
      + destruct (negb (t =? token_type tok)); simpl; by rewrite <- ?(assoc_L (++)).
      + split_and!.
        * lia.
        * intros. apply Hc''. lia.
        * simpl. rewrite Hl'. change (tok :: ?l) with ([tok] ++ l).
          rewrite <- (segment_S _ _ _ H1). apply segment_app. lia.
        * constructor; [constructor|done].
        * destruct (Nat.eqb_spec t (token_type tok)) as [->|]; simpl; [|done]. intros ->.
          rewrite <- (segment_app _ c (c + 1) c') by lia. rewrite (segment_S _ _ _ H1). simpl.
          constructor; [done|]. by apply Hp'.
        * intros ->. lia.
  Qed.

  Lemma parse_ast_sound fuel c A out :
    parse_ast voc tab toks fuel c A = Ret out -> ast_ok c A out.
  Proof using All.
    revert c A out. induction fuel as [|fuel IH]; intros c A out H; simpl in H; [done|].
    apply rbind_Ret in H as (tok & H1 & H). apply unwrap_Ret in H1.
    apply rbind_Ret in H as (p & H2 & H). apply unwrap_Ret in H2.
    apply rbind_Ret in H as ([[c' kids] mm] & H3 & H). injection H as <-.
    destruct (parse_items_sound _ _ _ _ _ _ _ _ IH H3) as (cs & mmn & -> & -> & Hok).
    destruct Hok as (Hc' & Hc'' & Hl' & Hnm' & Hp' & Hz').
    destruct (Htab _ _ _ H2) as [Hp Hl]. apply lookup_lt_Some in H1.
    unfold ast_ok. simpl. split_and!; try done.
    - apply Hc''. lia.
    - intros ->. exists p. eauto.
    - intros ->. destruct (Hz' eq_refl) as [-> Hn]. split; [done|]. apply nullable_NT. eauto.
  Qed.
End sound.

(** ** Completeness *)
Section complete.
  Context (P : gset production) (voc : vocabulary) (tab : table) (toks : list token).
  Context (Htab : forall A t p, tab !! (A, t) = Some p <-> p ∈ P /\ left p = A /\ predicts P p t).

  Lemma parse_items_complete α w cs :
    parses P voc α w cs ->
    forall q a t c rest, q ∈ P -> right q = a ++ α -> follows P (left q) (token_type t) ->
      drop c toks = w ++ t :: rest ->
      exists n, forall fuel kids mm, n <= fuel ->
        parse_items voc toks (parse_ast voc tab toks fuel) α c kids mm
          = Ret (c + length w, kids ++ cs, mm).
  Proof using All.
    induction 1 as [|u α tok w cs Ht H IH|p α w1 w2 cs1 cs2 Hp Hr IHr Hα IHα];
      intros q a t c rest Hq Hrq Hf Hd.
    - exists 0. intros fuel kids mm _. simpl. by rewrite Nat.add_0_r, app_nil_r.
    - assert (Hlk : toks !! c = Some tok).
      { rewrite <- (Nat.add_0_r c), <- lookup_drop, Hd. done. }
      destruct (IH q (a ++ [T u]) t (c + 1) rest) as [n Hn]; [done| |done| |].
      { by rewrite <- (assoc_L (++)). }
      { rewrite <- drop_drop, Hd. done. }
      exists n. intros fuel kids mm Hle. simpl. rewrite Hlk. simpl.
      rewrite Ht, Nat.eqb_refl. simpl. rewrite Hn by done. rewrite <- (assoc_L (++)).
      do 3 f_equal. simpl. lia.
    - (* lookahead at c *)
      assert (exists u rest', w2 ++ t :: rest = u :: rest' /\ follows P (left p) (token_type u)) as (u & rest' & Hu & Hfu).
      { destruct w2 as [|u w2].
        - exists t, rest. split; [done|]. apply follows_iff. eapply fol_follow; [exact Hq|exact Hrq| |by apply follows_iff].
          by eapply parses_nullable.
        - exists u, (w2 ++ t :: rest). split; [done|]. apply follows_iff. eapply fol_first; [exact Hq|exact Hrq|].
          by eapply parses_starts. }
      assert (exists tok, toks !! c = Some tok /\ predicts P p (token_type tok)) as (tok & Hlk & Hpr).
      { destruct w1 as [|x w1].
        - exists u. split.
          + rewrite <- (Nat.add_0_r c), <- lookup_drop, Hd. simpl. by rewrite Hu.
          + right. split; [by eapply parses_nullable|done].
        - exists x. split.
          + rewrite <- (Nat.add_0_r c), <- lookup_drop, Hd. done.
          + left. by eapply parses_starts. }
      destruct (IHr p [] u c rest') as [n1 Hn1]; [done|done|done| |].
      { by rewrite Hd, <- (assoc_L (++)), Hu. }
      destruct (IHα q (a ++ [NT (left p)]) t (c + length w1) rest) as [n2 Hn2]; [done| |done| |].
      { by rewrite <- (assoc_L (++)). }
      { rewrite <- drop_drop, Hd, <- (assoc_L (++)). by rewrite drop_app. }
      exists (S n1 `max` n2). intros fuel kids mm Hle.
      assert (Hcall : parse_ast voc tab toks fuel c (left p) =
        Ret (RuleCtx (get_nonterminal_name_with_default voc (left p)) cs1 (left p), c + length w1, [])).
      { destruct fuel as [|fuel]; [lia|]. simpl. rewrite Hlk. simpl.
        rewrite (proj2 (Htab (left p) (token_type tok) p)) by done. simpl. by rewrite Hn1 by lia. }
      cbn [parse_items]. rewrite Hcall. simpl. rewrite Hn2 by lia. rewrite app_nil_r.
      assert (Hk : match get_nonterminal_name_by_id voc (left p) with
              | Some _ => kids ++ [Rule (RuleCtx (get_nonterminal_name_with_default voc (left p)) cs1 (left p))]
              | None => kids ++ cs1 end = kids ++ node voc (left p) cs1).
      { unfold node, get_nonterminal_name_with_default, get_nonterminal_name_by_id.
        by destruct (nt_id_to_name voc !! left p). }
      rewrite Hk, <- (assoc_L (++)), app_length. do 3 f_equal. lia.
  Qed.

  Lemma parse_ast_complete p w cs t c rest :
    p ∈ P -> parses P voc (right p) w cs -> follows P (left p) (token_type t) ->
    drop c toks = w ++ t :: rest ->
    exists n, forall fuel, n <= fuel ->
      parse_ast voc tab toks fuel c (left p) =
        Ret (RuleCtx (get_nonterminal_name_with_default voc (left p)) cs (left p), c + length w, []).
  Proof using All.
    intros Hp Hpar Hf Hd.
    assert (exists tok, toks !! c = Some tok /\ predicts P p (token_type tok)) as (tok & Hlk & Hpr).
    { destruct w as [|x w].
      - exists t. split.
        + rewrite <- (Nat.add_0_r c), <- lookup_drop, Hd. done.
        + right. split; [by eapply parses_nullable|done].
      - exists x. split.
        + rewrite <- (Nat.add_0_r c), <- lookup_drop, Hd. done.
        + left. by eapply parses_starts. }
    destruct (parse_items_complete _ _ _ Hpar p [] t c rest Hp eq_refl Hf Hd) as [n Hn].
    exists (S n). intros fuel Hle. destruct fuel as [|fuel]; [lia|]. simpl. rewrite Hlk. simpl.
    rewrite (proj2 (Htab (left p) (token_type tok) p)) by done. simpl. rewrite Hn by lia. done.
  Qed.
End complete.

(** ** Termination for conflict-free tables *)
Section terminate.
  Context (P : gset production) (voc : vocabulary) (tab : table) (toks : list token).
  Context (Htab : forall A t p, tab !! (A, t) = Some p <-> p ∈ P /\ left p = A /\ predicts P p t).
  Context (Hll : ll1 P).

  Let Hsub : forall A t p, tab !! (A, t) = Some p -> p ∈ P /\ left p = A.
  Proof. intros A t p H. apply Htab in H. tauto. Qed.

  Definition term (c A : nat) : Prop := exists f, parse_ast voc tab toks f c A <> OutOfFuel.
  Definition iterm (α : list item) (c : nat) : Prop :=
    forall kids mm, exists f, parse_items voc toks (parse_ast voc tab toks f) α c kids mm <> OutOfFuel.

  Lemma parse_items_mono' f f' α c kids mm :
    f <= f' -> parse_items voc toks (parse_ast voc tab toks f) α c kids mm <> OutOfFuel ->
    parse_items voc toks (parse_ast voc tab toks f') α c kids mm =
    parse_items voc toks (parse_ast voc tab toks f) α c kids mm.
  Proof using.
    intros Hle. apply parse_items_mono. intros c' A'. by apply parse_ast_mono.
  Qed.

  (** If the lookahead starts α then parsing α consumes something. *)
  Lemma items_consume fuel n α t c kids mm c' kids' mm' tok :
    fst_ P n α t -> toks !! c = Some tok -> token_type tok = t ->
    parse_items voc toks (parse_ast voc tab toks fuel) α c kids mm = Ret (c', kids', mm') -> c < c'.
  Proof using All.
    intros Hf. revert fuel c kids mm c' kids' mm' tok.
    induction Hf as [n t β|n p β t Hp Hf IH|n A β t Hn Hf IH]; intros fuel c kids mm c' kids' mm' tok Hlk Ht H.
    - simpl in H. rewrite Hlk in H. simpl in H.
      eapply (parse_items_sound P voc toks) in H as (cs & mmn & _ & _ & Hok).
      + destruct Hok as (? & _). lia.
      + intros. by eapply parse_ast_sound.
    - simpl in H. apply rbind_Ret in H as ([[r c1] mm1] & H1 & H2).
      eapply (parse_items_sound P voc toks) in H2 as (cs & mmn & _ & _ & Hok);
        [|intros; by eapply parse_ast_sound]. destruct Hok as (Hle & _).
      destruct fuel as [|fuel]; [done|]. simpl in H1. rewrite Hlk in H1. simpl in H1.
      apply rbind_Ret in H1 as (p' & Hp' & H1). apply unwrap_Ret, Htab in Hp' as (Hp'P & Hl & Hpr).
      assert (p' = p) as ->.
      { apply (Hll p' p t); [done|done|done|by rewrite <- Ht|]. left. apply starts_iff. eauto. }
      apply rbind_Ret in H1 as ([[c2 k2] m2] & H1 & H3). injection H3 as <- <- <-.
      eapply IH in H1; [lia|done|done].
    - simpl in H. apply rbind_Ret in H as ([[r c1] mm1] & H1 & H2).
      pose proof (parse_ast_sound P voc tab toks Hsub _ _ _ _ H1) as (_ & _ & Hc & _).
      destruct (decide (c1 = c)) as [->|]; [by eapply IH|].
      eapply (parse_items_sound P voc toks) in H2 as (cs & mmn & _ & _ & Hok);
        [|intros; by eapply parse_ast_sound]. destruct Hok as (Hle & _). lia.
  Qed.

  (** Chaining: a call that terminates, then the rest. *)
  Lemma iterm_NT B α c :
    term c B ->
    (forall f r c1 mm1, parse_ast voc tab toks f c B = Ret (r, c1, mm1) -> iterm α c1) ->
    iterm (NT B :: α) c.
  Proof using.
    intros [f Hf] Hrest kids mm. destruct (parse_ast voc tab toks f c B) as [[[r c1] mm1]| |] eqn:E; [| |done].
    - set (kids' := match get_nonterminal_name_by_id voc B with
                    | Some _ => kids ++ [Rule r] | None => kids ++ children r end).
      destruct (Hrest _ _ _ _ E kids' (mm ++ mm1)) as [f2 Hf2].
      exists (f `max` f2). simpl. rewrite (parse_ast_mono _ _ _ f) by (try lia; by rewrite E).
      rewrite E. simpl. fold kids'. rewrite (parse_items_mono' f2) by (done || lia). done.
    - exists f. simpl. by rewrite E.
  Qed.
  Lemma iterm_T u α c : (c < length toks -> iterm α (c + 1)) -> iterm (T u :: α) c.
  Proof using.
    intros Hrest kids mm. simpl. destruct (toks !! c) as [tok|] eqn:E; [|by exists 0].
    simpl. apply Hrest. by eapply lookup_lt_Some.
  Qed.
  Lemma iterm_nil c : iterm [] c.
  Proof using. intros kids mm. by exists 0. Qed.

  (** Past the current position everything terminates, hence every item list does. *)
  Lemma iterm_later c α c' :
    (forall c' A, c < c' -> term c' A) -> c < c' -> iterm α c'.
  Proof using All.
    intros IH. revert c'. induction α as [|[B|u] α IHα]; intros c' Hc'; [apply iterm_nil|..].
    - apply iterm_NT; [by apply IH|]. intros f r c1 mm1 H. apply IHα.
      pose proof (parse_ast_sound P voc tab toks Hsub _ _ _ _ H) as (_ & _ & Hc & _). lia.
    - apply iterm_T. intros _. apply IHα. lia.
  Qed.

  Lemma term_of_iterm c A tok p :
    toks !! c = Some tok -> tab !! (A, token_type tok) = Some p -> iterm (right p) c -> term c A.
  Proof using.
    intros H1 H2 Hi. destruct (Hi [] []) as [f Hf]. exists (S f). simpl. rewrite H1. simpl. rewrite H2. simpl.
    by destruct (parse_items _ _ _ _ _ _ _) as [[[c' k] m]| |].
  Qed.

  Section at_position.
    Context (c : nat) (tok : token) (Hlk : toks !! c = Some tok).
    Context (IHc : forall c' A, c < c' -> term c' A).

    (** Case: the lookahead does not start A. *)
    Lemma term_nul n A : nul P n [NT A] -> ~ starts P [NT A] (token_type tok) -> term c A.
    Proof using All.
      revert A. induction n as [n IH] using lt_wf_ind. intros A Hn Hns.
      destruct (tab !! (A, token_type tok)) as [p|] eqn:Ep.
      2: { exists 1. simpl. rewrite Hlk. simpl. by rewrite Ep. }
      eapply term_of_iterm; [done|done|].
      apply Htab in Ep as (Hp & Hl & Hpr).
      assert (exists m q, m < n /\ q ∈ P /\ left q = A /\ nul P m (right q)) as (m & q & Hm & Hq & Hlq & Hnq).
      { inversion Hn as [|m q α' Hq H1 H2]; subst. exists m, q. split_and!; [lia|done..]. }
      destruct Hpr as [Hst|[Hnp Hfo]].
      { exfalso. apply Hns. apply starts_NT. eauto. }
      assert (p = q) as ->.
      { apply (Hll p q (token_type tok)); [done|done|congruence|by right|]. right.
        rewrite Hlq, <- Hl. split; [|done]. apply nullable_iff. eauto. }
      assert (forall α β, right q = α ++ β -> nullable P α -> nul P m β -> iterm β c) as Hwalk;
        [|by eapply (Hwalk [] (right q)); [done|apply nullable_nil|done]].
      intros α β. revert α. induction β as [|x β IHβ]; intros α Hr Hα Hβ; [apply iterm_nil|].
      assert (Hnx : nul P m [x] /\ nul P m β) by (by apply nul_app_inv).
      destruct Hnx as [Hnx Hnβ]. destruct x as [B|u]; [|inversion Hnx].
      apply iterm_NT.
      - apply (IH m); [lia|done|]. intros Hst. apply Hns. apply starts_NT. exists q. split_and!; [done..|].
        rewrite Hr. apply starts_app. right. split; [done|]. apply starts_cons. by left.
      - intros f r c1 mm1 H. pose proof (parse_ast_sound P voc tab toks Hsub _ _ _ _ H) as (_ & _ & Hc & _).
        destruct (decide (c1 = c)) as [->|]; [|apply (iterm_later c); [done|lia]].
        apply (IHβ (α ++ [NT B])); [by rewrite <- (assoc_L (++))| |done].
        apply nullable_app. split; [done|]. apply nullable_iff. eauto.
    Qed.

    (** Case: the lookahead starts A. *)
    Lemma term_fst n A : fst_ P n [NT A] (token_type tok) -> term c A.
    Proof using All.
      revert A. induction n as [n IH] using lt_wf_ind. intros A Hf.
      destruct (tab !! (A, token_type tok)) as [p|] eqn:Ep.
      2: { exists 1. simpl. rewrite Hlk. simpl. by rewrite Ep. }
      eapply term_of_iterm; [done|done|].
      apply Htab in Ep as (Hp & Hl & Hpr).
      assert (exists m q, m < n /\ q ∈ P /\ left q = A /\ fst_ P m (right q) (token_type tok))
        as (m & q & Hm & Hq & Hlq & Hfq).
      { inversion Hf as [|n' q β' t' Hq H1|n' A' β' t' Hn' H1]; subst.
        - exists n', q. split_and!; [lia|done..].
        - inversion H1. }
      assert (p = q) as ->.
      { apply (Hll p q (token_type tok)); [done|done|congruence|done|]. left. apply starts_iff. eauto. }
      assert (forall α β, right q = α ++ β -> fst_ P m β (token_type tok) -> iterm β c) as Hwalk;
        [|by eapply (Hwalk [] (right q))].
      intros α β. revert α. induction β as [|x β IHβ]; intros α Hr Hβ; [inversion Hβ|].
      destruct x as [B|u].
      2: { apply iterm_T. intros _. apply (iterm_later c); [done|lia]. }
      apply iterm_NT.
      - inversion Hβ as [|n' q' β' t' Hq' H1|n' A' β' t' Hn' H1]; subst.
        + apply (IH (S n')); [lia|]. by constructor.
        + pose proof Hn' as [k Hk]%nullable_iff. apply (term_nul k); [done|].
          intros [k' Hk']%starts_iff. eapply (ll1_no_self_conflict P); [done|done| |done].
          apply follows_iff. eapply fol_first; [exact Hq|exact Hr|]. apply starts_iff. eauto.
      - intros f r c1 mm1 H. pose proof (parse_ast_sound P voc tab toks Hsub _ _ _ _ H) as (_ & _ & Hc & _).
        destruct (decide (c1 = c)) as [->|]; [|apply (iterm_later c); [done|lia]].
        apply (IHβ (α ++ [NT B])); [by rewrite <- (assoc_L (++))|].
        inversion Hβ as [|n' q' β' t' Hq' H1|n' A' β' t' Hn' H1]; subst; [|done].
        exfalso. assert (Hfst : fst_ P (S n') [NT (left q')] (token_type tok)) by (by constructor).
        eapply (items_consume f) with (kids := []) (mm := []) in Hfst; [|exact Hlk|done|].
        2: { simpl. rewrite H. simpl. done. }
        lia.
    Qed.
  End at_position.

  Lemma parse_ast_terminates c A : term c A.
  Proof using All.
    remember (length toks - c) as k eqn:Hk. revert c A Hk.
    induction k as [k IH] using lt_wf_ind. intros c A Hk.
    destruct (toks !! c) as [tok|] eqn:Hlk.
    2: { exists 1. simpl. by rewrite Hlk. }
    pose proof (lookup_lt_Some _ _ _ Hlk) as Hlt.
    assert (IHc : forall c' A', c < c' -> term c' A').
    { intros c' A' Hc'. apply (IH (length toks - c')); [lia|done]. }
    destruct (tab !! (A, token_type tok)) as [p|] eqn:Ep.
    2: { exists 1. simpl. rewrite Hlk. simpl. by rewrite Ep. }
    pose proof Ep as (Hp & Hl & Hpr)%Htab.
    (* no excluded middle: the production in the table decides the case *)
    destruct Hpr as [Hst|[Hn Hfo]].
    - assert (starts P [NT A] (token_type tok)) as [n Hf]%starts_iff by (apply starts_NT; eauto).
      by eapply term_fst.
    - assert (nullable P [NT A]) as Hnu by (apply nullable_NT; eauto).
      pose proof Hnu as [n Hn']%nullable_iff. eapply term_nul; [done|done|done|].
      intros [m Hm]%starts_iff. eapply (ll1_no_self_conflict P); [done|done| |done]. by rewrite <- Hl.
  Qed.
End terminate.
