(** HandProofs.v -- C68: what the hand-written lexer of the grammar language does to every text. *)
From Verif Require Export LexerInstMain SpecHand.

Section hand.
  Context (nd : N -> bool) (Hnd : digits_ok nd).
  Notation rests := (rests nd).

  (** *** Lazy repetition of a class in front of a mark *)
  Lemma lazy_nil l d : rests (RCat (RMany false (RClass true l)) d) [] = rests d [].
  Proof using. cbn. by rewrite app_nil_r. Qed.
  Lemma lazy_cons l d c s : rests (RCat (RMany false (RClass true l)) d) (c :: s) =
    rests d (c :: s) ++ (if in_class nd true l c then rests (RCat (RMany false (RClass true l)) d) s else []).
  Proof using.
    cbn [Regex.rests length many]. cbn [map concat]. f_equal.
    destruct (in_class nd true l c); [|done]. cbn [List.filter length].
    rewrite (proj2 (Nat.ltb_lt _ _)) by lia. cbn [map concat]. by rewrite app_nil_r.
  Qed.
  Lemma lazy_head l d u s rest : Forall (fun c => in_class nd true l c = true) u ->
    (forall a b, u = a ++ b -> b <> [] -> rests d (b ++ s) = []) -> head (rests d s) = Some rest ->
    head (rests (RCat (RMany false (RClass true l)) d) (u ++ s)) = Some rest.
  Proof using.
    intros Hu Hd Hs. induction Hu as [|c u Hc Hu IH].
    - change ([] ++ s) with s. destruct s as [|c s]; [by rewrite lazy_nil|]. rewrite lazy_cons. by apply head_app_l.
    - change ((c :: u) ++ s) with (c :: u ++ s). rewrite lazy_cons, Hc.
      assert (rests d (c :: u ++ s) = []) as -> by (by apply (Hd [] (c :: u))). apply IH. intros a b -> Hb. by apply (Hd (c :: a) b).
  Qed.

  (** *** Comments *)
  Definition r_line : re := RCat (ch 47) (RCat (ch 47) (RCat (RMany false (RClass true [CRange 10 10])) (ch 10))).
  Definition r_block : re := RCat (ch 47) (RCat (ch 42) (RCat (RMany false (RClass true [])) (two 42 47))).
  Lemma line_fwd l rest : 10%N ∉ l ->
    find_at0 nd r_line ((lit "//" ++ l ++ [10%N]) ++ rest) = Some (blen (lit "//" ++ l ++ [10%N])).
  Proof using.
    intros Hl. apply find_pref. rewrite <- !(assoc_L (++)). unfold r_line. change (lit "//") with [47; 47]%N.
    change ([47; 47]%N ++ l ++ [10%N] ++ rest) with (47%N :: 47%N :: l ++ 10%N :: rest).
    apply pref_cat with (47%N :: l ++ 10%N :: rest); [by rewrite rests_ch|].
    apply pref_cat with (l ++ 10%N :: rest); [by rewrite rests_ch|].
    apply lazy_head.
    - apply Forall_forall. intros c Hc. rewrite in_neg. simpl. rewrite orb_false_r. apply negb_true_iff.
      apply not_true_iff_false. rewrite andb_true_iff, !N.leb_le. intros ?. assert (c = 10%N) as -> by lia. done.
    - intros a b -> Hb. destruct b as [|c b]; [done|]. cbn [app]. rewrite rests_ch.
      destruct (N.eqb_spec c 10) as [->|]; [|done]. exfalso. apply Hl. apply elem_of_app. right. by left.
    - by rewrite rests_ch.
  Qed.
  Lemma first_10 (v : str) : 10%N ∈ v -> exists l r, v = l ++ 10%N :: r /\ 10%N ∉ l.
  Proof using. intros (l & r & -> & H)%elem_of_list_split_l. by exists l, r. Qed.
  Lemma find_det r s x y a b : s = x ++ a -> s = y ++ b -> find_at0 nd r s = Some (blen x) ->
    find_at0 nd r s = Some (blen y) -> x = y /\ a = b.
  Proof using. intros -> E H1 H2. rewrite H1 in H2. injection H2 as H2. by apply app_blen_inj. Qed.
  Lemma line_bwd s e : find_at0 nd r_line s = Some e ->
    exists l rest, s = (lit "//" ++ l ++ [10%N]) ++ rest /\ e = blen (lit "//" ++ l ++ [10%N]) /\ 10%N ∉ l.
  Proof using.
    intros H. pose proof H as H0. apply find_inv in H as (x & s' & -> & <- & Hx & _). unfold r_line in Hx.
    apply lang_cat_inv in Hx as (a & b & -> & ->%lang_ch_inv & Hx).
    apply lang_cat_inv in Hx as (a & b' & -> & ->%lang_ch_inv & Hx).
    apply lang_cat_inv in Hx as (a & b & -> & _ & ->%lang_ch_inv).
    destruct (first_10 ((a ++ [10%N]) ++ s')) as (l & r & E & Hl).
    { rewrite !elem_of_app. left. right. by left. }
    exists l, r. assert (E2 : ([47%N] ++ [47%N] ++ a ++ [10%N]) ++ s' = (lit "//" ++ l ++ [10%N]) ++ r).
    { change (47%N :: 47%N :: (a ++ [10%N]) ++ s' = 47%N :: 47%N :: (l ++ [10%N]) ++ r). rewrite E. by rewrite <- (assoc_L (++)). }
    split_and!; [done| |done]. rewrite E2, line_fwd in H0 by done. congruence.
  Qed.
  Lemma block_fwd u rest : (forall a b, u <> a ++ lit "*/" ++ b) ->
    find_at0 nd r_block ((lit "/*" ++ u ++ lit "*/") ++ rest) = Some (blen (lit "/*" ++ u ++ lit "*/")).
  Proof using.
    intros Hu. apply find_pref. rewrite <- !(assoc_L (++)). unfold r_block. change (lit "/*") with [47; 42]%N.
    change (lit "*/") with [42; 47]%N in *.
    change ([47; 42]%N ++ u ++ [42; 47]%N ++ rest) with (47%N :: 42%N :: u ++ 42%N :: 47%N :: rest).
    apply pref_cat with (42%N :: u ++ 42%N :: 47%N :: rest); [by rewrite rests_ch|].
    apply pref_cat with (u ++ 42%N :: 47%N :: rest); [by rewrite rests_ch|].
    apply lazy_head.
    - apply Forall_forall. intros c Hc. reflexivity.
    - intros a b -> Hb. apply rests_nil. intros x s' E Hx. apply lang_lit_inv in Hx as ->.
      destruct b as [|c [|d b]]; [done| |].
      + injection E as -> E. discriminate E.
      + injection E as -> -> _. by eapply Hu.
    - reflexivity.
  Qed.
  Lemma close_dec (v : str) :
    (exists u r, v = u ++ lit "*/" ++ r /\ forall a b, u <> a ++ lit "*/" ++ b) \/ (forall a b, v <> a ++ lit "*/" ++ b).
  Proof using.
    change (lit "*/") with [42; 47]%N. induction v as [|c v IH]; [right; intros [|] b; discriminate|].
    assert (Hd : (c = 42%N /\ exists v', v = 47%N :: v') \/ ~ (c = 42%N /\ exists v', v = 47%N :: v')).
    { destruct (N.eq_dec c 42) as [->|]; [|right; by intros [? _]]. destruct v as [|d v]; [right; by intros [_ (? & ?)]|].
      destruct (N.eq_dec d 47) as [->|]; [left; split; [done|by eexists]|right]. intros [_ (? & [= ? _])]. done. }
    destruct Hd as [[-> (v' & ->)]|Hn].
    { left. exists [], v'. split; [done|]. intros [|] b; discriminate. }
    destruct IH as [(u & r & -> & Hu)|Hv].
    - left. exists (c :: u), r. split; [done|]. intros [|d a] b E.
      + injection E as -> ->. apply Hn. split; [done|]. by eexists.
      + injection E as -> ->. by eapply Hu.
    - right. intros [|d a] b E.
      + injection E as -> ->. apply Hn. split; [done|]. by eexists.
      + injection E as -> ->. by eapply Hv.
  Qed.
  Lemma first_close (v : str) a b : v = a ++ lit "*/" ++ b ->
    exists u r, v = u ++ lit "*/" ++ r /\ forall a b, u <> a ++ lit "*/" ++ b.
  Proof using. intros E. destruct (close_dec v) as [H|H]; [exact H|]. exfalso. by eapply H. Qed.
  Lemma block_bwd s e : find_at0 nd r_block s = Some e ->
    exists u rest, s = (lit "/*" ++ u ++ lit "*/") ++ rest /\ e = blen (lit "/*" ++ u ++ lit "*/") /\
      forall a b, u <> a ++ lit "*/" ++ b.
  Proof using.
    intros H. pose proof H as H0. apply find_inv in H as (x & s' & -> & <- & Hx & _). unfold r_block in Hx.
    apply lang_cat_inv in Hx as (a & b & -> & ->%lang_ch_inv & Hx).
    apply lang_cat_inv in Hx as (a & b' & -> & ->%lang_ch_inv & Hx).
    apply lang_cat_inv in Hx as (a & b & -> & _ & ->%lang_lit_inv).
    destruct (first_close (a ++ lit "*/" ++ s') a s' eq_refl) as (u & r & E & Hu).
    exists u, r. assert (E2 : ([47%N] ++ [42%N] ++ a ++ [42; 47]%N) ++ s' = (lit "/*" ++ u ++ lit "*/") ++ r).
    { change (47%N :: 42%N :: (a ++ lit "*/") ++ s' = 47%N :: 42%N :: (u ++ lit "*/") ++ r). rewrite <- !(assoc_L (++)). by rewrite E. }
    split_and!; [done| |done]. rewrite E2, block_fwd in H0 by done. congruence.
  Qed.
  Lemma block_some s u v : s = lit "/*" ++ u ++ lit "*/" ++ v -> exists e, find_at0 nd r_block s = Some e.
  Proof using.
    intros ->. destruct (first_close (u ++ lit "*/" ++ v) u v eq_refl) as (u' & r & E & Hu).
    exists (blen (lit "/*" ++ u' ++ lit "*/")). rewrite E. 
    transitivity (find_at0 nd r_block ((lit "/*" ++ u' ++ lit "*/") ++ r)); [by rewrite <- !(assoc_L (++))|by apply block_fwd].
  Qed.

  (** A regex never reaches behind the closing mark of a comment it begins with. *)
  Lemma slash_units_stop us p q : Forall slash_unit us -> concat us = p ++ 47%N :: q -> exists p', p = p' ++ [92%N].
  Proof using.
    intros H. revert p q. induction H as [|u us Hu H IH]; intros p q E; [by destruct p|].
    change (concat (u :: us)) with (u ++ concat us) in E. destruct Hu as [->|(c & -> & Hc)].
    - destruct p as [|c p]; [discriminate E|]. injection E as <- E. destruct p as [|d p]; [by exists []|].
      injection E as <- E. destruct (IH _ _ E) as (p' & ->). by exists (92%N :: 47%N :: p').
    - destruct p as [|d p]; [injection E as -> _; done|]. injection E as <- E.
      destruct (IH _ _ E) as (p' & ->). by exists (c :: p').
  Qed.
  Lemma regular_within us u s t : Forall slash_unit us ->
    regular_text us ++ s = (lit "/*" ++ u ++ lit "*/") ++ t -> blen (regular_text us) <= blen (lit "/*" ++ u ++ lit "*/").
  Proof using.
    intros Hus E. apply app_eq_app in E as (l & [[E _]|[E _]]); [|rewrite E, (blen_app (regular_text us)); lia].
    destruct l as [|e l _] using rev_ind; [rewrite app_nil_r in E; rewrite E; lia|]. exfalso.
    unfold regular_text in E. change (lit "/*") with [47; 42]%N in E. change (lit "*/") with [42; 47]%N in E.
    cbn [app] in E. injection E as E. rewrite (app_assoc _ l [e]), (app_comm_cons _ _ 42%N) in E.
    apply app_inj_tail in E as [E _].
    destruct (slash_units_stop us (42%N :: u ++ [42%N]) l Hus) as (p' & Ep).
    { rewrite E. rewrite <- !(assoc_L (++)). simpl. by rewrite <- !(assoc_L (++)). }
    rewrite app_comm_cons in Ep. apply app_inj_tail in Ep as [_ Ep]. discriminate Ep.
  Qed.

  (** *** STRING_LITERAL, with the alternatives in another order *)
  Definition hand_unit : re := RAlt r_escape (RAlt (RClass false [CDigit]) (RClass true plain_items)).
  Lemma escape_fails c s : c <> 92%N -> rests r_escape (c :: s) = [].
  Proof using.
    intros Hc. apply first_fails; [done|]. assert (Hn : (c =? 92)%N = false) by (by apply N.eqb_neq).
    unfold r_escape, r_code, two, lit_re, ch. cbn [first_char nullable]. rewrite !in_ch, !Hn. done.
  Qed.
  Lemma hand_unit_head u s : string_unit u -> head (rests hand_unit (u ++ s)) = Some s.
  Proof using Hnd.
    intros Hu. unfold hand_unit. destruct Hu as [c Hc|c Hc|pre h Hp Hne Hh].
    - change ([c] ++ s) with (c :: s). apply pref_alt_r.
      { apply escape_fails. intros ->. apply Hc. vm_compute. clear. set_solver. }
      destruct (nd c) eqn:E.
      + apply pref_alt_l. cbn [Regex.rests]. rewrite in_pos. simpl. by rewrite E.
      + apply pref_alt_r; [cbn [Regex.rests]; rewrite in_pos; simpl; by rewrite E|].
        cbn [Regex.rests]. rewrite (proj2 (in_plain nd c)); done.
    - apply pref_alt_l. change ([92%N; c] ++ s) with (92%N :: c :: s).
      unfold r_escape, two. clear -Hc. change (lit "\'adnrtfv") with [92; 39; 97; 100; 110; 114; 116; 102; 118]%N in Hc.
      repeat (apply elem_of_cons in Hc as [->|Hc]); [..|by apply elem_of_nil in Hc]; reflexivity.
    - apply pref_alt_l. unfold r_escape, two.
      repeat (apply pref_alt_r; [reflexivity|]). by apply code_head.
  Qed.
  Lemma hand_unit_39 s : rests hand_unit (39%N :: s) = [].
  Proof using Hnd.
    apply first_fails; [done|]. unfold hand_unit, r_escape, r_code, two, lit_re, ch. cbn [first_char nullable].
    rewrite !in_ch. assert (E1 : in_class nd true plain_items 39 = false).
    { apply not_true_iff_false. intros [H _]%in_plain. apply H. vm_compute. clear. set_solver. }
    assert (E2 : in_class nd false [CDigit] 39 = false).
    { apply not_true_iff_false. rewrite in_pos. simpl. rewrite orb_false_r. intros H. apply Hnd in H; lia. }
    rewrite E1, E2. reflexivity.
  Qed.
  Lemma hand_units_head us s : Forall string_unit us ->
    head (rests (RMany true hand_unit) (concat us ++ 39%N :: s)) = Some (39%N :: s).
  Proof using Hnd.
    intros H. induction H as [|u us Hu H IH].
    - change (concat [] ++ 39%N :: s) with (39%N :: s). by rewrite (many_stop nd _ _ (hand_unit_39 s)).
    - change (concat (u :: us)) with (u ++ concat us). rewrite <- (assoc_L (++)).
      apply many_step with (concat us ++ 39%N :: s); [by apply hand_unit_head| |done].
      apply unit_ne in Hu. rewrite (app_length u). destruct u; [done|]. simpl. lia.
  Qed.
  Lemma hand_string_fwd us rest : Forall string_unit us ->
    find_at0 nd hand_string ((39%N :: concat us ++ [39%N]) ++ rest) = Some (blen (39%N :: concat us ++ [39%N])).
  Proof using Hnd.
    intros H. apply find_pref. unfold hand_string. apply pref_cat with (concat us ++ 39%N :: rest).
    - change ((39%N :: concat us ++ [39%N]) ++ rest) with (39%N :: (concat us ++ [39%N]) ++ rest).
      rewrite rests_ch, N.eqb_refl, <- (assoc_L (++)). done.
    - apply pref_cat with (39%N :: rest); [by apply hand_units_head|]. by rewrite rests_ch.
  Qed.
  Lemma hand_string_bwd s e : find_at0 nd hand_string s = Some e ->
    exists us rest, s = (39%N :: concat us ++ [39%N]) ++ rest /\ e = blen (39%N :: concat us ++ [39%N]) /\ Forall string_unit us.
  Proof using Hnd.
    intros (x & rest & -> & <- & Hx & _)%find_inv. unfold hand_string in Hx.
    apply lang_cat_inv in Hx as (a & b & -> & ->%lang_ch_inv & Hx).
    apply lang_cat_inv in Hx as (m & b' & -> & (us & -> & Hus)%lang_many_inv & ->%lang_ch_inv).
    exists us, rest. split_and!; [done|done|]. eapply Forall_impl; [exact Hus|]. intros u [_ Hu].
    apply (unit_inv nd Hnd). unfold r_unit. apply lang_alt_inv in Hu as [Hu|[Hu|Hu]%lang_alt_inv];
      [apply lang_alt_r, lang_alt_l; exact Hu|apply lang_alt_r, lang_alt_r; exact Hu|apply lang_alt_l; exact Hu].
  Qed.

  (** *** Blanks *)
  Definition hblank (c : N) : Prop := c ∈ [32; 9; 13; 10]%N.
  Definition hblank_items : list citem := [CRange 32 32; CRange 9 9; CRange 13 13; CRange 10 10].
  Lemma in_hblank c : in_class nd false hblank_items c = true <-> hblank c.
  Proof using.
    rewrite in_pos. unfold hblank. simpl. rewrite !orb_true_iff, !andb_true_iff, !N.leb_le, !elem_of_cons.
    rewrite elem_of_nil. split; intros H; [|lia]. destruct H as [H|[H|[H|[H|H]]]]; [left|right;left|right;right;left|right;right;right;left|done]; lia.
  Qed.
  Lemma hblank_fwd w rest : w <> [] -> Forall hblank w -> no_start hblank rest ->
    find_at0 nd (some_of hblank_items) (w ++ rest) = Some (blen w).
  Proof using.
    intros Hne Hw Hr. apply find_pref. apply some_run; [done| |].
    - by rewrite <- (Forall_iff_bool hblank _ w in_hblank).
    - by rewrite <- (no_start_bool hblank _ rest in_hblank).
  Qed.
  Lemma hblank_bwd s e : find_at0 nd (some_of hblank_items) s = Some e ->
    exists w rest, s = w ++ rest /\ e = blen w /\ w <> [] /\ Forall hblank w /\ no_start hblank rest.
  Proof using.
    intros H. pose proof H as H0. apply find_inv in H as (x & s' & -> & <- & Hx & _).
    apply lang_some_inv in Hx as [Hz1 Hz2]. rewrite <- (Forall_iff_bool hblank _ x in_hblank) in Hz2.
    destruct (span_prop hblank _ (x ++ s') in_hblank) as (w & rest & E & Hw & Hr).
    destruct (span_prefix _ _ _ _ _ E Hz2 Hr) as (b & ->). exists (x ++ b), rest.
    rewrite E in H0 |- *. rewrite hblank_fwd in H0; [|by destruct x|done|done]. injection H0 as H0.
    split; [done|]. split; [by symmetry|]. split; [by destruct x|]. done.
  Qed.

  (** *** Which regex finds which text *)
  Lemma lit_fwd x rest : x <> [] -> find_at0 nd (lit_re x) (x ++ rest) = Some (blen x).
  Proof using. intros Hx. apply find_pref. apply unique_head; [apply lang_lit|]. intros y s' ->%lang_lit_inv E. by apply app_inv_head in E. Qed.
  Lemma lit_bwd x s e : find_at0 nd (lit_re x) s = Some e -> exists rest, s = x ++ rest /\ e = blen x.
  Proof using. intros (y & s' & -> & <- & ->%lang_lit_inv & _)%find_inv. by exists s'. Qed.

  (** Regex number [i] finds [x] in front of [rest]. *)
  Definition cand (i : nat) (x rest : str) : Prop :=
    match i with
    | 0 => exists l, x = lit "//" ++ l ++ [10%N] /\ 10%N ∉ l
    | 1 => exists u, x = lit "/*" ++ u ++ lit "*/" /\ forall a b, u <> a ++ lit "*/" ++ b
    | 2 => x <> [] /\ Forall hblank x /\ no_start hblank rest
    | 3 => x = lit "fragment"
    | 4 => exists c w, x = c :: w /\ upper c /\ w <> [] /\ Forall name_char w /\ no_start name_char rest
    | 5 => exists c w, x = c :: w /\ lower c /\ w <> [] /\ Forall name_char w /\ no_start name_char rest
    | 6 => x ∈ colons /\ colon_apart x rest
    | 7 => x = lit "|" | 8 => x = lit ";" | 9 => x = lit "*" | 10 => x = lit "+" | 11 => x = lit "?"
    | 12 => x = lit "." | 13 => x = lit "~" | 14 => x = lit "(" | 15 => x = lit ")" | 16 => x = lit "#"
    | 17 => exists us, x = 39%N :: concat us ++ [39%N] /\ Forall string_unit us
    | 18 => x = lit ".."
    | 19 => exists us, x = regular_text us /\ us <> [] /\ Forall slash_unit us /\
              forall us', x = regular_text us' -> Forall slash_unit us' -> last us' = Some [92%N] -> 47%N ∉ rest
    | 20 => x = [949%N] \/ x = lit "epsilon"
    | _ => False
    end.
  Definition cstarts (i : nat) (c : N) : Prop :=
    match i with
    | 0 | 1 | 19 => c = 47%N | 2 => hblank c | 3 => c = 102%N | 4 => upper c | 5 => lower c
    | 6 => c = 58%N \/ c = 45%N \/ c = 61%N | 7 => c = 124%N | 8 => c = 59%N | 9 => c = 42%N
    | 10 => c = 43%N | 11 => c = 63%N | 12 | 18 => c = 46%N | 13 => c = 126%N | 14 => c = 40%N | 15 => c = 41%N
    | 16 => c = 35%N | 17 => c = 39%N | 20 => c = 949%N \/ c = 101%N
    | _ => False
    end.
  (** Regexes that can begin with the same character. *)
  Definition grp (i : nat) : nat := match i with 1 | 19 => 0 | 3 | 20 => 5 | 18 => 12 | _ => i end.
  Lemma cstarts_grp i j c : cstarts i c -> cstarts j c -> grp i = grp j.
  Proof using.
    unfold cstarts, lower, upper, hblank. intros Hi Hj.
    assert (Hb : forall d : N, d ∈ [32; 9; 13; 10]%N -> (d = 32 \/ d = 9 \/ d = 13 \/ d = 10)%N).
    { intros d. rewrite !elem_of_cons, elem_of_nil. tauto. }
    do 21 (destruct i as [|i]; [do 21 (destruct j as [|j]; [try reflexivity; exfalso;
      try apply Hb in Hi; try apply Hb in Hj; lia|]); destruct Hj|]). destruct Hi.
  Qed.
  Lemma cand_start i x rest : cand i x rest -> exists c w, x = c :: w /\ cstarts i c.
  Proof using.
    clear Hnd. unfold cand. destruct i as [|[|[|[|[|[|[|[|[|[|[|[|[|[|[|[|[|[|[|[|[|i]]]]]]]]]]]]]]]]]]]]]; simpl; try (intros ->; vm_compute; eauto; fail); [..|tauto].
    - intros (l & -> & _). vm_compute. eauto.
    - intros (l & -> & _). vm_compute. eauto.
    - intros (Hne & Hb & _). destruct Hb as [|c w Hc _]; [done|]. eauto.
    - intros (c & w & -> & Hc & _). eauto.
    - intros (c & w & -> & Hc & _). eauto.
    - intros [H _]. repeat (apply elem_of_cons in H as [->|H]; [eexists _, _; split; [reflexivity|]; tauto|]). by apply elem_of_nil in H.
    - intros (us & -> & _). eauto.
    - intros (us & -> & _). unfold regular_text. eauto.
    - intros [->| ->]; vm_compute; eauto.
  Qed.
  Lemma cand_find i r x rest : hand_res !! i = Some r -> cand i x rest -> (i = 20 -> x = [949%N]) ->
    find_at0 nd r (x ++ rest) = Some (blen x).
  Proof using Hnd.
    intros Hr. unfold cand. destruct i as [|[|[|[|[|[|[|[|[|[|[|[|[|[|[|[|[|[|[|[|[|i]]]]]]]]]]]]]]]]]]]]]; try (injection Hr as <-); simpl; [..|done].
    - intros (l & -> & Hl) _. by apply line_fwd.
    - intros (u & -> & Hu) _. by apply block_fwd.
    - intros (Hne & Hb & Hn) _. by apply hblank_fwd.
    - intros -> _. by apply lit_fwd.
    - intros (c & w & -> & Hc & Hw1 & Hw2 & Ha) _. by apply name_fwd.
    - intros (c & w & -> & Hc & Hw1 & Hw2 & Ha) _. by apply name_fwd.
    - intros [Hx Ha] _. by apply colon_fwd.
    - intros -> _. apply (ch_fwd nd 124).
    - intros -> _. apply (ch_fwd nd 59).
    - intros -> _. apply (ch_fwd nd 42).
    - intros -> _. apply (ch_fwd nd 43).
    - intros -> _. apply (ch_fwd nd 63).
    - intros -> _. apply (ch_fwd nd 46).
    - intros -> _. apply (ch_fwd nd 126).
    - intros -> _. apply (ch_fwd nd 40).
    - intros -> _. apply (ch_fwd nd 41).
    - intros -> _. apply (ch_fwd nd 35).
    - intros (us & -> & Hus) _. by apply hand_string_fwd.
    - intros -> _. by apply (lit_fwd [46; 46]%N).
    - intros (us & -> & Hne & Hus & Ha) _. apply regular_fwd; [done|done|]. intros Hl. by eapply Ha.
    - intros _ Hx. rewrite (Hx eq_refl). apply (epsilon_fwd nd).
  Qed.
  Lemma find_cand i r s e : hand_res !! i = Some r -> find_at0 nd r s = Some e ->
    exists x rest, s = x ++ rest /\ e = blen x /\ cand i x rest.
  Proof using Hnd.
    intros Hr. destruct i as [|[|[|[|[|[|[|[|[|[|[|[|[|[|[|[|[|[|[|[|[|i]]]]]]]]]]]]]]]]]]]]]; try (injection Hr as <-); [..|done].
    - intros (l & rest & -> & -> & Hl)%line_bwd. eexists _, rest. split_and!; [done|done|]. by exists l.
    - intros (l & rest & -> & -> & Hl)%block_bwd. eexists _, rest. split_and!; [done|done|]. by exists l.
    - intros (w & rest & -> & -> & Hne & Hw & Hn)%hblank_bwd. by exists w, rest.
    - intros (rest & -> & ->)%lit_bwd. by eexists _, rest.
    - intros (c & w & rest & -> & -> & Hc & Hw1 & Hw2 & Ha)%name_bwd. eexists _, rest. split_and!; [done|done|]. by exists c, w.
    - intros (c & w & rest & -> & -> & Hc & Hw1 & Hw2 & Ha)%name_bwd. eexists _, rest. split_and!; [done|done|]. by exists c, w.
    - intros (x & rest & -> & -> & Hx & Ha)%colon_bwd. by exists x, rest.
    - intros (rest & -> & ->)%ch_bwd. by eexists _, rest.
    - intros (rest & -> & ->)%ch_bwd. by eexists _, rest.
    - intros (rest & -> & ->)%ch_bwd. by eexists _, rest.
    - intros (rest & -> & ->)%ch_bwd. by eexists _, rest.
    - intros (rest & -> & ->)%ch_bwd. by eexists _, rest.
    - intros (rest & -> & ->)%ch_bwd. by eexists _, rest.
    - intros (rest & -> & ->)%ch_bwd. by eexists _, rest.
    - intros (rest & -> & ->)%ch_bwd. by eexists _, rest.
    - intros (rest & -> & ->)%ch_bwd. by eexists _, rest.
    - intros (rest & -> & ->)%ch_bwd. by eexists _, rest.
    - intros (us & rest & -> & -> & Hus)%hand_string_bwd. eexists _, rest. split_and!; [done|done|]. by exists us.
    - intros (rest & -> & ->)%lit_bwd. by eexists _, rest.
    - intros (us & rest & -> & -> & Hne & Hus & Ha)%regular_bwd. eexists _, rest. split_and!; [done|done|]. by exists us.
    - intros (x & rest & -> & -> & Hx)%epsilon_bwd. by exists x, rest.
  Qed.

  (** *** Which regex wins *)
  Definition hfires (i : nat) (x rest : str) : Prop :=
    match i with
    | 0 => exists l, x = lit "//" ++ l ++ [10%N] /\ 10%N ∉ l
    | 1 => exists u, x = lit "/*" ++ u ++ lit "*/" /\ forall a b, u <> a ++ lit "*/" ++ b
    | 2 => x <> [] /\ Forall hblank x /\ no_start hblank rest
    | _ => hand_text (2 + i) x /\ hand_apart (2 + i) x rest
    end.
  Lemma hfires_cand i x rest : hfires i x rest -> cand i x rest /\ (i = 20 -> x = [949%N]).
  Proof using.
    clear Hnd. destruct i as [|[|[|[|[|[|[|[|[|[|[|[|[|[|[|[|[|[|[|[|[|i]]]]]]]]]]]]]]]]]]]]]; simpl;
      try (intros H; split; [exact H|done]); try (intros [? ?]; split; [done|done]); try (intros [? ?]; split; [tauto|done]); try tauto.
    - intros [(c & w & ? & ? & ? & ?) ?]. split; [|done]. by exists c, w.
    - intros [[_ (c & w & ? & ? & ? & ?)] ?]. split; [|done]. by exists c, w.
    - intros [(us & ? & ? & ?) [? _]]. split; [|done]. by exists us.
  Qed.
  Notation hand_matchers := (map (find_at0 nd) hand_res).
  Lemma hand_lookup j (m : matcher) : hand_matchers !! j = Some m -> exists r, hand_res !! j = Some r /\ m = find_at0 nd r.
  Proof using. rewrite list_lookup_fmap. destruct (hand_res !! j); [|done]. intros [= <-]. eauto. Qed.
  Lemma fragment_name : Forall name_char (lit "fragment").
  Proof using. repeat (constructor; [left; vm_compute; split; intros ?; done|]). constructor. Qed.
  Lemma name_text (p : N -> Prop) x rest : (exists c w, x = c :: w /\ lower c /\ w <> [] /\ Forall name_char w /\ no_start name_char rest) ->
    Forall name_char x /\ no_start name_char rest.
  Proof using. intros (c & w & -> & Hc & _ & Hw & Hn). split; [|done]. constructor; [by left|done]. Qed.
  Lemma prefix_len (x y a b : str) : x ++ a = y ++ b -> (exists z, y = x ++ z) -> blen x <= blen y /\ (blen x = blen y -> x = y).
  Proof using.
    intros E (z & ->). rewrite blen_app. split; [lia|]. intros Hz. destruct z as [|c z]; [by rewrite app_nil_r|].
    simpl in Hz. pose proof (utf8_len_pos c). lia.
  Qed.
  Lemma hfires_best i j x rest y rest' : hfires i x rest -> cand j y rest' -> grp i = grp j -> i <> j -> x ++ rest = y ++ rest' ->
    blen y <= blen x /\ (blen y = blen x -> i <= j).
  Proof using.
    intros Hi Hj Hg Hne E.
    assert (Hcase : (i = 0 /\ (j = 1 \/ j = 19)) \/ (i = 1 /\ (j = 0 \/ j = 19)) \/ (i = 19 /\ (j = 0 \/ j = 1)) \/
      (i = 3 /\ (j = 5 \/ j = 20)) \/ (i = 5 /\ (j = 3 \/ j = 20)) \/ (i = 20 /\ (j = 3 \/ j = 5)) \/ (i = 12 /\ j = 18) \/ (i = 18 /\ j = 12)).
    { clear -Hg Hne. unfold grp in Hg.
      destruct i as [|[|[|[|[|[|[|[|[|[|[|[|[|[|[|[|[|[|[|[|[|i]]]]]]]]]]]]]]]]]]]]];
        destruct j as [|[|[|[|[|[|[|[|[|[|[|[|[|[|[|[|[|[|[|[|[|j]]]]]]]]]]]]]]]]]]]]]; lia. }
    destruct Hcase as [[-> [-> | ->]]|[[-> [-> | ->]]|[[-> [-> | ->]]|[[-> [-> | ->]]|[[-> [-> | ->]]|[[-> [-> | ->]]|[[-> ->]|[-> ->]]]]]]]].
    - destruct Hi as (l & -> & _). destruct Hj as (u & -> & _). discriminate E.
    - destruct Hi as (l & -> & _). destruct Hj as (us & -> & Hn & Hus & _).
      destruct (unit_start us Hus Hn) as (c & w & Ec & Hc). unfold regular_text in E. rewrite Ec in E. injection E as <- _. done.
    - destruct Hi as (l & -> & _). destruct Hj as (u & -> & _). discriminate E.
    - destruct Hi as (u & -> & Hu). destruct Hj as (us & -> & Hn & Hus & _). split; [|lia].
      eapply regular_within; [done|]. by symmetry.
    - destruct Hi as [(us & -> & Hn & Hus) _]. destruct Hj as (l & -> & _).
      destruct (unit_start us Hus Hn) as (c & w & Ec & Hc). rewrite Ec in E. injection E as -> _. done.
    - destruct Hi as [_ [_ Hi]]. destruct Hj as (u & -> & _). exfalso. apply (Hi u rest'). rewrite E. by rewrite <- !(assoc_L (++)).
    - destruct Hi as [Hx Hi]. apply (name_text lower) in Hj as [Hy Hn]. simpl in Hx, Hi.
      destruct (span_prefix name_char _ _ _ _ E) as (b & ->); [by rewrite Hx; apply fragment_name|done|].
      rewrite <- (assoc_L (++)) in E. apply app_inv_head in E. destruct b as [|d b]; [rewrite app_nil_r; lia|]. exfalso.
      apply Forall_app in Hy as [_ [Hd _]%Forall_cons]. eapply Hi; [exact E|done].
    - destruct Hi as [Hx _]. simpl in Hx. subst x. destruct Hj as [-> | ->]; discriminate E.
    - destruct Hi as [[Hx (c & w & Ex & Hc & Hw & Hws)] Hi]. simpl in Hj, Hi. subst y.
      destruct (span_prefix name_char (lit "fragment") x rest' rest) as (b & Eb); [by symmetry|apply fragment_name|done|].
      destruct (prefix_len (lit "fragment") x rest' rest) as [H1 H2]; [by symmetry|by exists b|]. split; [done|].
      intros H. exfalso. apply Hx. symmetry. by apply H2.
    - destruct Hi as [[Hx (c & w & Ex & Hc & Hw & Hws)] Hi]. simpl in Hi. split; [|lia]. destruct Hj as [-> | ->].
      + subst x. injection E as -> _. unfold lower in Hc. lia.
      + destruct (span_prefix name_char (lit "epsilon") x rest' rest) as (b & Eb); [by symmetry|apply epsilon_name|done|].
        apply (prefix_len (lit "epsilon") x rest' rest); [by symmetry|by exists b].
    - destruct Hi as [Hx _]. simpl in Hx, Hj. subst x y. discriminate E.
    - destruct Hi as [Hx _]. simpl in Hx. subst x. destruct Hj as (c & w & -> & Hc & _). injection E as <- _. unfold lower in Hc. lia.
    - destruct Hi as [Hx Hi]. simpl in Hx, Hi, Hj. subst x y. injection E as E. exfalso. by eapply Hi.
    - destruct Hi as [Hx Hi]. simpl in Hx, Hi, Hj. subst x y. split; [|]; vm_compute; lia.
  Qed.
  Lemma hfires_wins i x rest : hfires i x rest -> wins hand_matchers (x ++ rest) i (blen x).
  Proof using Hnd.
    intros Hf. destruct (hfires_cand i x rest Hf) as [Hc He].
    assert (Hi : i < 21).
    { destruct (decide (i < 21)) as [|Hn]; [done|]. exfalso.
      do 21 (destruct i as [|i]; [lia|]). by destruct Hc. }
    destruct (lookup_lt_is_Some_2 hand_res i) as [r Hr]; [done|].
    pose proof (cand_find i r x rest Hr Hc He) as Hfind. destruct (cand_start i x rest Hc) as (c & w & Ex & Hst).
    split_and!.
    - rewrite Ex. simpl. pose proof (utf8_len_pos c). lia.
    - exists (find_at0 nd r). split; [|done]. by rewrite list_lookup_fmap, Hr.
    - intros j m e (r' & Hj & ->)%hand_lookup Hm.
      destruct (decide (i = j)) as [<-|Hne].
      { rewrite Hr in Hj. injection Hj as <-. rewrite Hfind in Hm. injection Hm as <-. lia. }
      destruct (find_cand j r' (x ++ rest) e Hj Hm) as (y & rest' & E & -> & Hcj).
      destruct (cand_start j y rest' Hcj) as (c' & w' & Ey & Hst').
      assert (c' = c) as -> by (rewrite Ex, Ey in E; by injection E).
      eapply hfires_best; [done|done| |done|done]. by eapply cstarts_grp.
  Qed.
  Lemma wins_hfires s i len : wins hand_matchers s i len ->
    i < 21 /\ exists x rest, s = x ++ rest /\ len = blen x /\ hfires i x rest.
  Proof using Hnd.
    intros (Hl & (m & Hm & Hs) & Hmax). split; [by apply lookup_lt_Some in Hm|].
    destruct (hand_lookup i m Hm) as (r & Hr & ->).
    destruct (find_cand i r s len Hr Hs) as (x & rest & -> & -> & Hc). exists x, rest. split_and!; [done..|].
    assert (Hname : forall a, Forall name_char a -> (exists c w, a = c :: w /\ lower c /\ w <> []) -> forall s, x ++ rest = a ++ s ->
      exists b s', x ++ rest = (a ++ b) ++ s' /\ no_start name_char s' /\ Forall name_char b /\ blen (a ++ b) <= blen x /\ (blen (a ++ b) = blen x -> i <= 5)).
    { intros a Ha (c & w & -> & Hc' & Hw) s E.
      destruct (span_prop name_char _ (x ++ rest) (in_name nd)) as (w2 & r2 & E2 & Hw2 & Hn2).
      destruct (span_prefix name_char (c :: w) w2 s r2) as (b & ->); [by rewrite <- E|done|done|].
      exists b, r2. apply Forall_app in Hw2 as Hw3. destruct Hw3 as [_ Hb]. split_and!; [done..| |];
        (eapply (Hmax 5 (find_at0 nd (r_name 97 122))); [reflexivity|]; rewrite E2;
         apply (name_fwd nd 97 122 c (w ++ b) r2); [done|by destruct w|by apply Forall_inv_tail in Hw2|done]). }
    destruct i as [|[|[|[|[|[|[|[|[|[|[|[|[|[|[|[|[|[|[|[|[|i]]]]]]]]]]]]]]]]]]]]]; simpl in Hc |- *; try done.
    - split; [done|]. subst x. intros c t -> Hcn.
      destruct (Hname (lit "fragment") fragment_name) with (s := c :: t) as (b & s' & E & Hn & Hb & H1 & H2).
      + eexists _, _. split; [reflexivity|]. split; [vm_compute; split; discriminate|done].
      + done.
      + rewrite blen_app in H1. destruct b as [|d b]; [|simpl in H1; pose proof (utf8_len_pos d); lia].
        rewrite app_nil_r in E. apply app_inv_head in E. subst s'. by eapply Hn.
    - destruct Hc as (c & w & -> & Hc & Hw & Hw2 & Hn). split; [by exists c, w|done].
    - destruct Hc as (c & w & -> & Hc & Hw & Hw2 & Hn). split; [|done]. split; [|by exists c, w]. intros E.
      destruct (Hmax 3 (find_at0 nd frag_re) (blen (c :: w))) as [_ H]; [reflexivity| |].
      + rewrite E. by apply (lit_fwd (lit "fragment")).
      + specialize (H eq_refl). lia.
    - split; [done|]. subst x. intros t ->.
      destruct (Hmax 18 (find_at0 nd (two 46 46)) 2) as [H _]; [reflexivity| |vm_compute in H; lia].
      by apply (lit_fwd [46; 46]%N t).
    - destruct Hc as (us & Ex & Hne & Hus & Ha). split; [by exists us|]. split; [exact Ha|]. intros u v E.
      destruct (block_some _ _ _ E) as (e & He).
      destruct (Hmax 1 (find_at0 nd r_block) e eq_refl He) as [H1 H2].
      destruct (block_bwd _ _ He) as (u' & t & E2 & -> & _).
      pose proof (regular_within us u' rest t Hus) as H3. rewrite <- Ex in H3. specialize (H3 E2).
      assert (19 <= 1); [|lia]. apply H2. lia.
    - destruct Hc as [->| ->]; [done|]. exfalso.
      destruct (Hname (lit "epsilon") epsilon_name) with (s := rest) as (b & s' & E & Hn & Hb & H1 & H2).
      + eexists _, _. split; [reflexivity|]. split; [vm_compute; split; discriminate|done].
      + done.
      + rewrite blen_app in H1, H2. assert (20 <= 5); [|lia]. apply H2. lia.
  Qed.

  (** *** From reading to tokens and back *)
  Lemma skipped_fires x rest : skipped x -> exists i y s, i < 3 /\ x ++ rest = y ++ s /\ hfires i y s /\
    (x = y \/ exists c t, x = [c] /\ hblank c /\ y = c :: t /\ Forall hblank t).
  Proof using nd.
    intros [c Hc|l Hl|u Hu].
    - destruct (span_prop hblank _ ([c] ++ rest) in_hblank) as (w & r & E & Hw & Hn).
      exists 2, w, r. split; [lia|]. split; [done|]. destruct w as [|d w].
      { exfalso. simpl in E. eapply Hn; [by rewrite <- E|done]. }
      split; [by split_and!|]. right. injection E as <- E. exists c, w. split_and!; try done. by apply Forall_inv_tail in Hw.
    - exists 0. eexists _, rest. split; [lia|]. split; [done|]. split; [|by left]. by exists l.
    - exists 1. eexists _, rest. split; [lia|]. split; [done|]. split; [|by left]. by exists u.
  Qed.
  Lemma hfires_start i x rest : hfires i x rest -> exists c w, x = c :: w /\ cstarts i c.
  Proof using. intros [H _]%hfires_cand. by eapply cand_start. Qed.
  Lemma text_fires ty x rest : hand_text ty x -> hand_apart ty x rest -> 5 <= ty /\ hfires (ty - 2) x rest.
  Proof using.
    intros Ht Ha. destruct ty as [|[|[|[|[|ty]]]]]; try done. split; [lia|]. change (S (S (S (S (S ty)))) - 2) with (S (S (S ty))).
    unfold hfires. change (2 + S (S (S ty))) with (S (S (S (S (S ty))))). done.
  Qed.
  Lemma stuck_unreadable s : stuck hand_matchers s -> unreadable s.
  Proof using Hnd.
    intros H x rest ->. split.
    - intros Hs. destruct (skipped_fires x rest Hs) as (i & y & t & _ & E & Hf & _). rewrite E in H.
      eapply wins_stuck; [by apply hfires_wins|done].
    - intros ty Ht Ha. destruct (text_fires ty x rest Ht Ha) as [_ Hf]. eapply wins_stuck; [by apply hfires_wins|done].
  Qed.
  Lemma reads_blanks t s ts rest : Forall hblank t -> hand_reads (t ++ s) ts rest -> hand_reads s ts rest.
  Proof using.
    induction 1 as [|c t Hc Ht IH]; [done|]. intros H. apply IH. inversion H as [r Hu E1 E2 E3|x s' ts' r Hs Hr E1|ty x s' ts' r Hx Ha Hr E1]; subst.
    - exfalso. destruct (Hu [c] (t ++ s) eq_refl) as [Hn _]. by destruct Hn; constructor.
    - destruct Hs as [d Hd|l Hl|u Hu].
      + injection E1 as <- E1. by rewrite <- E1.
      + exfalso. injection E1 as <- _. clear -Hc. unfold hblank in Hc. rewrite !elem_of_cons, elem_of_nil in Hc. lia.
      + exfalso. injection E1 as <- _. clear -Hc. unfold hblank in Hc. rewrite !elem_of_cons, elem_of_nil in Hc. lia.
    - exfalso. destruct (text_fires ty x s' Hx Ha) as [Hty Hf]. destruct (hfires_start _ _ _ Hf) as (d & w & -> & Hd).
      injection E1 as -> _. pose proof (cstarts_grp (ty - 2) 2 c Hd Hc) as Hg.
      destruct ty as [|[|[|[|[|ty]]]]]; try lia. simpl in Hg. clear -Hg. do 20 (destruct ty as [|ty]; [simpl in Hg; lia|]). simpl in Hg. lia.
  Qed.
  Lemma reads_step s ts rest : hand_reads s ts rest ->
    (unreadable s /\ ts = [] /\ rest = s) \/
    exists i x s1, s = x ++ s1 /\ hfires i x s1 /\
      ((i < 3 /\ hand_reads s1 ts rest) \/ (3 <= i /\ exists ts', ts = (i + 2, x) :: ts' /\ hand_reads s1 ts' rest)).
  Proof using nd.
    intros [r Hu|x s' ts' r Hs Hr|ty x s' ts' r Hx Ha Hr].
    - by left.
    - right. destruct (skipped_fires x s' Hs) as (i & y & t & Hi & E & Hf & [->|(c & t' & -> & Hc & -> & Ht)]).
      + apply app_inv_head in E. subst t. exists i, y, s'. split_and!; [done..|]. by left.
      + injection E as ->. exists i, (c :: t'), t. split_and!; [done..|]. left. split; [done|]. by eapply reads_blanks.
    - right. destruct (text_fires ty x s' Hx Ha) as [Hty Hf]. exists (ty - 2), x, s'. split_and!; [done..|]. right.
      split; [lia|]. replace (ty - 2 + 2) with ty by lia. eauto.
  Qed.
  Lemma fires_readable i x rest : hfires i x rest -> ~ unreadable (x ++ rest).
  Proof using.
    intros Hf Hu. destruct i as [|[|[|i]]].
    - destruct Hf as (l & -> & Hl). destruct (Hu _ rest eq_refl) as [Hn _]. by destruct Hn; constructor.
    - destruct Hf as (l & -> & Hl). destruct (Hu _ rest eq_refl) as [Hn _]. by destruct Hn; constructor.
    - destruct Hf as (Hne & Hb & _). destruct Hb as [|c w Hc _]; [done|].
      destruct (Hu [c] (w ++ rest) eq_refl) as [Hn _]. by destruct Hn; constructor.
    - destruct Hf as [H1 H2]. destruct (Hu x rest eq_refl) as [_ Hn]. by eapply Hn.
  Qed.
  Definition shown0 (ts : list token) : list token := filter (fun t => token_type t ∉ [2; 3; 4]) ts.
  Lemma not_skipped0 (ty : nat) : ty ∉ [2; 3; 4] <-> ty <> 2 /\ ty <> 3 /\ ty <> 4.
  Proof using. rewrite !not_elem_of_cons. pose proof (not_elem_of_nil ty). tauto. Qed.
  Lemma reads_bwd c ts rest : regex_list c = hand_matchers -> munched c ts rest -> stuck hand_matchers rest ->
    hand_reads (texts ts ++ rest) (map tt (shown0 ts)) rest.
  Proof using Hnd.
    intros Hc Hm Hst. induction ts as [|t ts IH]; [by apply reads_end, stuck_unreadable|].
    simpl in Hm. destruct Hm as [(i & Hty & _ & Hwin) Hm]. rewrite Hc in Hwin.
    destruct (wins_hfires _ _ _ Hwin) as (Hi & x & rest' & E & Hlen & Hf).
    rewrite texts_cons, <- (assoc_L (++)) in E |- *. destruct (app_blen_inj _ _ _ _ E Hlen) as [Ex <-].
    specialize (IH Hm). unfold shown0. rewrite filter_cons. rewrite Ex.
    destruct i as [|[|[|i]]].
    - rewrite decide_False by (rewrite Hty, not_skipped0; lia). destruct Hf as (l & -> & Hl). apply reads_skip; [by constructor|done].
    - rewrite decide_False by (rewrite Hty, not_skipped0; lia). destruct Hf as (l & -> & Hl). apply reads_skip; [by constructor|done].
    - rewrite decide_False by (rewrite Hty, not_skipped0; lia). destruct Hf as (_ & Hb & _). clear -Hb IH.
      induction Hb as [|d w Hd Hb IHb]; [done|]. apply (reads_skip [d]); [by constructor|done].
    - rewrite decide_True by (rewrite Hty, not_skipped0; lia). cbn [map]. unfold tt at 1. rewrite Hty, Ex.
      destruct Hf as [Ha Hp]. rewrite (Nat.add_comm _ 2). by apply reads_token.
  Qed.
  Lemma reads_fwd c ts rest wts rest' : regex_list c = hand_matchers -> munched c ts rest -> stuck hand_matchers rest ->
    hand_reads (texts ts ++ rest) wts rest' -> wts = map tt (shown0 ts) /\ rest' = rest.
  Proof using Hnd.
    intros Hc Hm Hst. revert wts. induction ts as [|t ts IH]; intros wts Hr.
    - change (texts [] ++ rest) with rest in Hr. destruct (reads_step _ _ _ Hr) as [(_ & -> & ->)|(i & x & s1 & -> & Hf & _)]; [done|].
      exfalso. eapply wins_stuck; [by apply hfires_wins|done].
    - simpl in Hm. destruct Hm as [(i & Hty & _ & Hwin) Hm]. rewrite Hc in Hwin.
      destruct (reads_step _ _ _ Hr) as [(Hu & _)|(j & x & s1 & E & Hf & Hcase)].
      { exfalso. destruct (wins_hfires _ _ _ Hwin) as (Hi & x & r & E & Hlen & Hf). rewrite E in Hu. by eapply fires_readable. }
      rewrite E in Hwin. pose proof (hfires_wins _ _ _ Hf) as Hwin'.
      destruct (wins_unique _ _ _ _ _ _ Hwin Hwin') as [-> Hlen].
      rewrite texts_cons, <- (assoc_L (++)) in E. destruct (app_blen_inj _ _ _ _ E Hlen) as [Hx Hs1]. subst s1.
      unfold shown0. rewrite filter_cons. destruct Hcase as [[Hj Hr1]|(Hj & ts' & -> & Hr1)].
      + rewrite decide_False by (rewrite Hty, not_skipped0; lia). by apply IH.
      + rewrite decide_True by (rewrite Hty, not_skipped0; lia). destruct (IH Hm _ Hr1) as [-> ->]. split; [|done].
        cbn [map]. f_equal. unfold tt. by rewrite Hty, Hx.
  Qed.
End hand.

Lemma c68 nd s fuel : digits_ok nd -> length s + 1 <= fuel ->
  exists c, hand_lexer nd s = Ret c /\
  forall ts rest, hand_reads s ts rest <->
    exists toks, scan_all0 c 0 fuel lexer_init = Ret (toks, Some rest) /\
      map (fun t => (token_type t, text t)) toks = ts.
Proof.
  intros Hnd Hf. eexists. split; [apply hand_new|]. intros ts rest.
  set (c := LexerCfg s (map (find_at0 nd) hand_res) hand_names). pose proof (hand_ok nd s) as Hok. fold c in Hok.
  destruct (c10_scan_all0 c 0 fuel Hok Hf) as (toks & r & st & Hs & Hin & Hst & E). rewrite E. simpl.
  destruct (scanned0_spec _ _ _ _ _ _ _ Hok (lex_inv_init c) Hs) as (r' & Ein & _ & Hm & _ & _).
  change (input c) with s in *. rewrite Hin in Ein. apply app_inv_head in Ein. subst r'. split.
  - intros Hr. rewrite Hin in Hr. destruct (reads_fwd nd Hnd c toks r ts rest eq_refl Hm Hst Hr) as [-> ->].
    eexists. split; [reflexivity|]. done.
  - intros (toks' & [= <- <-] & <-). rewrite Hin. by apply (reads_bwd nd Hnd c).
Qed.

(** Everything is read from every text, or something is left that cannot be read. *)
Lemma c68_total s : exists ts rest, hand_reads s ts rest.
Proof.
  destruct (c68 ascii_digit s (length s + 1) ascii_digit_ok (le_n _)) as (c & Hc & H).
  rewrite hand_new in Hc. injection Hc as <-.
  destruct (c10_scan_all0 _ 0 (length s + 1) (hand_ok ascii_digit s) (le_n _)) as (toks & r & st & _ & _ & _ & E).
  eexists _, r. apply H. eexists. split; [exact E|reflexivity].
Qed.
Lemma c68_unique s ts rest ts' rest' : hand_reads s ts rest -> hand_reads s ts' rest' -> ts = ts' /\ rest = rest'.
Proof.
  destruct (c68 ascii_digit s (length s + 1) ascii_digit_ok (le_n _)) as (c & Hc & H). intros (t & E & <-)%H (t' & E' & <-)%H.
  clear H. rewrite E in E'. injection E' as <- <-. split; reflexivity.
Qed.

Lemma c68_one s : exists ts rest, hand_reads s ts rest /\ forall ts' rest', hand_reads s ts' rest' -> ts' = ts /\ rest' = rest.
Proof.
  destruct (c68_total s) as (ts & rest & H). exists ts, rest. split; [exact H|]. intros ts' rest' H'. by eapply c68_unique.
Qed.

(** A comment that runs to the end of the text is not skipped. *)
Lemma c68_last_comment l : 10%N ∉ l -> hand_reads (lit "//" ++ l) [] (lit "//" ++ l).
Proof.
  intros Hl. constructor. intros x rest E. change (47%N :: 47%N :: l = x ++ rest) in E. split.
  - intros Hs. destruct Hs as [c Hc|l' Hl'|u Hu].
    + injection E as <- _. clear -Hc. rewrite !elem_of_cons, elem_of_nil in Hc. lia.
    + change (47%N :: 47%N :: l = 47%N :: 47%N :: (l' ++ [10%N]) ++ rest) in E. injection E as E. apply Hl. rewrite E, !elem_of_app. left. right. by left.
    + discriminate E.
  - intros ty Ht Ha. destruct (text_fires ty x rest Ht Ha) as [Hty Hf].
    destruct (hfires_start _ _ _ Hf) as (c & w & -> & Hc). injection E as <- E. clear Hf.
    assert (Hg : grp (ty - 2) = grp 0) by (eapply cstarts_grp; [exact Hc|reflexivity]).
    assert (ty = 21) as ->.
    { clear -Hg Hty. destruct ty as [|[|[|[|[|ty]]]]]; try lia. simpl in Hg. do 20 (destruct ty as [|ty]; [simpl in Hg; lia|]). simpl in Hg. lia. }
    destruct Ht as (us & Ew & Hne & Hus). injection Ew as ->. destruct (unit_start us Hus Hne) as (d & v & Ed & Hd).
    rewrite Ed in E. injection E as <- _. done.
Qed.

(** *** Concrete cases *)
Definition ex_hand_text : str :=
  lit "// head" ++ [10%N] ++ lit "fragment Ab : 'x'..'y' /* a / b */ | /\/\*/ ~epsilon" ++ [10%N] ++ lit "// no newline".
Definition ex_hand_tokens : list (nat * str) :=
  [(5, lit "fragment"); (6, lit "Ab"); (8, lit ":"); (19, lit "'x'"); (20, lit ".."); (19, lit "'y'"); (9, lit "|");
   (21, lit "/\/\*/"); (15, lit "~"); (7, lit "epsilon")].
Lemma ex_hand : hand_reads ex_hand_text ex_hand_tokens (lit "// no newline").
Proof.
  destruct (c68 ascii_digit ex_hand_text 200 ascii_digit_ok) as (c & Hc & H).
  { apply Nat.leb_le. vm_compute. reflexivity. }
  rewrite hand_new in Hc. injection Hc as <-. apply H.
  exists (match scan_all0 (LexerCfg ex_hand_text (map (find_at0 ascii_digit) hand_res) hand_names) 0 200 lexer_init with Ret (t, _) => t | _ => [] end).
  split; vm_compute; reflexivity.
Qed.
Lemma ex_last : 10%N ∉ lit " x : /y/ ;" /\ hand_reads (lit "// x : /y/ ;") [] (lit "// x : /y/ ;").
Proof.
  assert (H : 10%N ∉ lit " x : /y/ ;") by (vm_compute; set_solver). split; [exact H|].
  exact (c68_last_comment (lit " x : /y/ ;") H).
Qed.
