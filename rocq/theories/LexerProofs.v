(** LexerProofs.v -- the scanners. *)
From Verif Require Export SpecLexer.

(** ** Bytes *)
Lemma utf8_len_pos c : 1 <= utf8_len c.
Proof. unfold utf8_len. repeat case_match; lia. Qed.
Lemma blen_app s1 s2 : blen (s1 ++ s2) = blen s1 + blen s2.
Proof. induction s1 as [|c s IH]; simpl; [done|]. lia. Qed.
Lemma blen_length s : length s <= blen s.
Proof. induction s as [|c s IH]; simpl; [lia|]. pose proof (utf8_len_pos c). lia. Qed.
Lemma blen_nil s : blen s = 0 -> s = [].
Proof. intros H. pose proof (blen_length s). destruct s; simpl in *; [done|lia]. Qed.
Lemma drop_bytes_0 s : drop_bytes 0 s = Some s.
Proof. by destruct s. Qed.
Lemma take_bytes_0 s : take_bytes 0 s = Some [].
Proof. by destruct s. Qed.
Lemma drop_bytes_app a b : drop_bytes (blen a) (a ++ b) = Some b.
Proof.
  induction a as [|c a IH]; simpl; [apply drop_bytes_0|].
  pose proof (utf8_len_pos c). destruct (utf8_len c + blen a) as [|k] eqn:E; [lia|].
  destruct (S k <? utf8_len c) eqn:El; [apply Nat.ltb_lt in El; lia|].
  replace (S k - utf8_len c) with (blen a) by lia. done.
Qed.
Lemma take_bytes_app a b : take_bytes (blen a) (a ++ b) = Some a.
Proof.
  induction a as [|c a IH]; simpl; [apply take_bytes_0|].
  pose proof (utf8_len_pos c). destruct (utf8_len c + blen a) as [|k] eqn:E; [lia|].
  destruct (S k <? utf8_len c) eqn:El; [apply Nat.ltb_lt in El; lia|].
  replace (S k - utf8_len c) with (blen a) by lia. by rewrite IH.
Qed.
Lemma slice_bytes_app a b c : slice_bytes (blen a) (blen (a ++ b)) (a ++ b ++ c) = Some b.
Proof.
  unfold slice_bytes. rewrite blen_app.
  destruct (blen a + blen b <? blen a) eqn:El; [apply Nat.ltb_lt in El; lia|].
  rewrite drop_bytes_app. replace (blen a + blen b - blen a) with (blen b) by lia. apply take_bytes_app.
Qed.
Lemma drop_bytes_inv n s r : drop_bytes n s = Some r -> exists p, s = p ++ r /\ blen p = n.
Proof.
  revert n r. induction s as [|c s IH]; intros n r H; destruct n as [|n]; simpl in H; try done.
  - injection H as <-. by exists [].
  - injection H as <-. by exists [].
  - destruct (S n <? utf8_len c) eqn:El; [done|]. apply Nat.ltb_ge in El.
    apply IH in H as (p & -> & Hp). exists (c :: p). simpl. split; [done|]. lia.
Qed.
Lemma take_bytes_inv n s r : take_bytes n s = Some r -> exists q, s = r ++ q /\ blen r = n.
Proof.
  revert n r. induction s as [|c s IH]; intros n r H; destruct n as [|n]; simpl in H; try done.
  - injection H as <-. by exists [].
  - injection H as <-. by exists (c :: s).
  - destruct (S n <? utf8_len c) eqn:El; [done|]. apply Nat.ltb_ge in El.
    apply fmap_Some in H as (r' & H & ->). apply IH in H as (q & -> & Hp). exists q. simpl. split; [done|]. lia.
Qed.
Lemma app_blen_inj (a1 a2 b1 b2 : str) : a1 ++ b1 = a2 ++ b2 -> blen a1 = blen a2 -> a1 = a2 /\ b1 = b2.
Proof.
  revert a2. induction a1 as [|c a1 IH]; intros [|d a2] H Hl; simpl in *.
  - done.
  - pose proof (utf8_len_pos d). lia.
  - pose proof (utf8_len_pos c). lia.
  - injection H as -> H. destruct (IH a2 H) as [-> ->]; [lia|done].
Qed.

(** ** Lines *)
Lemma newlines_app a b : newlines (a ++ b) = newlines a + newlines b.
Proof. unfold newlines. by rewrite filter_app, app_length. Qed.
Lemma newlines_cons c s : newlines (c :: s) = (if (c =? 10)%N then 1 else 0) + newlines s.
Proof.
  unfold newlines. destruct (c =? 10)%N eqn:E.
  - apply N.eqb_eq in E as ->. rewrite filter_cons_True by done. done.
  - apply N.eqb_neq in E. rewrite filter_cons_False by done. done.
Qed.
Lemma split_lines_length s : length (split_lines s) = S (newlines s).
Proof.
  induction s as [|c s IH]; [done|]. rewrite newlines_cons. simpl. destruct (c =? 10)%N; simpl; [lia|].
  destruct (split_lines s) as [|l ls]; simpl in *; lia.
Qed.
(** The last line of a text. *)
Lemma split_lines_last s : exists a b, s = a ++ b /\ newlines b = 0 /\
  (a = [] \/ exists a', a = a' ++ [10%N]) /\ last (split_lines s) = Some b.
Proof.
  induction s as [|c s (a & b & -> & Hb & Ha & Hl)]; simpl.
  - exists [], []. split_and!; auto.
  - destruct (c =? 10)%N eqn:E.
    + apply N.eqb_eq in E as ->. exists (10%N :: a), b. split_and!; [done|done| |].
      * right. destruct Ha as [->|(a' & ->)]; [by exists []|by exists (10%N :: a')].
      * rewrite last_cons, Hl. done.
    + destruct Ha as [->|(a' & ->)].
      * exists [], (c :: b). simpl in *. split_and!; [done| |by left|].
        -- rewrite newlines_cons, E, Hb. done.
        -- pose proof (split_lines_length b) as Hlen. rewrite Hb in Hlen.
           destruct (split_lines b) as [|l [|? ?]]; simpl in *; try lia. by injection Hl as ->.
      * exists (c :: a' ++ [10%N]), b. split_and!; [done|done|by right; exists (c :: a')|].
        pose proof (split_lines_length ((a' ++ [10%N]) ++ b)) as Hlen.
        rewrite newlines_app, newlines_app in Hlen. change (newlines [10%N]) with 1 in Hlen.
        destruct (split_lines ((a' ++ [10%N]) ++ b)) as [|l [|l' ls]]; simpl in *; [lia|lia|done].
Qed.

Lemma position_after_advance pre txt p :
  position_after pre p -> position_after (pre ++ txt) (advance p txt (blen txt)).
Proof.
  intros (Hl & a & b & -> & Hb & Ha & Hc). unfold advance. rewrite split_lines_length.
  destruct (S (newlines txt) <=? 1) eqn:E.
  - apply Nat.leb_le in E. split; simpl.
    + rewrite Hl, !newlines_app. lia.
    + exists a, (b ++ txt). split_and!; [by rewrite (assoc_L (++))|rewrite newlines_app; lia|done|].
      rewrite blen_app. lia.
  - apply Nat.leb_gt in E. split; simpl.
    + rewrite Hl, !newlines_app. lia.
    + destruct (split_lines_last txt) as (a2 & b2 & -> & Hb2 & Ha2 & Hlast). rewrite Hlast. simpl.
      exists ((a ++ b) ++ a2), b2. split_and!; [by rewrite (assoc_L (++))|done| |done].
      right. destruct Ha2 as [->|(a' & ->)].
      * rewrite newlines_app in E. change (newlines []) with 0 in E. lia.
      * exists ((a ++ b) ++ a'). by rewrite !(assoc_L (++)).
Qed.

(** position_after determines the position. *)
Lemma position_after_unique pre p q : position_after pre p -> position_after pre q -> p = q.
Proof.
  intros (Hl1 & a1 & b1 & -> & Hb1 & Ha1 & Hc1) (Hl2 & a2 & b2 & E & Hb2 & Ha2 & Hc2).
  destruct p as [l1 c1], q as [l2 c2]; simpl in *. f_equal; [congruence|]. subst c1 c2. clear l1 l2 Hl1 Hl2.
  f_equal. revert E. clear -Hb1 Ha1 Hb2 Ha2. intros E.
  assert (Hkey : forall (a1 a2 b1 b2 : str), a1 ++ b1 = a2 ++ b2 -> newlines b1 = 0 -> newlines b2 = 0 ->
    (a1 = [] \/ exists a', a1 = a' ++ [10%N]) -> length a1 <= length a2 -> (a2 = [] \/ exists a', a2 = a' ++ [10%N]) -> b1 = b2).
  { clear. intros a1 a2 b1 b2 E H1 H2 Ha1 Hle Ha2.
    assert (exists k, a2 = a1 ++ k /\ b1 = k ++ b2) as (k & -> & ->).
    { clear Ha1 Ha2. revert a2 E Hle. induction a1 as [|x a1 IH]; intros a2 E Hle; simpl in *; [by exists a2|].
      destruct a2 as [|y a2]; simpl in *; [lia|]. injection E as -> E. apply IH in E as (k & -> & ->); [|lia]. by exists k. }
    rewrite newlines_app in H1. destruct Ha2 as [Ha2|(a' & Ha2)].
    - apply app_nil in Ha2 as [_ ->]. done.
    - destruct k as [|x k _] using rev_ind; [done|]. rewrite (assoc_L (++)) in Ha2. apply app_inj_tail in Ha2 as [_ ->].
      rewrite newlines_app in H1. change (newlines [10%N]) with 1 in H1. lia. }
  destruct (le_ge_dec (length a1) (length a2)).
  - by eapply Hkey.
  - symmetry. by eapply Hkey.
Qed.

(** ** Selection *)
Lemma select_go_spec rest rs1 rs2 best :
  (snd best = 0 /\ fst best = 0 /\ stuck rs1 rest \/
   exists i, snd best = i + 2 /\ wins rs1 rest i (fst best)) ->
  let b := select_go rs2 (length rs1) rest best in
  (snd b = 0 /\ fst b = 0 /\ stuck (rs1 ++ rs2) rest \/
   exists i, snd b = i + 2 /\ wins (rs1 ++ rs2) rest i (fst b)).
Proof.
  revert rs1 best. induction rs2 as [|r rs2 IH]; intros rs1 best Hb; simpl.
  - by rewrite app_nil_r.
  - specialize (IH (rs1 ++ [r])). rewrite app_length in IH. simpl in IH.
    rewrite Nat.add_1_r, <- (assoc_L (++)) in IH. simpl in IH. apply IH. clear IH.
    destruct (r rest) as [e|] eqn:Er.
    + destruct (fst best <? e) eqn:El.
      * apply Nat.ltb_lt in El. right. exists (length rs1). split; [done|]. simpl. split; [lia|]. split.
        { exists r. split; [|done]. apply list_lookup_middle. done. }
        intros j r' e' Hj He'. apply lookup_app_Some in Hj as [Hj|[Hj1 Hj2]].
        -- pose proof (lookup_lt_Some _ _ _ Hj).
           destruct Hb as [(_ & H0 & Hs)|(i & _ & Hw)].
           ++ apply elem_of_list_lookup_2 in Hj. pose proof (Hs _ _ Hj He'). lia.
           ++ destruct Hw as (_ & _ & Hw). destruct (Hw _ _ _ Hj He'). lia.
        -- destruct (j - length rs1) as [|k] eqn:Ek; simpl in Hj2; [|by destruct k]. injection Hj2 as <-.
           assert (e' = e) as -> by congruence. lia.
      * apply Nat.ltb_ge in El. destruct Hb as [(H1 & H0 & Hs)|(i & Hi & Hw)].
        -- left. split_and!; [done|done|]. intros r' e' [Hr|Hr]%elem_of_app He'; [by eapply Hs|].
           apply elem_of_list_singleton in Hr as ->. assert (e' = e) by congruence. lia.
        -- right. exists i. split; [done|]. destruct Hw as (Hw1 & (r0 & Hr0 & He0) & Hw3). split_and!.
           ++ done.
           ++ exists r0. split; [|done]. by apply lookup_app_l_Some.
           ++ intros j r' e' Hj He'. apply lookup_app_Some in Hj as [Hj|[Hj1 Hj2]]; [by eapply Hw3|].
              destruct (j - length rs1) as [|k] eqn:Ek; simpl in Hj2; [|by destruct k]. injection Hj2 as <-.
              assert (e' = e) as -> by congruence. pose proof (lookup_lt_Some _ _ _ Hr0). lia.
    + destruct Hb as [(H1 & H0 & Hs)|(i & Hi & Hw)].
      * left. split_and!; [done|done|]. intros r' e' [Hr|Hr]%elem_of_app He'; [by eapply Hs|].
        apply elem_of_list_singleton in Hr as ->. congruence.
      * right. exists i. split; [done|]. destruct Hw as (Hw1 & (r0 & Hr0 & He0) & Hw3). split_and!.
        -- done.
        -- exists r0. split; [|done]. by apply lookup_app_l_Some.
        -- intros j r' e' Hj He'. apply lookup_app_Some in Hj as [Hj|[Hj1 Hj2]]; [by eapply Hw3|].
           destruct (j - length rs1) as [|k] eqn:Ek; simpl in Hj2; [|by destruct k]. injection Hj2 as <-. congruence.
Qed.
Lemma select_spec rs rest :
  (snd (select rs rest) = 0 /\ stuck rs rest) \/
  (exists i, snd (select rs rest) = i + 2 /\ wins rs rest i (fst (select rs rest))).
Proof.
  destruct (select_go_spec rest [] rs (0, 0)) as [(H1 & _ & H2)|H].
  - left. split_and!; [done|done|]. intros r e Hr. by apply elem_of_nil in Hr.
  - by left.
  - by right.
Qed.
Lemma wins_stuck rs rest i len : wins rs rest i len -> stuck rs rest -> False.
Proof.
  intros (Hp & (r & Hr & He) & _) Hs. apply elem_of_list_lookup_2 in Hr. pose proof (Hs _ _ Hr He). lia.
Qed.
Lemma wins_unique rs rest i len i' len' : wins rs rest i len -> wins rs rest i' len' -> i = i' /\ len = len'.
Proof.
  intros (Hp & (r & Hr & He) & Hm) (Hp' & (r' & Hr' & He') & Hm').
  destruct (Hm _ _ _ Hr' He') as [H1 H2]. destruct (Hm' _ _ _ Hr He) as [H3 H4].
  assert (len = len') as -> by lia. specialize (H2 eq_refl). specialize (H4 eq_refl). lia.
Qed.

(** ** The state invariant and one scan *)
Definition lex_inv (c : lexer_cfg) (pre rest : str) (n : nat) (st : lexer_st) : Prop :=
  input c = pre ++ rest /\ cursor st = blen pre /\ l_token_index st = n /\ position_after pre (l_position st).

Lemma lex_inv_init c : lex_inv c [] (input c) 0 lexer_init.
Proof.
  split_and!; [done..|]. split; [done|]. exists [], []. split_and!; auto.
Qed.

Lemma scan_body_spec c pre rest n st :
  lexer_ok c -> lex_inv c pre rest n st ->
  (scan_body c st = Ret (SErr, st) /\ stuck (regex_list c) rest) \/
  (exists t st' rest', scan_body c st = Ret (STok t, st') /\ rest = text t ++ rest' /\ text t <> [] /\
     token_at pre n t /\ munched c [t] rest' /\ lex_inv c (pre ++ text t) rest' (S n) st').
Proof.
  intros [Hok1 Hok2] (Hin & Hcur & Hn & Hpos). unfold scan_body.
  rewrite Hin, Hcur, drop_bytes_app. simpl.
  destruct (select_spec (regex_list c) rest) as [[H0 Hs]|(i & Hi & Hw)];
    destruct (select (regex_list c) rest) as [len ty] eqn:Esel; simpl in *.
  - left. subst ty. simpl. done.
  - right. subst ty. destruct (i + 2 <=? 0) eqn:E; [apply Nat.leb_le in E; lia|].
    destruct Hw as (Hw1 & (r & Hr & He) & Hw3).
    destruct (Hok1 r rest len) as (m & rest' & -> & Hm); [by eapply elem_of_list_lookup_2|done|].
    subst len. rewrite <- blen_app, slice_bytes_app. simpl.
    pose proof (lookup_lt_Some _ _ _ Hr) as Hlt.
    destruct (lookup_lt_is_Some_2 (token_names c) (i + 2)) as [nm Hnm]; [lia|]. rewrite Hnm. simpl.
    eexists _, _, rest'. split; [done|]. simpl. split_and!.
    + done.
    + intros ->. simpl in Hw1. lia.
    + unfold token_at; simpl. split_and!; try done. by apply position_after_advance.
    + exists i. split_and!; [done|done|]. simpl. unfold texts. simpl. rewrite app_nil_r.
      split_and!; [done|by exists r|done].
    + done.
    + unfold lex_inv; simpl. split_and!; [by rewrite <- (assoc_L (++))|by rewrite blen_app|lia|by apply position_after_advance].
Qed.

(** ** Sequences of scans *)
Lemma texts_cons t ts : texts (t :: ts) = text t ++ texts ts.
Proof. done. Qed.
Lemma texts_single t : texts [t] = text t.
Proof. unfold texts. simpl. apply app_nil_r. Qed.
Lemma texts_app ts1 ts2 : texts (ts1 ++ ts2) = texts ts1 ++ texts ts2.
Proof. unfold texts. by rewrite map_app, concat_app. Qed.
Lemma scanned_app sc st ts1 st1 ts2 st2 :
  scanned sc st ts1 st1 -> scanned sc st1 ts2 st2 -> scanned sc st (ts1 ++ ts2) st2.
Proof. induction 1; simpl; [done|]. intros. econstructor; eauto. Qed.

(** Hand-written lexer: any number of scans. *)
Lemma scanned0_spec c pre rest n st ts st' :
  lexer_ok c -> lex_inv c pre rest n st -> scanned (scan0 c) st ts st' ->
  exists rest', rest = texts ts ++ rest' /\ tokens_from pre n ts /\ munched c ts rest' /\
    lex_inv c (pre ++ texts ts) rest' (n + length ts) st' /\ Forall (fun t => text t <> []) ts.
Proof.
  intros Hok Hinv H. revert pre rest n Hinv. induction H as [st|st t st1 ts st2 Hs _ IH]; intros pre rest n Hinv.
  - exists rest. unfold texts; simpl. rewrite app_nil_r, Nat.add_0_r. split_and!; try done.
  - destruct (scan_body_spec _ _ _ _ _ Hok Hinv) as [[H _]|(t' & st' & rest' & H & -> & Hne & Hat & Hm & Hinv')];
      unfold scan0 in Hs; rewrite H in Hs; [done|]. injection Hs as -> ->.
    destruct (IH _ _ _ Hinv') as (rest'' & -> & Hf & Hmm & Hinv'' & Hall).
    exists rest''. rewrite texts_cons. split_and!.
    + by rewrite (assoc_L (++)).
    + done.
    + simpl. split; [|done]. destruct Hm as [(i & H1 & H2 & H3) _]. exists i. split_and!; [done|done|].
      rewrite texts_cons. unfold texts in H3. simpl in H3. rewrite app_nil_r in H3. by rewrite <- (assoc_L (++)).
    + rewrite (assoc_L (++)). simpl. by rewrite <- Nat.add_succ_comm.
    + by constructor.
Qed.

(** Generated lexers: one scan. *)
Lemma scan_spec c pre rest n st :
  lexer_ok c -> lex_inv c pre rest n st ->
  (rest <> [] /\ scan c st = Ret (SErr, st) /\ stuck (regex_list c) rest) \/
  (exists t st' rest', scan c st = Ret (STok t, st') /\ rest = text t ++ rest' /\ text t <> [] /\ token_type t <> 1 /\
     token_at pre n t /\ munched c [t] rest' /\ lex_inv c (pre ++ text t) rest' (S n) st') \/
  (rest = [] /\ exists st', scan c st = Ret (STok (stop_token st), st') /\ cursor st' = blen (input c) + 10).
Proof.
  intros Hok Hinv. pose proof Hinv as (Hin & Hcur & Hn & Hpos). unfold scan.
  rewrite Hin, Hcur, blen_app.
  destruct (blen pre + blen rest <? blen pre) eqn:E1; [apply Nat.ltb_lt in E1; lia|].
  destruct (blen pre + blen rest <=? blen pre) eqn:E2.
  - apply Nat.leb_le in E2. right. right. split; [apply blen_nil; lia|].
    eexists. split; [done|]. simpl. lia.
  - apply Nat.leb_gt in E2. assert (rest <> []) by (intros ->; simpl in *; lia).
    destruct (scan_body_spec _ _ _ _ _ Hok Hinv) as [[H1 H2]|(t & st' & rest' & H1 & H2 & H3 & H4 & H5 & H6)].
    + by left.
    + right. left. exists t, st', rest'. split_and!; try done.
      destruct H5 as [(i & Hi & _) _]. lia.
Qed.

Lemma scan_past_end c st : blen (input c) < cursor st -> scan c st = Ret (SErr, st).
Proof. intros H. unfold scan. apply Nat.ltb_lt in H. by rewrite H. Qed.

(** Generated lexers: any number of scans returns ordinary tokens, then possibly one _STOP. *)
Lemma scanned_spec c pre rest n st ts st' :
  lexer_ok c -> lex_inv c pre rest n st -> scanned (scan c) st ts st' ->
  exists ts0 rest', rest = texts ts0 ++ rest' /\ tokens_from pre n ts0 /\ munched c ts0 rest' /\
    Forall (fun t => text t <> [] /\ token_type t <> 1) ts0 /\
    ((ts = ts0 /\ lex_inv c (pre ++ texts ts0) rest' (n + length ts0) st') \/
     (rest' = [] /\ cursor st' = blen (input c) + 10 /\
      exists st1, lex_inv c (pre ++ texts ts0) [] (n + length ts0) st1 /\ ts = ts0 ++ [stop_token st1])).
Proof.
  intros Hok Hinv H. revert pre rest n Hinv. induction H as [st|st t st1 ts st2 Hs Hsc IH]; intros pre rest n Hinv.
  - exists [], rest. unfold texts; simpl. rewrite app_nil_r, Nat.add_0_r. split_and!; try done. by left.
  - destruct (scan_spec _ _ _ _ _ Hok Hinv)
      as [(_ & H & _)|[(t' & st' & rest' & H & -> & Hne & Hty & Hat & Hm & Hinv')|(-> & st' & H & Hc)]];
      rewrite H in Hs; [done|..]; injection Hs as <- <-.
    + destruct (IH _ _ _ Hinv') as (ts0 & rest'' & -> & Hf & Hmm & Hall & Hcase).
      exists (t' :: ts0), rest''. rewrite texts_cons. split_and!.
      * by rewrite (assoc_L (++)).
      * done.
      * simpl. split; [|done]. destruct Hm as [(i & H1 & H2 & H3) _]. exists i. split_and!; [done|done|].
        rewrite texts_cons. unfold texts in H3. simpl in H3. rewrite app_nil_r in H3. by rewrite <- (assoc_L (++)).
      * by constructor.
      * rewrite (assoc_L (++)). simpl. rewrite <- Nat.add_succ_comm.
        destruct Hcase as [[-> Hi]|(-> & Hc & st3 & Hi & ->)]; [by left|right]. split_and!; [done|done|]. by exists st3.
    + assert (ts = [] /\ st2 = st') as [-> ->].
      { inversion Hsc as [|? ? ? ? ? Hq]; subst; [done|]. rewrite scan_past_end in Hq by lia. done. }
      exists [], []. unfold texts; simpl. rewrite app_nil_r, Nat.add_0_r. split_and!; try done.
      right. split_and!; [done|done|]. by exists st.
Qed.

(** ** scan_all *)
(** The loop from a state in the invariant: [ts] are the ordinary tokens scanned. *)
Lemma scan_loop_spec c ws chan pre rest n st acc fuel :
  lexer_ok c -> ws <> 1 -> lex_inv c pre rest n st -> length rest + 2 <= fuel ->
  exists ts rest' st1, scanned (scan c) st ts st1 /\ rest = texts ts ++ rest' /\
    lex_inv c (pre ++ texts ts) rest' (n + length ts) st1 /\
    Forall (fun t => channel t = 0 /\ token_type t <> 1) ts /\
    ((rest' <> [] /\ stuck (regex_list c) rest' /\
      scan_loop (scan c) (fun ty => ty =? ws) chan fuel st acc =
        Ret (acc ++ (if chan =? 0 then filter (fun t => token_type t <> ws) ts else []), st1)) \/
     (rest' = [] /\ exists st2, cursor st2 = blen (input c) + 10 /\
      scan c st1 = Ret (STok (stop_token st1), st2) /\
      scan_loop (scan c) (fun ty => ty =? ws) chan fuel st acc =
        Ret (acc ++ (if chan =? 0 then filter (fun t => token_type t <> ws) ts ++ [stop_token st1] else []), st2))).
Proof.
  intros Hok Hws. revert pre rest n st acc. induction fuel as [|fuel IH]; intros pre rest n st acc Hinv Hf; [lia|].
  simpl. destruct (scan_spec _ _ _ _ _ Hok Hinv)
      as [(Hne & H & Hs)|[(t & st' & rest' & H & -> & Hne & Hty & Hat & Hm & Hinv')|(-> & st' & H & Hc)]]; rewrite H; simpl.
  - exists [], rest, st. unfold texts; simpl. rewrite app_nil_r, Nat.add_0_r. split_and!; try done; [constructor|].
    left. split_and!; [done|done|]. destruct (chan =? 0); by rewrite app_nil_r.
  - assert (Hch : channel t = 0) by apply Hat.
    assert (length rest' + 2 <= fuel).
    { rewrite app_length in Hf. destruct (text t); simpl in *; [done|lia]. }
    set (acc' := if token_type t =? ws then acc else if channel t =? chan then acc ++ [t] else acc).
    destruct (IH (pre ++ text t) rest' (S n) st' acc' Hinv') as (ts & r2 & st1 & Hsc & -> & Hi & Hall & Hcase); [done|].
    exists (t :: ts), r2, st1. rewrite texts_cons, !(assoc_L (++)). split_and!.
    + by econstructor.
    + done.
    + simpl. by rewrite <- Nat.add_succ_comm.
    + by constructor.
    + assert (Hacc : forall l, acc' ++ (if chan =? 0 then filter (fun t => token_type t <> ws) ts ++ l else []) =
        acc ++ (if chan =? 0 then filter (fun t => token_type t <> ws) (t :: ts) ++ l else [])).
      { intros l. unfold acc'. rewrite filter_cons. rewrite Hch. rewrite (Nat.eqb_sym 0 chan).
        destruct (token_type t =? ws) eqn:E.
        - apply Nat.eqb_eq in E. rewrite decide_False by (by intros ?). done.
        - apply Nat.eqb_neq in E. rewrite decide_True by done. destruct (chan =? 0); simpl; [by rewrite <- (assoc_L (++))|done]. }
      pose proof (Hacc []) as Hacc0. rewrite !app_nil_r in Hacc0.
      assert (Hrun : (if token_type t =? ws then scan_loop (scan c) (fun ty => ty =? ws) chan fuel st' acc
        else if channel t =? chan then scan_loop (scan c) (fun ty => ty =? ws) chan fuel st' (acc ++ [t])
        else scan_loop (scan c) (fun ty => ty =? ws) chan fuel st' acc) =
        scan_loop (scan c) (fun ty => ty =? ws) chan fuel st' acc').
      { unfold acc'. by destruct (token_type t =? ws), (channel t =? chan). }
      rewrite Hrun. destruct Hcase as [(Hne2 & Hst & Hl)|(-> & st2 & Hc2 & Hl0 & Hl)].
      * left. split_and!; [done|done|]. rewrite Hl. by rewrite Hacc0.
      * right. split; [done|]. exists st2. split_and!; [done|done|]. rewrite Hl. by rewrite Hacc.
  - exists [], [], st. unfold texts; simpl. rewrite app_nil_r, Nat.add_0_r. split_and!; try done; [constructor|].
    right. split; [done|]. exists st'. split_and!; [done|done|].
    destruct ws as [|[|ws]]; [|lia|];
    (destruct fuel as [|fuel]; [lia|]; destruct chan as [|chan]; simpl;
      rewrite scan_past_end by lia; simpl; by rewrite ?app_nil_r).
Qed.
