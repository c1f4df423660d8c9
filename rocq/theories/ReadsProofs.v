(** ReadsProofs.v -- C13: what the generated lexer makes of every text; C78: string literals as their author means them. *)
From Verif Require Export SpecReads LexerInstMain.

Section reads.
  Context (nd : N -> bool) (Hnd : digits_ok nd).
  Notation v1_matchers := (map (find_at0 nd) v1_res).

  Lemma token_fires ty x rest : admissible ty x -> apart ty x rest -> 2 <= ty /\ ty < 15 /\ fires (ty - 2) x rest.
  Proof using.
    clear Hnd nd. intros Ha Hp. pose proof (adm_range ty x Ha). split_and!; [lia|lia|]. unfold fires.
    destruct (Nat.eqb_spec (ty - 2) 13); [lia|]. replace (2 + (ty - 2)) with ty by lia. done.
  Qed.
  Lemma blank_or_not c : {blank c} + {~ blank c}.
  Proof using. unfold blank. destruct (decide (c ∈ [32; 13; 10; 9; 12]%N)) as [H|H]; rewrite !elem_of_cons, elem_of_nil in H; [left|right]; tauto. Qed.
  Lemma blanks_fire c s : blank c -> exists w r, s = w ++ r /\ Forall blank w /\ fires 13 (c :: w) r.
  Proof using.
    clear Hnd nd. intros Hc.
    assert (exists w r, s = w ++ r /\ Forall blank w /\ no_start blank r) as (w & r & -> & Hw & Hr).
    { induction s as [|d s IH]; [by exists [], []|]. destruct (blank_or_not d) as [Hd|Hd].
      - destruct IH as (w & r & -> & Hw & Hr). exists (d :: w), r. split; [done|]. split; [by constructor|done].
      - exists [], (d :: s). split; [done|]. split; [constructor|]. by intros ? ? [= <- _]. }
    exists w, r. split; [done|]. split; [done|]. split; [done|]. split; [by constructor|done].
  Qed.
  Lemma stuck_nothing s : stuck v1_matchers s -> nothing_read s.
  Proof using Hnd.
    intros H x rest ->. split.
    - intros c -> Hc. destruct (blanks_fire c rest Hc) as (w & r & -> & _ & Hf).
      eapply (wins_stuck _ ((c :: w) ++ r)); [apply (fires_wins nd Hnd 13); [lia|exact Hf]|exact H].
    - intros ty Ha Hp. destruct (token_fires _ _ _ Ha Hp) as (? & ? & Hf). eapply wins_stuck; [by apply (fires_wins nd Hnd (ty - 2)); [lia|]|done].
  Qed.
  Lemma fires_read i x rest : i < 14 -> fires i x rest -> ~ nothing_read (x ++ rest).
  Proof using.
    clear Hnd nd. intros Hi Hf Hn. unfold fires in Hf. destruct (Nat.eqb_spec i 13) as [->|Hne].
    - destruct Hf as (Hx & Hb & _). destruct Hb as [|c w Hc _]; [done|]. by destruct (Hn [c] (w ++ rest) eq_refl) as [H _]; destruct (H c eq_refl).
    - destruct Hf as [Ha Hp]. destruct (Hn x rest eq_refl) as [_ H]. by eapply H.
  Qed.
  Lemma reads_blanks b s ts rest : Forall blank b -> reads (b ++ s) ts rest -> reads s ts rest.
  Proof using.
    clear Hnd nd. induction 1 as [|c b Hc Hb IH]; [done|]. intros H. apply IH.
    inversion H as [r Hn E1 E2 E3|d s' ts' r Hd Hr E1|ty x s' ts' r Ha Hp Hr E1]; subst.
    - exfalso. destruct (Hn [c] (b ++ s) eq_refl) as [H' _]. by apply (H' c).
    - done.
    - exfalso. destruct (token_fires _ _ _ Ha Hp) as (H1 & H2 & Hf). destruct (fires_start _ _ _ Hf) as (d & w & -> & Hd).
      injection E1 as -> _. assert (ty - 2 = 13); [|lia]. by apply (starts_disjoint (ty - 2) 13 c).
  Qed.
  Lemma reads_step s ts rest : reads s ts rest ->
    (nothing_read s /\ ts = [] /\ rest = s) \/
    exists i x s1, s = x ++ s1 /\ i < 14 /\ fires i x s1 /\
      ((i = 13 /\ reads s1 ts rest) \/ (i <> 13 /\ exists ts', ts = (i + 2, x) :: ts' /\ reads s1 ts' rest)).
  Proof using.
    clear Hnd nd. intros [r Hn|c s' ts' r Hc Hr|ty x s' ts' r Ha Hp Hr].
    - by left.
    - right. destruct (blanks_fire c s' Hc) as (w & t & -> & Hw & Hf). exists 13, (c :: w), t. split_and!; [done|lia|done|].
      left. split; [done|]. by eapply reads_blanks.
    - right. destruct (token_fires _ _ _ Ha Hp) as (H1 & H2 & Hf). exists (ty - 2), x, s'. split_and!; [done|lia|done|]. right.
      split; [lia|]. replace (ty - 2 + 2) with ty by lia. eauto.
  Qed.
  Lemma read_blanks b s ts rest : Forall blank b -> reads s ts rest -> reads (b ++ s) ts rest.
  Proof using. induction 1 as [|c b Hc Hb IH]; [done|]. intros H. apply read_blank; [done|by apply IH]. Qed.
  Lemma nothing_nil : nothing_read [].
  Proof using.
    clear Hnd nd. intros x rest E. symmetry in E. apply app_eq_nil in E as [-> ->]. split; [done|]. intros ty Ha Hp.
    destruct (token_fires _ _ _ Ha Hp) as (_ & _ & Hf). by destruct (fires_start _ _ _ Hf) as (? & ? & ? & _).
  Qed.
  Lemma reads_bwd c ts rest : regex_list c = v1_matchers -> munched c ts rest -> rest = [] \/ stuck v1_matchers rest ->
    reads (texts ts ++ rest) (map tt (kept ts)) rest.
  Proof using Hnd.
    intros Hc Hm Hst. induction ts as [|t ts IH].
    { apply read_end. destruct Hst as [->|Hst]; [apply nothing_nil|by apply stuck_nothing]. }
    simpl in Hm. destruct Hm as [(i & Hty & _ & Hwin) Hm]. rewrite Hc in Hwin.
    destruct (wins_fires nd Hnd _ _ _ Hwin) as (Hi & x & rest' & E & Hlen & Hf).
    rewrite texts_cons, <- (assoc_L (++)) in E |- *. destruct (app_blen_inj _ _ _ _ E Hlen) as [Ex <-].
    specialize (IH Hm). unfold kept. rewrite filter_cons. rewrite Ex. unfold fires in Hf. destruct (Nat.eqb_spec i 13) as [->|Hn].
    - rewrite decide_False by (rewrite Hty; lia). destruct Hf as (_ & Hb & _). by apply read_blanks.
    - rewrite decide_True by (rewrite Hty; lia). cbn [map]. unfold tt at 1. rewrite Hty, Ex.
      destruct Hf as [Ha Hp]. rewrite (Nat.add_comm _ 2). by apply read_token.
  Qed.
  Lemma reads_fwd c ts rest wts rest' : regex_list c = v1_matchers -> munched c ts rest -> rest = [] \/ stuck v1_matchers rest ->
    reads (texts ts ++ rest) wts rest' -> wts = map tt (kept ts) /\ rest' = rest.
  Proof using Hnd.
    intros Hc Hm Hst. revert wts. induction ts as [|t ts IH]; intros wts Hr.
    - change (texts [] ++ rest) with rest in Hr. destruct (reads_step _ _ _ Hr) as [(_ & -> & ->)|(i & x & s1 & -> & Hi & Hf & _)]; [done|].
      exfalso. destruct Hst as [E|Hst].
      + destruct (fires_start _ _ _ Hf) as (? & ? & -> & _). done.
      + eapply wins_stuck; [by apply (fires_wins nd Hnd)|done].
    - simpl in Hm. destruct Hm as [(i & Hty & _ & Hwin) Hm]. rewrite Hc in Hwin.
      destruct (reads_step _ _ _ Hr) as [(Hu & _)|(j & x & s1 & E & Hj & Hf & Hcase)].
      { exfalso. destruct (wins_fires nd Hnd _ _ _ Hwin) as (Hi & x & r & E & Hlen & Hf). rewrite E in Hu. by eapply fires_read. }
      rewrite E in Hwin. pose proof (fires_wins nd Hnd _ _ _ Hj Hf) as Hwin'.
      destruct (wins_unique _ _ _ _ _ _ Hwin Hwin') as [-> Hlen].
      rewrite texts_cons, <- (assoc_L (++)) in E. destruct (app_blen_inj _ _ _ _ E Hlen) as [Hx Hs1]. subst s1.
      unfold kept. rewrite filter_cons. destruct Hcase as [[-> Hr1]|(Hj13 & ts' & -> & Hr1)].
      + rewrite decide_False by (rewrite Hty; lia). by apply IH.
      + rewrite decide_True by (rewrite Hty; lia). destruct (IH Hm _ Hr1) as [-> ->]. split; [|done].
        cbn [map]. f_equal. unfold tt. by rewrite Hty, Hx.
  Qed.
End reads.

Lemma c13_reads nd s fuel : digits_ok nd -> length s + 2 <= fuel ->
  exists c, v1_lexer nd s = Ret c /\
  forall ts rest, reads s ts rest <-> exists toks, map (fun t => (token_type t, text t)) toks = ts /\
    ((rest = [] /\ exists stop, scan_all c 15 0 fuel lexer_init = Ret (toks ++ [stop], None) /\ is_stop stop) \/
     (rest <> [] /\ scan_all c 15 0 fuel lexer_init = Ret (toks, Some rest))).
Proof.
  intros Hnd Hf. eexists. split; [apply v1_new|]. intros ts rest.
  set (c := LexerCfg s (map (find_at0 nd) v1_res) v1_names). pose proof (v1_ok nd s) as Hok. fold c in Hok.
  destruct (scan_all_full c 15 0 fuel Hok) as (toks & r & st & Hs & Hin & Hcase); [done|done|].
  destruct (scanned_exact _ _ _ _ Hok Hs Hin) as (_ & _ & Hm & _). change (input c) with s in Hin.
  destruct Hcase as [(Hne & Hst & E)|(-> & stp & Hstop & _ & _ & _ & _ & E)]; rewrite E; simpl.
  - split.
    + intros Hr. rewrite Hin in Hr. destruct (reads_fwd nd Hnd c toks r ts rest eq_refl Hm (or_intror Hst) Hr) as [-> ->].
      eexists. split; [reflexivity|]. right. done.
    + intros (toks' & <- & [(_ & ? & [=] & _)|(_ & [= <- <-])]). rewrite Hin. apply (reads_bwd nd Hnd c); [done|done|by right].
  - split.
    + intros Hr. rewrite Hin in Hr. destruct (reads_fwd nd Hnd c toks [] ts rest eq_refl Hm (or_introl eq_refl) Hr) as [-> ->].
      eexists. split; [reflexivity|]. left. eauto.
    + intros (toks' & <- & [(-> & stop & [= Et] & _)|(_ & [=])]). apply app_inj_tail in Et as [<- _].
      rewrite Hin. apply (reads_bwd nd Hnd c); [done|done|by left].
Qed.

(** Every text has one reading. *)
Lemma c13_one s : exists ts rest, reads s ts rest /\ forall ts' rest', reads s ts' rest' -> ts' = ts /\ rest' = rest.
Proof.
  destruct (c13_reads ascii_digit s (length s + 2) ascii_digit_ok (le_n _)) as (c & Hc & H).
  destruct (scan_all_full c 15 0 (length s + 2)) as (toks & r & st & _ & _ & Hcase).
  { rewrite v1_new in Hc. injection Hc as <-. apply v1_ok. } { done. } { rewrite v1_new in Hc. by injection Hc as <-. }
  clear Hc. destruct Hcase as [(Hne & _ & E)|(-> & stp & Hstop & _ & _ & _ & _ & E)]; cbn [Nat.eqb] in E.
  - eexists _, r. split; [apply H; eexists; split; [reflexivity|]; right; split; [exact Hne|exact E]|].
    intros ts' rest' (toks' & <- & [(_ & ? & E' & _)|(_ & E')])%H; rewrite E in E'; [by injection E'|]. injection E' as <- <-. done.
  - eexists _, []. split; [apply H; eexists; split; [reflexivity|]; left; split; [reflexivity|]; exists stp; split; [exact E|exact Hstop]|].
    intros ts' rest' (toks' & <- & [(-> & stop & E' & _)|(_ & E')])%H; rewrite E in E'; [|by injection E']. injection E' as E'.
    apply app_inj_tail in E' as [<- _]. done.
Qed.

(** *** String literals *)
Lemma quote_units us us' t t' : Forall quote_unit us -> Forall quote_unit us' -> concat us ++ 39%N :: t = concat us' ++ 39%N :: t' -> us = us' /\ t = t'.
Proof.
  intros H. revert us'. induction H as [|u us Hu Hus IH]; intros us' H' E.
  - destruct H' as [|u' us' [(c & ->)|(c & -> & Hc)] _]; cbn in E; [by injection E|done|]. injection E as <- _.
    exfalso. apply Hc. apply elem_of_list_here.
  - destruct H' as [|u' us' Hu' Hus']; cbn in E.
    + destruct Hu as [(c & ->)|(c & -> & Hc)]; cbn in E; [done|]. injection E as -> _. exfalso. apply Hc. apply elem_of_list_here.
    + rewrite <- !app_assoc in E. destruct Hu as [(c & ->)|(c & -> & Hc)], Hu' as [(c' & ->)|(c' & -> & Hc')]; cbn in E.
      * injection E as <- E. destruct (IH us' Hus' E) as [-> ->]. done.
      * injection E as <- _. exfalso. apply Hc'. apply elem_of_list_further, elem_of_list_here.
      * injection E as -> _. exfalso. apply Hc. apply elem_of_list_further, elem_of_list_here.
      * injection E as <- E. destruct (IH us' Hus' E) as [-> ->]. done.
Qed.
Lemma single_units w : (forall c, c ∈ w -> c ∉ [39; 92]%N) -> exists us, w = concat us /\ Forall quote_unit us.
Proof.
  induction w as [|c w IH]; intros H; [by exists []|]. destruct IH as (us & -> & Hus); [intros d Hd; apply H; by apply elem_of_list_further|].
  exists ([c] :: us). split; [done|]. constructor; [|done]. right. exists c. split; [done|]. apply H, elem_of_list_here.
Qed.
Lemma string_quote v : string_unit v -> exists us, v = concat us /\ Forall quote_unit us.
Proof.
  intros [c Hc|c Hc|pre h Hpre Hh Hhex].
  - exists [[c]]. split; [done|]. constructor; [|constructor]. right. exists c. split; [done|]. intros Hin. apply Hc.
    rewrite !elem_of_cons, elem_of_nil in Hin. destruct Hin as [->|[->|[]]]; apply elem_of_list_In; cbn; tauto.
  - exists [[92%N; c]]. split; [done|]. constructor; [|constructor]. left. by exists c.
  - destruct (single_units (lit "{" ++ pre ++ h ++ lit "}")) as (us & E & Hus).
    + intros c Hin. rewrite !elem_of_app in Hin. rewrite !elem_of_cons, elem_of_nil.
      destruct Hin as [Hin|[Hin|[Hin|Hin]]].
      * cbn in Hin. apply elem_of_list_singleton in Hin as ->. intros [?|[?|[]]]; discriminate.
      * assert (Forall (fun d => d <> 39 /\ d <> 92)%N pre) as Hp.
        { repeat (apply elem_of_cons in Hpre as [->|Hpre]; [cbn; repeat constructor; discriminate|]). by apply elem_of_nil in Hpre. }
        rewrite Forall_forall in Hp. destruct (Hp c Hin). tauto.
      * rewrite Forall_forall in Hhex. intros [-> |[-> |[]]]; destruct (Hhex _ Hin); lia.
      * cbn in Hin. apply elem_of_list_singleton in Hin as ->. intros [?|[?|[]]]; discriminate.
    + exists ([92; 117]%N :: us). cbn [concat]. rewrite <- E. split; [done|]. constructor; [left; by exists 117%N|done].
Qed.
Lemma strings_quotes vs : Forall string_unit vs -> exists us, concat vs = concat us /\ Forall quote_unit us.
Proof.
  induction 1 as [|v vs Hv Hvs IH]; [by exists []|]. destruct IH as (us & E & Hus). destruct (string_quote v Hv) as (us' & -> & Hus').
  exists (us' ++ us). rewrite concat_app. cbn [concat]. rewrite E. split; [done|]. by apply Forall_app.
Qed.
Lemma quoted_literal x s y r : quoted x -> known_literal y -> x ++ s = y ++ r -> x = y /\ s = r.
Proof.
  intros (us & -> & Hus) (vs & -> & Hvs) E. destruct (strings_quotes vs Hvs) as (us' & E' & Hus'). rewrite E' in E |- *.
  cbn [app] in E. injection E as E. rewrite <- !app_assoc in E. destruct (quote_units us us' s r Hus Hus' E) as [-> ->]. done.
Qed.
Lemma quoted_reads x s : quoted x ->
  (known_literal x -> forall ts rest, reads s ts rest -> reads (x ++ s) ((13, x) :: ts) rest) /\
  (~ known_literal x -> reads (x ++ s) [] (x ++ s)).
Proof.
  intros Hx. split; [intros Hk ts rest Hr; by apply read_token|]. intros Hn. apply read_end. intros y r E.
  assert (exists w, x ++ s = 39%N :: w) as (w & Ew) by (destruct Hx as (us & -> & _); eexists; reflexivity). split.
  - intros c -> Hb. rewrite Ew in E. injection E as <- _. unfold blank in Hb. lia.
  - intros ty Ha Hp. destruct (token_fires _ _ _ Ha Hp) as (H1 & H2 & Hf). destruct (fires_start _ _ _ Hf) as (c & w' & -> & Hc).
    pose proof E as E0. rewrite Ew in E. injection E as <- _. assert (ty - 2 = 11) by (by apply (starts_disjoint (ty - 2) 11 39)).
    assert (ty = 13) as -> by lia. apply Hn. destruct (quoted_literal x s _ r Hx Ha E0) as [-> _]. exact Ha.
Qed.
(** What the scan finds at [x], when it either reads [x] as a token or stops there. *)
Lemma first_token ty x s (P : Prop) (R : res (list token * option str)) :
  (forall ts rest, reads (x ++ s) ts rest <-> exists toks, map (fun t => (token_type t, text t)) toks = ts /\
    ((rest = [] /\ exists stop, R = Ret (toks ++ [stop], None) /\ is_stop stop) \/ (rest <> [] /\ R = Ret (toks, Some rest)))) ->
  ty <> 1 -> (exists c w, x = c :: w /\ ~ blank c) ->
  (P -> forall ts rest, reads s ts rest -> reads (x ++ s) ((ty, x) :: ts) rest) -> (~ P -> reads (x ++ s) [] (x ++ s)) -> (admissible ty x -> P) ->
  exists toks left, R = Ret (toks, left) /\
  ((exists t toks', toks = t :: toks' /\ token_type t = ty /\ text t = x) <-> P) /\ (~ P -> toks = [] /\ left = Some (x ++ s)).
Proof.
  intros H Hty (c0 & w0 & Ex & Hb0) Hy Hn Had. destruct (c13_one s) as (ts & rest & Hr & _).
  destruct (c13_one (x ++ s)) as (ts0 & rest0 & Hr0 & Hone).
  pose proof Hr0 as (toks & Ets & Hs)%H.
  assert (exists toks' left, R = Ret (toks', left) /\
            (toks' = toks /\ left = Some rest0 /\ rest0 <> [] \/ (exists stop, toks' = toks ++ [stop] /\ is_stop stop /\ rest0 = []))) as (toks' & left & Hsc & Hcase).
  { destruct Hs as [(E & stop & Hs & Hst)|(Hne & Hs)]; eexists _, _; (split; [exact Hs|]); [right; exists stop; by rewrite E|left; done]. }
  exists toks', left. split; [exact Hsc|]. clear Hs Hsc H.
  assert (~ P -> toks' = [] /\ left = Some (x ++ s)) as Hbad.
  { intros Hk. destruct (Hone _ _ (Hn Hk)) as [<- <-]. destruct toks; [|done].
    destruct Hcase as [(-> & -> & _)|(stop & _ & _ & E)]; [done|]. exfalso. by rewrite Ex in E. }
  split; [|done]. split.
  - intros (t & tl & -> & Ht & Htx). destruct toks as [|t0 toks].
    { exfalso. destruct Hcase as [(E & _)|(stop & [= -> ->] & Hst & _)]; [done|]. destruct Hst as (Hst & _). congruence. }
    assert (t0 = t) as -> by (destruct Hcase as [([= <- <-] & _)|(stop & [= <- _] & _)]; done).
    cbn in Ets. rewrite Ht, Htx in Ets. subst ts0. clear -Hr0 Had Ex Hb0.
    inversion Hr0 as [|c s' ts' r Hc Hr E1|ty' x' s' ts' r Ha Hp Hr E1]; subst.
    + exfalso. injection E1 as -> _. done.
    + by apply Had.
  - intros Hk. destruct (Hone _ _ (Hy Hk _ _ Hr)) as [<- <-]. destruct toks as [|t toks]; [done|]. cbn in Ets. injection Ets as Ht Htx _.
    destruct Hcase as [(-> & _)|(stop & -> & _)]; eexists _, _; (split; [reflexivity|]); done.
Qed.
Lemma c78_exact nd x s fuel : digits_ok nd -> length (x ++ s) + 2 <= fuel -> quoted x ->
  exists c toks left, v1_lexer nd (x ++ s) = Ret c /\ scan_all c 15 0 fuel lexer_init = Ret (toks, left) /\
  ((exists t toks', toks = t :: toks' /\ token_type t = 13 /\ text t = x) <-> known_literal x) /\
  (~ known_literal x -> toks = [] /\ left = Some (x ++ s)).
Proof.
  intros Hnd Hf Hx. destruct (c13_reads nd _ fuel Hnd Hf) as (c & Hc & H). exists c.
  destruct (quoted_reads x s Hx) as [Hy Hn].
  destruct (first_token 13 x s (known_literal x) _ H) as (toks & left & H').
  - done.
  - destruct Hx as (us & -> & _). eexists _, _. split; [reflexivity|]. unfold blank. lia.
  - exact Hy.
  - exact Hn.
  - exact (fun Ha => Ha).
  - exists toks, left. split; [exact Hc|exact H'].
Qed.
Lemma ex_bad_quoted : quoted (lit "'\('") /\ ~ known_literal (lit "'\('").
Proof.
  split.
  - exists [lit "\("]. split; [done|]. constructor; [left; by exists 40%N|constructor].
  - intros (us & E & Hus). destruct Hus as [|u us Hu _]; [done|]. cbn in E. destruct Hu as [c Hc|c Hc|pre h Hpre Hh Hhex].
    + injection E as <- _. apply Hc. apply elem_of_list_In. cbn. tauto.
    + injection E as <- _. apply elem_of_list_In in Hc. cbn in Hc. intuition discriminate.
    + discriminate E.
Qed.
Lemma c78_refuted : exists x, quoted x /\ forall nd s fuel c toks left, digits_ok nd -> length (x ++ s) + 2 <= fuel ->
  v1_lexer nd (x ++ s) = Ret c -> scan_all c 15 0 fuel lexer_init = Ret (toks, left) ->
  ~ exists t toks', toks = t :: toks' /\ token_type t = 13 /\ text t = x.
Proof.
  exists (lit "'\('"). destruct ex_bad_quoted as [Hq Hk]. split; [exact Hq|]. intros nd s fuel c toks left Hnd Hf Hc Hs H.
  destruct (c78_exact nd _ s fuel Hnd Hf Hq) as (c' & toks' & left' & Hc' & Hs' & Hiff & _).
  assert (c = c') as <- by congruence. assert (toks = toks') as <- by congruence. clear Hc Hc' Hs Hs'. apply Hk, Hiff, H.
Qed.
(** A text that is not one of the language: the one-letter name stops the scan. *)
Definition ex_reads_text : str := lit "ab : 'x' b ;".
Definition ex_reads_tokens : list (nat * str) := [(2, lit "ab"); (4, lit ":"); (13, lit "'x'")].
Lemma ex_reads : reads ex_reads_text ex_reads_tokens (lit "b ;").
Proof.
  destruct (c13_reads ascii_digit ex_reads_text 100 ascii_digit_ok) as (c & Hc & H).
  { apply Nat.leb_le. vm_compute. reflexivity. }
  rewrite v1_new in Hc. injection Hc as <-. apply H.
  exists (match scan_all (LexerCfg ex_reads_text (map (find_at0 ascii_digit) v1_res) v1_names) 15 0 100 lexer_init with Ret (t, _) => t | _ => [] end).
  split; [vm_compute; reflexivity|]. right. split; [done|]. vm_compute. reflexivity.
Qed.
Lemma ex_known : quoted (lit "'a\n\u{0x41}'") /\ known_literal (lit "'a\n\u{0x41}'").
Proof.
  assert (known_literal (lit "'a\n\u{0x41}'")) as H.
  { exists [lit "a"; lit "\n"; lit "\u{" ++ lit "0x" ++ lit "41" ++ lit "}"]. split; [done|].
    constructor; [apply su_plain; rewrite elem_of_list_In; cbn; intuition discriminate|].
    constructor; [apply su_escape; apply elem_of_list_In; cbn; tauto|].
    constructor; [|constructor]. apply su_code; [apply elem_of_list_In; cbn; tauto|done|].
    constructor; [right; vm_compute; split; discriminate|]. constructor; [right; vm_compute; split; discriminate|constructor]. }
  split; [|exact H]. destruct H as (vs & -> & Hvs). destruct (strings_quotes vs Hvs) as (us & -> & Hus). by exists us.
Qed.
