(** LexerInstMain.v -- C13, C14: what the lexers of the grammar language do to every text. *)
From Verif Require Export LexerInstProofs.

Section v1.
  Context (nd : N -> bool) (Hnd : digits_ok nd).

  (** Regex number [i] matches [x] in front of [rest]. *)
  Definition fires (i : nat) (x rest : str) : Prop :=
    if i =? 13 then x <> [] /\ Forall blank x /\ no_start blank rest
    else admissible (2 + i) x /\ apart (2 + i) x rest.
  Definition starts (i : nat) (c : N) : Prop :=
    match i with
    | 0 => lower c | 1 => upper c | 2 => c = 58%N \/ c = 45%N \/ c = 61%N | 3 => c = 59%N | 4 => c = 124%N
    | 5 => c = 949%N | 6 => c = 42%N | 7 => c = 43%N | 8 => c = 63%N | 9 => c = 40%N | 10 => c = 41%N
    | 11 => c = 39%N | 12 => c = 47%N | 13 => blank c | _ => False
    end.
  Lemma starts_disjoint i j c : starts i c -> starts j c -> i = j.
  Proof using.
    unfold starts, lower, upper, blank.
    do 14 (destruct i as [|i]; [do 14 (destruct j as [|j]; [lia|]); lia|]). done.
  Qed.
  Lemma fires_start i x rest : fires i x rest -> exists c w, x = c :: w /\ starts i c.
  Proof using.
    clear Hnd. unfold fires.
    destruct i as [|[|[|[|[|[|[|[|[|[|[|[|[|[|i]]]]]]]]]]]]]]; simpl; try (intros [-> _]; vm_compute; eauto; fail); [..|simpl; tauto].
    - intros [(c & w & -> & Hc & _) _]. eauto.
    - intros [(c & w & -> & Hc & _) _]. eauto.
    - intros [H _]. repeat (apply elem_of_cons in H as [->|H]; [eexists _, _; split; [reflexivity|]; tauto|]). by apply elem_of_nil in H.
    - intros [(us & -> & _) _]. eauto.
    - intros [(us & -> & _) _]. eauto.
    - intros (Hne & Hb & _). destruct Hb as [|c w Hc _]; [done|]. eauto.
  Qed.
  Lemma fires_find i r x rest : v1_res !! i = Some r -> fires i x rest -> find_at0 nd r (x ++ rest) = Some (blen x).
  Proof using Hnd.
    intros Hr. unfold fires. destruct i as [|[|[|[|[|[|[|[|[|[|[|[|[|[|i]]]]]]]]]]]]]]; try (injection Hr as <-); simpl; [..|done].
    - intros [(c & w & -> & Hc & Hw1 & Hw2) Ha]. by apply name_fwd.
    - intros [(c & w & -> & Hc & Hw1 & Hw2) Ha]. by apply name_fwd.
    - intros [Hx Ha]. by apply colon_fwd.
    - intros [-> _]. apply (ch_fwd nd 59).
    - intros [-> _]. apply (ch_fwd nd 124).
    - intros [-> _]. apply (epsilon_fwd nd).
    - intros [-> _]. apply (ch_fwd nd 42).
    - intros [-> _]. apply (ch_fwd nd 43).
    - intros [-> _]. apply (ch_fwd nd 63).
    - intros [-> _]. apply (ch_fwd nd 40).
    - intros [-> _]. apply (ch_fwd nd 41).
    - intros [(us & -> & Hus) _]. by apply string_fwd.
    - intros [(us & -> & Hne & Hus) Ha]. apply regular_fwd; [done|done|]. intros Hl. by eapply Ha.
    - intros (Hne & Hb & Hr). by apply blank_fwd.
  Qed.
  Lemma find_fires i r s e : v1_res !! i = Some r -> find_at0 nd r s = Some e ->
    exists x rest, s = x ++ rest /\ e = blen x /\ (fires i x rest \/ (i = 5 /\ x = lit "epsilon")).
  Proof using Hnd.
    intros Hr. unfold fires. destruct i as [|[|[|[|[|[|[|[|[|[|[|[|[|[|i]]]]]]]]]]]]]]; try (injection Hr as <-); [..|done].
    - intros (c & w & rest & -> & -> & Hc & Hw1 & Hw2 & Ha)%name_bwd. exists (c :: w), rest. split_and!; [done|done|]. left.
      split; [|exact Ha]. exists c, w. done.
    - intros (c & w & rest & -> & -> & Hc & Hw1 & Hw2 & Ha)%name_bwd. exists (c :: w), rest. split_and!; [done|done|]. left.
      split; [|exact Ha]. exists c, w. done.
    - intros (x & rest & -> & -> & Hx & Ha)%colon_bwd. exists x, rest. split_and!; [done|done|]. left. done.
    - intros (rest & -> & ->)%ch_bwd. eexists _, rest. split_and!; [done|done|]. left. done.
    - intros (rest & -> & ->)%ch_bwd. eexists _, rest. split_and!; [done|done|]. left. done.
    - intros (x & rest & -> & -> & [->| ->])%epsilon_bwd; (eexists _, rest; split_and!; [done|done|]); [left; done|right; done].
    - intros (rest & -> & ->)%ch_bwd. eexists _, rest. split_and!; [done|done|]. left. done.
    - intros (rest & -> & ->)%ch_bwd. eexists _, rest. split_and!; [done|done|]. left. done.
    - intros (rest & -> & ->)%ch_bwd. eexists _, rest. split_and!; [done|done|]. left. done.
    - intros (rest & -> & ->)%ch_bwd. eexists _, rest. split_and!; [done|done|]. left. done.
    - intros (rest & -> & ->)%ch_bwd. eexists _, rest. split_and!; [done|done|]. left. done.
    - intros (us & rest & -> & -> & Hus)%string_bwd; [|done]. eexists _, rest. split_and!; [done|done|]. left. split; [|done]. by exists us.
    - intros (us & rest & -> & -> & Hne & Hus & Ha)%regular_bwd. eexists _, rest. split_and!; [done|done|]. left.
      split; [by exists us|exact Ha].
    - intros (w & rest & -> & -> & Hne & Hw & Hn)%blank_bwd. exists w, rest. split_and!; [done|done|]. left. done.
  Qed.

  Notation v1_matchers := (map (find_at0 nd) v1_res).
  Lemma v1_lookup j (m : matcher) : v1_matchers !! j = Some m -> exists r, v1_res !! j = Some r /\ m = find_at0 nd r.
  Proof using. rewrite list_lookup_fmap. destruct (v1_res !! j); [|done]. intros [= <-]. eauto. Qed.
  Lemma epsilon_name : Forall name_char (lit "epsilon").
  Proof using. repeat (constructor; [left; vm_compute; split; intros ?; done|]). constructor. Qed.
  Lemma fires_wins i x rest : i < 14 -> fires i x rest -> wins v1_matchers (x ++ rest) i (blen x).
  Proof using Hnd.
    intros Hi Hf. destruct (lookup_lt_is_Some_2 v1_res i) as [r Hr]; [done|].
    pose proof (fires_find i r x rest Hr Hf) as Hfind. destruct (fires_start i x rest Hf) as (c & w & Ex & Hc).
    split_and!.
    - rewrite Ex. simpl. pose proof (utf8_len_pos c). lia.
    - exists (find_at0 nd r). split; [|done]. by rewrite list_lookup_fmap, Hr.
    - intros j m e (r' & Hj & ->)%v1_lookup He.
      destruct (find_fires j r' (x ++ rest) e Hj He) as (x' & rest' & E & -> & [Hf'|[-> ->]]).
      + destruct (fires_start j x' rest' Hf') as (c' & w' & Ex' & Hc').
        assert (c' = c) as -> by (rewrite Ex, Ex' in E; by injection E). pose proof (starts_disjoint _ _ _ Hc Hc') as <-.
        rewrite Hr in Hj. injection Hj as <-. rewrite Hfind in He. injection He as He. lia.
      + assert (c = 101%N) as -> by (rewrite Ex in E; by injection E).
        assert (i = 0) as -> by (apply (starts_disjoint i 0 101 Hc); unfold starts, lower; lia).
        destruct Hf as [_ Ha]. symmetry in E. destruct (span_prefix _ _ _ _ _ E epsilon_name Ha) as (b & ->).
        rewrite blen_app. lia.
  Qed.
  Lemma wins_fires s i len : wins v1_matchers s i len ->
    i < 14 /\ exists x rest, s = x ++ rest /\ len = blen x /\ fires i x rest.
  Proof using Hnd.
    intros (Hl & (m & Hm & Hs) & Hmax). split; [by apply lookup_lt_Some in Hm|].
    destruct (v1_lookup i m Hm) as (r & Hr & ->).
    destruct (find_fires i r s len Hr Hs) as (x & rest & -> & -> & [Hf|[-> ->]]); [eauto|]. exfalso.
    destruct (span_prop name_char _ (lit "epsilon" ++ rest) (in_name nd)) as (w & r2 & E & Hw & Hn).
    destruct (span_prefix _ _ _ _ _ E epsilon_name Hn) as (b & ->). rewrite E in Hmax.
    assert (Hf : find_at0 nd (r_name 97 122) ((lit "epsilon" ++ b) ++ r2) = Some (blen (lit "epsilon" ++ b))).
    { change (lit "epsilon" ++ b) with (101%N :: lit "psilon" ++ b) in Hw |- *. apply name_fwd; [lia|done| |done].
      by apply Forall_inv_tail in Hw. }
    destruct (Hmax 0 (find_at0 nd (r_name 97 122)) _ eq_refl Hf) as [H1 H2].
    rewrite blen_app in H1, H2. assert (5 <= 0); [apply H2|]; lia.
  Qed.

  (** *** From [written] to tokens and back *)
  Lemma written_blanks b ts s : Forall blank b -> written ts s -> written ts (b ++ s).
  Proof using.
    intros Hb [b' Hb'|b' ty x ts' rest Hb' Ha Hp Hw].
    - constructor. by apply Forall_app.
    - rewrite (assoc_L (++)). constructor; [by apply Forall_app|done..].
  Qed.
  Lemma adm_range ty x : admissible ty x -> 2 <= ty /\ ty < 15.
  Proof using. do 15 (destruct ty as [|ty]; [simpl; try done; lia|]). done. Qed.
  Lemma written_step ts s : written ts s -> s <> [] ->
    exists i x s1, s = x ++ s1 /\ i < 14 /\ wins v1_matchers s i (blen x) /\
      ((i = 13 /\ written ts s1) \/ (i <> 13 /\ exists ts', ts = (i + 2, x) :: ts' /\ written ts' s1)).
  Proof using Hnd.
    intros Hw Hne. destruct Hw as [b Hb|b ty x ts rest Hb Ha Hp Hw].
    - exists 13, b, []. rewrite app_nil_r. split_and!; [done|lia| |left; split; [done|by constructor]].
      pose proof (fires_wins 13 b []) as H. rewrite app_nil_r in H. apply H; [lia|]. split_and!; [done|done|]. by intros ? ? [=].
    - pose proof (adm_range ty x Ha) as Hty. destruct b as [|c b].
      + exists (ty - 2), x, rest. assert (E : ty - 2 + 2 = ty) by lia. rewrite E.
        split_and!; [done|lia| |right; split; [lia|by exists ts]]. apply (fires_wins (ty - 2) x rest); [lia|]. unfold fires.
        destruct (Nat.eqb_spec (ty - 2) 13); [lia|]. by rewrite Nat.add_comm, E.
      + exists 13, (c :: b), (x ++ rest). split_and!; [done|lia| |].
        * apply fires_wins; [lia|]. split_and!; [done|done|]. 
          assert (Hf : fires (ty - 2) x rest).
          { unfold fires. destruct (Nat.eqb_spec (ty - 2) 13); [lia|]. replace (2 + (ty - 2)) with ty by lia. done. }
          destruct (fires_start _ _ _ Hf) as (d & w & -> & Hd). intros d' r [= <- _] Hbl.
          assert (ty - 2 = 13); [|lia]. by apply (starts_disjoint (ty - 2) 13 d).
        * left. split; [done|]. by apply (written_cons [] ty x ts rest).
  Qed.

  Definition tt (t : token) : nat * str := (token_type t, text t).
  Definition kept (ts : list token) : list token := filter (fun t => token_type t <> 15) ts.
  Lemma written_fwd c ts rest wts s : regex_list c = v1_matchers ->
    munched c ts rest -> written wts s -> s = texts ts ++ rest -> (rest = [] \/ stuck v1_matchers rest) ->
    rest = [] /\ map tt (kept ts) = wts.
  Proof using Hnd.
    intros Hc. revert wts s. induction ts as [|t ts IH]; intros wts s Hm Hw Es Hr.
    - change (texts [] ++ rest) with rest in Es. subst s.
      destruct (decide (rest = [])) as [->|Hne].
      + split; [done|]. inversion Hw as [b Hb|b ty x ts' r' Hb Ha Hp Hw' E1 E2]; [done|]. exfalso.
        apply app_eq_nil in E2 as [_ [-> _]%app_eq_nil]. pose proof (adm_range ty [] Ha).
        destruct (fires_start (ty - 2) [] r') as (? & ? & ? & _); [|done]. unfold fires.
        destruct (Nat.eqb_spec (ty - 2) 13); [lia|]. replace (2 + (ty - 2)) with ty by lia. done.
      + destruct Hr as [Hr|Hr]; [done|]. exfalso.
        destruct (written_step _ _ Hw Hne) as (i & x & s1 & _ & _ & Hwin & _). by eapply wins_stuck.
    - simpl in Hm. destruct Hm as [(i & Hty & _ & Hwin) Hm]. rewrite Hc in Hwin.
      assert (Hne : s <> []).
      { destruct Hwin as (Hpos & _). rewrite Es, texts_cons. destruct (text t); [simpl in Hpos; lia|done]. }
      rewrite <- Es in Hwin.
      destruct (written_step _ _ Hw Hne) as (j & x & s1 & E & Hj & Hwin' & Hcase).
      destruct (wins_unique _ _ _ _ _ _ Hwin Hwin') as [-> Hlen].
      rewrite Es, texts_cons, <- (assoc_L (++)) in E. destruct (app_blen_inj _ _ _ _ E Hlen) as [Hx Hs1].
      unfold kept. rewrite filter_cons. destruct Hcase as [[-> Hw1]|(Hj13 & ts' & -> & Hw1)].
      + rewrite decide_False by (rewrite Hty; lia). by eapply IH.
      + rewrite decide_True by (rewrite Hty; lia). destruct (IH _ _ Hm Hw1 (eq_sym Hs1) Hr) as [-> E2]. split; [done|].
        cbn [map]. f_equal; [|exact E2]. unfold tt. by rewrite Hty, Hx.
  Qed.
  Lemma written_bwd c ts : regex_list c = v1_matchers -> munched c ts [] -> written (map tt (kept ts)) (texts ts).
  Proof using Hnd.
    intros Hc. induction ts as [|t ts IH]; intros Hm; [by apply (written_nil [])|].
    simpl in Hm. destruct Hm as [(i & Hty & _ & Hwin) Hm]. rewrite Hc, app_nil_r in Hwin.
    destruct (wins_fires _ _ _ Hwin) as (Hi & x & rest & E & Hlen & Hf).
    rewrite texts_cons in E |- *. destruct (app_blen_inj _ _ _ _ E Hlen) as [<- <-].
    specialize (IH Hm). unfold kept. rewrite filter_cons. unfold fires in Hf. destruct (Nat.eqb_spec i 13) as [->|Hn].
    - rewrite decide_False by (rewrite Hty; lia). destruct Hf as (_ & Hb & _). by apply written_blanks.
    - rewrite decide_True by (rewrite Hty; lia). cbn [map]. unfold tt at 1. rewrite Hty.
      destruct Hf as [Ha Hp]. rewrite (Nat.add_comm i 2). by apply (written_cons [] (2 + i) (text t)).
  Qed.

  Lemma v1_new s : v1_lexer nd s = Ret (LexerCfg s v1_matchers v1_names).
  Proof using. unfold v1_lexer, lexer_new. by rewrite (compile_all_ret nd _ _ v1_compiles). Qed.
  Lemma v1_ok s : lexer_ok (LexerCfg s v1_matchers v1_names).
  Proof using. by destruct (lexer_new_ok nd _ _ _ _ (v1_new s)). Qed.

  Lemma c13 s fuel : length s + 2 <= fuel ->
    exists c, v1_lexer nd s = Ret c /\
    (forall ts, written ts s <-> exists toks stop,
       scan_all c 15 0 fuel lexer_init = Ret (toks ++ [stop], None) /\ is_stop stop /\
       map (fun t => (token_type t, text t)) toks = ts) /\
    ((~ exists ts, written ts s) -> exists toks rest,
       scan_all c 15 0 fuel lexer_init = Ret (toks, Some rest) /\ rest <> []).
  Proof using Hnd.
    intros Hf. exists (LexerCfg s v1_matchers v1_names). split; [apply v1_new|].
    set (c := LexerCfg s v1_matchers v1_names). pose proof (v1_ok s) as Hok. fold c in Hok.
    destruct (scan_all_full c 15 0 fuel Hok) as (ts & rest & st & Hs & Hin & Hcase); [done|done|].
    destruct (scanned_exact _ _ _ _ Hok Hs Hin) as (_ & _ & Hm & _).
    destruct Hcase as [(Hne & Hst & E)|(-> & stp & Hstop & _ & _ & _ & _ & E)]; rewrite E; simpl.
    - split; [|intros _; by eexists _, _].
      intros wts. split; [|intros (? & ? & [=] & _)]. intros Hw. exfalso.
      destruct (written_fwd c ts rest wts s eq_refl Hm Hw Hin) as [? _]; [by right|done].
    - split.
      + intros wts. split.
        * intros Hw. destruct (written_fwd c ts [] wts s eq_refl Hm Hw Hin) as [_ Ets]; [by left|].
          exists (kept ts), stp. split_and!; [done|apply Hstop..|exact Ets].
        * intros (toks & stop & [= Et] & _ & <-). 
          apply app_inj_tail in Et as [<- _]. rewrite app_nil_r in Hin. simpl in Hin. rewrite Hin.
          by apply (written_bwd c).
      + intros Hno. exfalso. apply Hno. exists (map tt (kept ts)). rewrite app_nil_r in Hin. simpl in Hin. rewrite Hin.
        by apply (written_bwd c).
  Qed.
End v1.

(** *** C14 *)
Lemma munched_in c ts rest t : munched c ts rest -> t ∈ ts ->
  exists i r, token_type t = i + 2 /\ wins (regex_list c) (text t ++ r) i (blen (text t)).
Proof.
  induction ts as [|t' ts IH]; intros Hm Hin; [by apply elem_of_nil in Hin|]. simpl in Hm.
  destruct Hm as [(i & Hty & _ & Hw) Hm]. apply elem_of_cons in Hin as [->|Hin]; [|by apply IH].
  exists i, (texts ts ++ rest). split; [done|]. by rewrite texts_cons, <- (assoc_L (++)) in Hw.
Qed.
Lemma scanned_in c ts st t : lexer_ok c -> scanned (scan c) lexer_init ts st -> t ∈ ts -> token_type t <> 1 ->
  exists i r, token_type t = i + 2 /\ wins (regex_list c) (text t ++ r) i (blen (text t)).
Proof.
  intros Hok Hs Hin Hty.
  destruct (scanned_spec _ _ _ _ _ _ _ Hok (lex_inv_init c) Hs) as (ts0 & rest & _ & _ & Hm & _ & Hcase).
  eapply munched_in; [exact Hm|]. destruct Hcase as [[<- _]|(_ & _ & st1 & _ & ->)]; [done|].
  apply elem_of_app in Hin as [?|Hin%elem_of_list_singleton]; [done|]. subst t. by destruct Hty.
Qed.
Lemma c14_v1 nd s c ts st t : digits_ok nd -> v1_lexer nd s = Ret c -> scanned (scan c) lexer_init ts st -> t ∈ ts ->
  (token_type t = 7 -> text t = [949%N]) /\ (text t = lit "epsilon" -> token_type t = 2).
Proof.
  intros Hnd Hc Hs Hin. pose proof (v1_new nd s) as E. rewrite Hc in E. injection E as ->.
  destruct (decide (token_type t = 1)) as [H1|H1].
  { split; [rewrite H1; done|]. intros Ht. exfalso.
    destruct (scanned_spec _ _ _ _ _ _ _ (v1_ok nd s) (lex_inv_init _) Hs) as (ts0 & rest & _ & _ & Hm & Hall & Hcase).
    destruct Hcase as [[<- _]|(_ & _ & st1 & _ & ->)].
    - apply (proj1 (Forall_forall _ _) Hall) in Hin as [_ Hbad]. exact (Hbad H1).
    - apply elem_of_app in Hin as [Hin|Hin%elem_of_list_singleton].
      + apply (proj1 (Forall_forall _ _) Hall) in Hin as [_ Hbad]. exact (Hbad H1).
      + subst t. by vm_compute in Ht. }
  destruct (scanned_in _ _ _ _ (v1_ok nd s) Hs Hin H1) as (i & r & Hty & Hw).
  destruct (wins_fires nd Hnd _ _ _ Hw) as (Hi & x & rest & E & Hlen & Hf).
  destruct (app_blen_inj _ _ _ _ E Hlen) as [<- <-]. split.
  - intros H7. assert (i = 5) as -> by lia. by destruct Hf as [? _].
  - intros Ht. destruct (fires_start _ _ _ Hf) as (c & w & Ec & Hst). rewrite Ht in Ec. injection Ec as <- _.
    assert (i = 0) as -> by (apply (starts_disjoint i 0 101 Hst); unfold starts, lower; lia). done.
Qed.

(** The hand-written lexer. *)
Definition frag_re : re := lit_re (lit "fragment").
Definition hand_res_head : list re :=
  [ RCat (ch 47) (RCat (ch 47) (RCat (RMany false (RClass true [CRange 10 10])) (ch 10)));
    RCat (ch 47) (RCat (ch 42) (RCat (RMany false (RClass true [])) (two 42 47)));
    some_of [CRange 32 32; CRange 9 9; CRange 13 13; CRange 10 10];
    frag_re; r_name 65 90; r_name 97 122; r_colon; ch 124; ch 59; ch 42; ch 43; ch 63; ch 46; ch 126; ch 40; ch 41; ch 35 ].
Definition hand_string : re := RCat (ch 39) (RCat (RMany true (RAlt r_escape (RAlt (RClass false [CDigit]) (RClass true plain_items)))) (ch 39)).
Definition hand_res : list re := hand_res_head ++ [ hand_string; two 46 46; r_regular; r_epsilon ].
Lemma hand_compiles : map regex_of_text hand_regexes = map Some hand_res.
Proof. vm_compute. reflexivity. Qed.
Lemma hand_new nd s : hand_lexer nd s = Ret (LexerCfg s (map (find_at0 nd) hand_res) hand_names).
Proof. unfold hand_lexer, lexer_new. by rewrite (compile_all_ret nd _ _ hand_compiles). Qed.
Lemma hand_ok nd s : lexer_ok (LexerCfg s (map (find_at0 nd) hand_res) hand_names).
Proof. by destruct (lexer_new_ok nd _ _ _ _ (hand_new nd s)). Qed.
Lemma scanned0_in c ts st t : lexer_ok c -> scanned (scan0 c) lexer_init ts st -> t ∈ ts ->
  exists i r, token_type t = i + 2 /\ wins (regex_list c) (text t ++ r) i (blen (text t)).
Proof.
  intros Hok Hs Hin.
  destruct (scanned0_spec _ _ _ _ _ _ _ Hok (lex_inv_init c) Hs) as (rest & E & _ & Hm & _ & _).
  by eapply munched_in.
Qed.
Lemma c14_hand nd s c ts st t : hand_lexer nd s = Ret c -> scanned (scan0 c) lexer_init ts st -> t ∈ ts ->
  text t = lit "epsilon" -> token_type t = 7.
Proof.
  intros Hc Hs Hin Ht. pose proof (hand_new nd s) as E. rewrite Hc in E. injection E as ->.
  destruct (scanned0_in _ _ _ _ (hand_ok nd s) Hs Hin) as (i & r & Hty & Hw).
  rewrite Ht in Hw. destruct Hw as (_ & (m & Hm & Hmm) & Hmax).
  destruct (span_prop name_char _ (lit "epsilon" ++ r) (in_name nd)) as (w & r2 & E & Hw & Hn).
  destruct (span_prefix _ _ _ _ _ E epsilon_name Hn) as (b & ->).
  assert (Hf : find_at0 nd (r_name 97 122) (lit "epsilon" ++ r) = Some (blen (lit "epsilon" ++ b))).
  { rewrite E. change (lit "epsilon" ++ b) with (101%N :: lit "psilon" ++ b) in Hw |- *. apply name_fwd; [lia|done| |done].
    by apply Forall_inv_tail in Hw. }
  destruct (Hmax 5 (find_at0 nd (r_name 97 122)) _ eq_refl Hf) as [H1 H2]. rewrite blen_app in H1, H2.
  assert (Hi : i <= 5) by (apply H2; lia).
  assert (Hno : forall re, nullable re = false -> first_char nd re 101 = false -> find_at0 nd re (lit "epsilon" ++ r) = None).
  { intros re Hn1 Hn2. apply find_none. by apply first_fails. }
  destruct i as [|[|[|[|[|[|i]]]]]]; [..|lia]; [| | | | |lia]; injection Hm as <-;
    (rewrite Hno in Hmm; [done|done|reflexivity]).
Qed.

Lemma c13_all nd s fuel : digits_ok nd -> length s + 2 <= fuel ->
  exists c, v1_lexer nd s = Ret c /\
  (forall ts, written ts s <-> exists toks stop,
     scan_all c 15 0 fuel lexer_init = Ret (toks ++ [stop], None) /\ is_stop stop /\
     map (fun t => (token_type t, text t)) toks = ts) /\
  ((~ exists ts, written ts s) -> exists toks rest,
     scan_all c 15 0 fuel lexer_init = Ret (toks, Some rest) /\ rest <> []).
Proof. intros Hnd. exact (c13 nd Hnd s fuel). Qed.

(** *** Concrete cases *)
Definition ascii_digit (c : N) : bool := (48 <=? c)%N && (c <=? 57)%N.
Lemma ascii_digit_ok : digits_ok ascii_digit.
Proof. intros c _. unfold ascii_digit. rewrite andb_true_iff, !N.leb_le. done. Qed.
Definition ex_v1_text : str := lit "ab : Cd* | 'x\n' (" ++ [949%N] ++ lit ");Cd:/a\/b/;".
Definition ex_v1_tokens : list (nat * str) :=
  [(2, lit "ab"); (4, lit ":"); (3, lit "Cd"); (8, lit "*"); (6, lit "|"); (13, lit "'x\n'"); (11, lit "(");
   (7, [949%N]); (12, lit ")"); (5, lit ";"); (3, lit "Cd"); (4, lit ":"); (14, lit "/a\/b/"); (5, lit ";")].
Definition ex_v1_cfg : lexer_cfg := LexerCfg ex_v1_text (map (find_at0 ascii_digit) v1_res) v1_names.
Definition ex_v1_result : list token :=
  Eval vm_compute in match scan_all ex_v1_cfg 15 0 100 lexer_init with Ret (toks, _) => toks | _ => [] end.
Definition ex_v1_stop : token := Eval vm_compute in default (stop_token lexer_init) (last ex_v1_result).
Lemma ex_v1_scan : scan_all ex_v1_cfg 15 0 100 lexer_init = Ret (removelast ex_v1_result ++ [ex_v1_stop], None).
Proof. vm_compute. reflexivity. Qed.
Lemma ex_v1_types : map (fun t => (token_type t, text t)) (removelast ex_v1_result) = ex_v1_tokens.
Proof. vm_compute. reflexivity. Qed.
Lemma ex_v1_written : written ex_v1_tokens ex_v1_text.
Proof.
  destruct (c13_all ascii_digit ex_v1_text 100 ascii_digit_ok) as (c & Hc & Hw & _).
  { apply Nat.leb_le. vm_compute. reflexivity. }
  rewrite v1_new in Hc. injection Hc as <-. apply Hw. exists (removelast ex_v1_result), ex_v1_stop.
  split; [exact ex_v1_scan|]. split; [split; reflexivity|exact ex_v1_types].
Qed.
Lemma c14_refuted : exists nd s c toks stop t, digits_ok nd /\ v1_lexer nd s = Ret c /\
  scan_all c 15 0 (length s + 2) lexer_init = Ret (toks ++ [stop], None) /\
  t ∈ toks /\ text t = lit "epsilon" /\ token_type t <> 7.
Proof.
  exists ascii_digit, (lit "epsilon"). eexists. 
  exists [Token 2 (lit "RULE_REF") (Position 0 0) (Position 0 7) 0 (lit "epsilon") 0 0 7],
    (Token 1 (lit "_STOP") (Position 0 7) (Position 0 7) 0 (lit "_STOP") 1 17 17). eexists.
  split; [exact ascii_digit_ok|]. split; [apply v1_new|]. split; [vm_compute; reflexivity|].
  split; [by apply elem_of_list_singleton|]. split; [reflexivity|]. simpl. lia.
Qed.
