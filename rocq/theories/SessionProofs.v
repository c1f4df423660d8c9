(** SessionProofs.v -- proofs about sequences of calls on a lexer (C92). *)
From Verif Require Export SpecSession LexerMain.

Lemma scan_all_st_same c ws chan fuel st :
  scan_all c ws chan fuel st = (let! (toks, printed, _) := scan_all_st c ws chan fuel st in Ret (toks, printed)).
Proof.
  unfold scan_all, scan_all_st. destruct (scan_loop _ _ _ _ _ _) as [[toks st']| |]; [|done..]. cbn -[Nat.ltb].
  destruct (cursor st' <? blen (input c)); [|done]. by destruct (drop_bytes (cursor st') (input c)).
Qed.
Lemma scan_all0_st_same c chan fuel st :
  scan_all0 c chan fuel st = (let! (toks, printed, _) := scan_all0_st c chan fuel st in Ret (toks, printed)).
Proof.
  unfold scan_all0, scan_all0_st. destruct (scan_loop _ _ _ _ _ _) as [[toks st']| |]; [|done..]. cbn. by destruct (drop_bytes (cursor st') (input c)).
Qed.

Lemma loop_scanned sc skip chan ts : forall st st' fuel acc,
  scanned sc st ts st' -> sc st' = Ret (SErr, st') -> length ts < fuel ->
  scan_loop sc skip chan fuel st acc = Ret (acc ++ filter (fun t => channel t = chan /\ skip (token_type t) = false) ts, st').
Proof.
  induction ts as [|t ts IH]; intros st st' fuel acc Hs He Hf; inversion Hs; subst; (destruct fuel as [|fuel]; [cbn in Hf; lia|]); cbn [scan_loop].
  - rewrite He. cbn. by rewrite app_nil_r.
  - match goal with H : sc st = _ |- _ => rewrite H end. cbn in Hf. cbn [rbind filter list_filter].
    destruct (skip (token_type t)) eqn:Es; [rewrite decide_False by (intros [_ ?]; congruence); apply IH; [done..|lia]|].
    destruct (channel t =? chan) eqn:Ec.
    + apply Nat.eqb_eq in Ec. rewrite decide_True by done. erewrite IH; [|done..|lia]. by rewrite <- (assoc_L (++)).
    + apply Nat.eqb_neq in Ec. rewrite decide_False by tauto. apply IH; [done..|lia].
Qed.
Lemma loop_length sc skip chan ts : forall st st' fuel acc x,
  scanned sc st ts st' -> scan_loop sc skip chan fuel st acc = Ret x -> length ts < fuel.
Proof.
  induction ts as [|t ts IH]; intros st st' fuel acc x Hs He; (destruct fuel as [|fuel]; [done|]); inversion Hs; subst; cbn in *; [lia|].
  match goal with H : sc st = _ |- _ => rewrite H in He end. cbn in He.
  enough (length ts < fuel) by lia. destruct (skip _); [by eapply IH|]. destruct (channel t =? chan); by eapply IH.
Qed.

Lemma session_spec sc all skip left ts ks : forall st st',
  scanned sc st ts st' -> sc st' = Ret (SErr, st') ->
  (forall chan st ts', scanned sc st ts' st' -> length ts' <= length ts ->
    all chan st = Ret (filter (fun t => channel t = chan /\ skip (token_type t) = false) ts', left, st')) ->
  exists st2, session sc all ks st = Ret (handed_out skip left ts ks, st2).
Proof.
  revert ts. induction ks as [|[|chan] ks IH]; intros ts st st' Hs He Ha; cbn [session handed_out].
  - by exists st.
  - cbn [one_call]. inversion Hs; subst.
    + rewrite He. cbn. destruct (IH [] st' st' Hs He Ha) as [st2 ->]. by exists st2.
    + match goal with H : sc st = _ |- _ => rewrite H end. cbn. match goal with H : scanned sc _ ts0 st' |- _ => destruct (IH ts0 _ st' H He) as [st2 ->] end.
      { intros chan st3 ts' Hs' Hl. apply Ha; [done|]. cbn. lia. }
      by exists st2.
  - cbn [one_call]. rewrite (Ha chan st ts Hs (le_n _)). cbn. destruct (IH [] st' st' (scanned_nil _ _) He) as [st2 ->].
    { intros chan' st3 ts' Hs' Hl. apply Ha; [done|]. cbn in Hl. lia. }
    by exists st2.
Qed.

Lemma c92_session c ws fuel : lexer_ok c -> ws <> 1 -> length (input c) + 2 <= fuel ->
  exists ts left,
    ((left = None /\ exists ts0 s, ts = ts0 ++ [s] /\ is_stop s /\ input c = texts ts0 /\ munched c ts0 [] /\ tokens_from [] 0 ts0) \/
     (exists rest, left = Some rest /\ rest <> [] /\ stuck (regex_list c) rest /\ input c = texts ts ++ rest /\ munched c ts rest /\ tokens_from [] 0 ts)) /\
    (exists st, scanned (scan c) lexer_init ts st /\ scan c st = Ret (SErr, st)) /\
    forall ks, lexer_session c ws fuel ks = Ret (handed_out (fun ty => ty =? ws) left ts ks).
Proof.
  intros Hok Hws Hf.
  destruct (scan_loop_spec c ws 0 [] (input c) 0 lexer_init [] fuel Hok Hws (lex_inv_init c) Hf)
    as (ts & rest & st1 & Hs & Hin & Hinv & _ & Hcase). simpl in *.
  destruct (scanned_exact _ _ _ _ Hok Hs Hin) as (_ & Htf & Hm & _).
  destruct Hcase as [(Hne & Hst & Hloop)|(-> & st2 & Hc & Hsc & Hloop)].
  - assert (Herr : scan c st1 = Ret (SErr, st1)).
    { destruct (scan_spec c (texts ts) rest (length ts) st1 Hok Hinv) as [(_ & H & _)|[(t & st'' & r & H & -> & Hnn & _ & _ & Hm' & _)|(-> & _)]]; [done| |done].
      exfalso. destruct Hm' as [(i & _ & _ & Hw) _]. unfold texts in Hw; simpl in Hw. rewrite app_nil_r in Hw. by eapply wins_stuck. }
    exists ts, (Some rest). split; [right; by exists rest|]. split; [by exists st1|].
    intros ks. unfold lexer_session. destruct (session_spec (scan c) (fun chan => scan_all_st c ws chan fuel) (fun ty => ty =? ws) (Some rest) ts ks lexer_init st1 Hs Herr) as [st2 ->]; [|done].
    intros chan st ts' Hs' Hl. unfold scan_all_st. pose proof (loop_length _ _ _ _ _ _ _ _ _ Hs Hloop). rewrite (loop_scanned _ _ _ ts' _ st1) by (done || lia). cbn -[Nat.ltb].
    destruct Hinv as (Hi & Hcu & _). rewrite Hcu. rewrite Hi at 1. rewrite blen_app.
    assert (0 < blen rest). { destruct rest; [done|]. simpl. pose proof (utf8_len_pos n). lia. }
    destruct (blen (texts ts) <? blen (texts ts) + blen rest) eqn:E; [|apply Nat.ltb_ge in E; lia]. by rewrite Hi, drop_bytes_app.
  - assert (Hs2 : scanned (scan c) lexer_init (ts ++ [stop_token st1]) st2).
    { eapply scanned_app; [done|]. econstructor; [done|constructor]. }
    assert (Herr : scan c st2 = Ret (SErr, st2)) by (apply scan_past_end; lia).
    exists (ts ++ [stop_token st1]), None. split; [left; split; [done|]; exists ts, (stop_token st1); rewrite app_nil_r in Hin; by split_and!|]. split; [by exists st2|].
    intros ks. unfold lexer_session. destruct (session_spec (scan c) (fun chan => scan_all_st c ws chan fuel) (fun ty => ty =? ws) None (ts ++ [stop_token st1]) ks lexer_init st2 Hs2 Herr) as [st3 ->]; [|done].
    intros chan st ts' Hs' Hl. unfold scan_all_st. pose proof (loop_length _ _ _ _ _ _ _ _ _ Hs2 Hloop). rewrite (loop_scanned _ _ _ ts' _ st2) by (done || lia). cbn -[Nat.ltb].
    rewrite Hc. destruct (blen (input c) + 10 <? blen (input c)) eqn:E; [apply Nat.ltb_lt in E; lia|]. done.
Qed.

Lemma c92_session0 c fuel : lexer_ok c -> length (input c) + 1 <= fuel ->
  exists ts rest, stuck (regex_list c) rest /\ input c = texts ts ++ rest /\ munched c ts rest /\ tokens_from [] 0 ts /\
    (exists st, scanned (scan0 c) lexer_init ts st /\ scan0 c st = Ret (SErr, st)) /\
    forall ks, lexer_session0 c fuel ks = Ret (handed_out (fun ty => (ty =? 2) || (ty =? 3) || (ty =? 4)) (Some rest) ts ks).
Proof.
  intros Hok Hf. set (skip := fun ty => (ty =? 2) || (ty =? 3) || (ty =? 4)).
  destruct (scan_loop0_spec c skip 0 [] (input c) 0 lexer_init [] fuel Hok (lex_inv_init c) Hf)
    as (ts & rest & st1 & Hs & Hin & Hst & Hinv & Hloop). simpl in *.
  assert (Herr : scan0 c st1 = Ret (SErr, st1)).
  { unfold scan0. destruct (scan_body_spec c _ _ _ _ Hok Hinv) as [[H _]|(t & st' & r & H & -> & Hnn & _ & [(i & _ & _ & Hw) _] & _)]; [done|].
    exfalso. unfold texts in Hw; simpl in Hw. rewrite app_nil_r in Hw. by eapply wins_stuck. }
  destruct (scanned0_spec _ _ _ _ _ _ _ Hok (lex_inv_init c) Hs) as (rest' & E & Htf & Hm & Hall).
  assert (rest' = rest) as -> by (simpl in E; rewrite Hin in E; by apply app_inv_head in E).
  exists ts, rest. split_and!; try done; [by exists st1|].
  intros ks. unfold lexer_session0. destruct (session_spec (scan0 c) (fun chan => scan_all0_st c chan fuel) skip (Some rest) ts ks lexer_init st1 Hs Herr) as [st2 ->]; [|done].
  intros chan st ts' Hs' Hl. unfold scan_all0_st. fold skip. pose proof (loop_length _ _ _ _ _ _ _ _ _ Hs Hloop). rewrite (loop_scanned _ _ _ ts' _ st1) by (done || lia). cbn.
  destruct Hinv as (Hi & Hcu & _). by rewrite Hcu, Hi, drop_bytes_app.
Qed.

(** The stream is determined by the lexer. *)
Lemma stream_unique sc ts : forall st st1 ts' st2, scanned sc st ts st1 -> sc st1 = Ret (SErr, st1) -> scanned sc st ts' st2 -> sc st2 = Ret (SErr, st2) -> ts = ts'.
Proof.
  induction ts as [|t ts IH]; intros st st1 ts' st2 H1 E1 H2 E2; inversion H1; subst; inversion H2; subst; try congruence.
  f_equal; [congruence|]. eapply IH; [done..| |done]. congruence.
Qed.
Lemma ex_session : lexer_session (ex_lexer ex_text) 4 10 [Scan; Scan; ScanAll 0; Scan; ScanAll 0] =
  match scan_all (ex_lexer ex_text) 4 0 10 lexer_init with
  | Ret ([a; b; s], None) => Ret [Scanned (STok a); Scanned (STok (Token 4 (lit "BLANK") (Position 0 2) (Position 0 3) 0 (lit " ") 1 2 3)); ScannedAll [b; s] None; Scanned SErr; ScannedAll [] None]
  | _ => Panic
  end.
Proof. by vm_compute. Qed.
